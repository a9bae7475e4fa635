(** Writers that keep to the contract of io.Writer: a count between zero and the length, and an error if it is less. *)
From Coq Require Import List ZArith.
From Verif Require Import Base ShortWrites.
Local Open Scope Z_scope.
Definition honest {W E} (wr : io_writer W E) : Prop := forall w q w' n e, wr w q = (w', n, e) -> 0 <= n <= Z.of_nat (length q) /\ (n < Z.of_nat (length q) -> e <> None).
(** The same writer, its counts dropped. *)
Definition uncounted {W E} (wr : io_writer W E) (w : W) (q : bytes) : W * option E := let '(w', _, e) := wr w q in (w', e).
