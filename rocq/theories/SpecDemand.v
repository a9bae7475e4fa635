(** Words for properties C82 to C85: what a reader has given so far. *)
From Coq Require Import List Arith.
From Verif Require Import Base Unfolder.
Import ListNotations.

(** [gives sizes i buf r d]: calls number [i], [i+1], ... of the unfolder's Read with buffers of [sizes i], ... bytes
    give the bytes [d]; all of them return, and none but the last of them with an error. *)
Inductive gives (sizes : nat -> nat) : nat -> bytes -> rdr -> bytes -> Prop :=
| gives_nothing i buf r : gives sizes i buf r []
| gives_more fuel i buf r d buf' r' d' : unf_read fuel buf r (sizes i) = Ok (d, None, buf', r') ->
    gives sizes (S i) buf' r' d' -> gives sizes i buf r (d ++ d')
| gives_last fuel i buf r d e buf' r' : unf_read fuel buf r (sizes i) = Ok (d, Some e, buf', r') -> gives sizes i buf r d.

(** What a new unfolder gives. *)
Definition read_so_far (sizes : nat -> nat) (r : rdr) (d : bytes) : Prop := gives sizes 0 [] r d.
(** Everything there is: reading ends with the error [e]. *)
Definition read_all (sizes : nat -> nat) (r : rdr) (d : bytes) (e : rerr) : Prop := exists fuel, drain fuel sizes 0 [] r [] = Ok (d, e).

(** A program with enough fuel returns [x]. *)
Definition returns {A} (p : nat -> res A) (x : res A) : Prop := exists n, forall fuel, n <= fuel -> p fuel = x.

(** A reader that never returns without a byte or an error. io.Reader discourages it, but allows it. *)
Definition never_empty (chunks : list bytes) : Prop := Forall (fun c => c <> []) chunks.
(** A reader that, after [a] and CR, gives [n] times LF SP and nothing. *)
Fixpoint stutters (n : nat) : list bytes := match n with O => [] | S n => [LF; SP] :: [] :: stutters n end.
