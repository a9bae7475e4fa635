(** What a reader gives. *)
From Coq Require Import List Arith.
From Verif Require Import Base Unfolder AnyReader.
Import ListNotations.

(** It returns no more than there is room for. *)
Definition honest {R} (read : io_reader R) : Prop := forall s k, length (fst (fst (read s k))) <= k.
(** [gave read s pieces e s']: in the state [s] the reader is called [length pieces] times, with buffers of any lengths, and returns these pieces;
    no call has an error but the last, if there is one. *)
Inductive gave {R} (read : io_reader R) : R -> list bytes -> option rerr -> R -> Prop :=
| gave_none s : gave read s [] None s
| gave_more s k d s1 cs e s2 : 1 <= k -> read s k = (d, None, s1) -> gave read s1 cs e s2 -> gave read s (d :: cs) e s2
| gave_last s k d e s1 : 1 <= k -> read s k = (d, Some e, s1) -> gave read s [d] (Some e) s1.
(** The reader that has these pieces, and then [r]; nothing, if the last piece came with an error. *)
Definition before (cs : list bytes) (r : rdr) : rdr := Rdr (cs ++ r_chunks r) (r_with r) (r_err r).
Definition may_follow (e : option rerr) (r : rdr) : Prop := match e with None => r_chunks r = [] -> r_with r = false | Some e => r = Rdr [] true e end.
(** It does not return without a byte or an error. *)
Definition gives_something {R} (read : io_reader R) : Prop := forall s k s', 1 <= k -> read s k <> ([], None, s').
(** It gives a text in any pieces, which may depend on anything; [left s] is what is left of it. Its end comes by itself. *)
Definition gives_text {R} (read : io_reader R) (left : R -> bytes) : Prop := forall s k, 1 <= k ->
  match read s k with (d, None, s') => d <> [] /\ left s = d ++ left s' | (d, Some _, _) => d = [] /\ left s = [] end.
(** A result, with [r] for the state of the reader that is left. *)
Definition set_r {A R} (r : rdr) (x : res (A * R)) : res (A * rdr) := match x with Ok (a, _) => Ok (a, r) | Err e => Err e | Panic => Panic | NoFuel => NoFuel end.
