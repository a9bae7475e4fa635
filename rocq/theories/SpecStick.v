(** When a call of the unfolder's Read does not return. *)
From Coq Require Import List Arith.
From Verif Require Import Base Unfolder SpecCuts.
Import ListNotations.

(** [sticks n r]: with [n] bytes of room, one of the reads gives a piece that has a fold and ends like one. As long as
    folds are removed there is room for as many bytes again. *)
Inductive sticks : nat -> rdr -> Prop :=
| Sticks_now n r d e r' : 0 < n -> rd r n = (d, e, r') -> stuck d -> sticks n r
| Sticks_later n r d r' : 0 < n -> rd r n = (d, None, r') -> sticks (length d - length (unfold d)) r' -> sticks n r.

(** [comes_to sizes i held r j held' r']: calls number [i] to [j - 1] return, and leave [held'] held back and the
    reader [r']. *)
Inductive comes_to (sizes : nat -> nat) : nat -> bytes -> rdr -> nat -> bytes -> rdr -> Prop :=
| Comes_here i held r : comes_to sizes i held r i held r
| Comes_next fuel i held r d held1 r1 j held' r' : unf_read fuel held r (sizes i) = Ok (d, None, held1, r1) ->
    comes_to sizes (S i) held1 r1 j held' r' -> comes_to sizes i held r j held' r'.
(** The same, and these calls give [d]. *)
Inductive comes_with (sizes : nat -> nat) : nat -> bytes -> rdr -> bytes -> nat -> bytes -> rdr -> Prop :=
| Comes_nothing i held r : comes_with sizes i held r [] i held r
| Comes_more fuel i held r d held1 r1 d' j held' r' : unf_read fuel held r (sizes i) = Ok (d, None, held1, r1) ->
    comes_with sizes (S i) held1 r1 d' j held' r' -> comes_with sizes i held r (d ++ d') j held' r'.
