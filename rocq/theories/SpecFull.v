(** Lines folded as late as possible (RFC 5545 section 3.1). *)
From Coq Require Import List ZArith.
From Verif Require Import Base Utf8.
Import ListNotations.

(** The cut of a text into pieces: each piece takes as many characters as fit in the room there is. The first piece has
    [room] octets, the others 74, because the space of the fold takes one of the 75 of their line. *)
Inductive fill : nat -> bytes -> list bytes -> Prop :=
  | fill_last room s : length s <= room -> fill room s [s]
  | fill_more room p r s ps : valid_rune r = true ->
      length p <= room -> room < length p + length (encode_rune r) ->
      fill 74 (encode_rune r ++ s) ps ->
      fill room (p ++ encode_rune r ++ s) (p :: ps).

(** The lines that the pieces of one content line stand on. *)
Definition stand (ps : list bytes) : list bytes :=
  match ps with
  | [] => []
  | p :: qs => p :: map (cons SP) qs
  end.

(** The lines are those of the texts [ls], each folded as late as possible. *)
Definition folded_late (ls out : list bytes) : Prop :=
  exists pss, Forall2 (fill 75) ls pss /\ out = concat (map stand pss).

(** No line but the first begins with a space. *)
Definition no_space_first (ls : list bytes) : Prop := forall l, In l (tl ls) -> forall l', l <> SP :: l'.
