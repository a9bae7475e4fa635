(** Bytes of a text in their order. *)
From Coq Require Import List.
From Verif Require Import Base.
Import ListNotations.

(** [part d s]: [d] is [s] with some bytes left out. *)
Inductive part : bytes -> bytes -> Prop :=
| Part_nil : part [] []
| Part_keep c d s : part d s -> part (c :: d) (c :: s)
| Part_drop c d s : part d s -> part d (c :: s).
