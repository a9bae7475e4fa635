(** The order of texts. *)
From Coq Require Import List ZArith.
From Verif Require Import Base.
Import ListNotations.

(** [s] comes before [t] in the order of their bytes, as strings.Compare has it. *)
Inductive earlier : bytes -> bytes -> Prop :=
| EL_end b t : earlier [] (b :: t)
| EL_here a b s t : (code a < code b)%Z -> earlier (a :: s) (b :: t)
| EL_later c s t : earlier s t -> earlier (c :: s) (c :: t).
