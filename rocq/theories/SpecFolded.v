(** Text with folds added to it. *)
From Coq Require Import List.
From Verif Require Import Base Unfolder SpecLines.
Import ListNotations.

(** [folds_added s o]: [o] is [s] with CR LF SP put before some of its bytes, and nothing else. *)
Inductive folds_added : bytes -> bytes -> Prop :=
| FA_end : folds_added [] []
| FA_byte c s o : folds_added s o -> folds_added (c :: s) (c :: o)
| FA_fold c s o : folds_added s o -> folds_added (c :: s) (fold3 ++ c :: o).
