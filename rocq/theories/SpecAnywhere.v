(** A text, cut into pieces, with a fold between each two. *)
From Coq Require Import List.
From Verif Require Import Base SpecLines.
Import ListNotations.
Definition folded (ps : list bytes) : bytes := match ps with [] => [] | p :: ps => p ++ flat_map (fun q => fold3 ++ q) ps end.
