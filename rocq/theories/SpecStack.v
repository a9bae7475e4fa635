(** How deep the components of a text are nested. *)
From Coq Require Import String Ascii ZArith Bool List.
From Verif Require Import Base GoStrings SpecContent GoTime Types Params Props Sections SpecTree.
Import ListNotations.
Local Open Scope Z_scope.

Section Nest.
Context {env : Env}.
Definition step_of (l : cline) : Z := if beq (upper (cl_name l)) (bs "BEGIN") then 1 else if beq (upper (cl_name l)) (bs "END") then -1 else 0.
(** BEGINs more than ENDs *)
Definition balance (ls : list cline) : Z := fold_right (fun l n => step_of l + n) 0 ls.
(** No stretch of the lines has more than [n] BEGINs more than ENDs. *)
Definition nested_within (n : nat) (ls : list cline) : Prop := forall a m b, ls = a ++ m ++ b -> balance m <= Z.of_nat n.

End Nest.

(** A component that no component knows, with [n] of its kind inside each other. *)
Definition box_begin : cline := CLine (bs "BEGIN") [] (bs "X").
Definition box_end : cline := CLine (bs "END") [] (bs "X").
Fixpoint boxes (n : nat) : list ditem := match n with O => [] | S n => [DComp box_begin (boxes n) box_end] end.
Definition box (n : nat) : item := IOther box_begin (boxes n) box_end.
