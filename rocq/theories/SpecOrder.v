(** The order of different properties and components does not matter: what it means to put the
    content of a component in another order. *)
From Coq Require Import String Ascii ZArith Bool List.
From Verif Require Import Base Tokeniser SpecContent GoTime Types Params ParamTable PropTable Props SecTable Sections SpecTree SpecRules.
Import ListNotations.

Section Order.
Context {env : Env}.

(** What stands under a name, the case of which does not count: the lines with that name, or the
    components with that name. *)
Definition line_named (n : bytes) (i : item) : bool := match i with ILine l => beq (upper (cl_name l)) n | _ => false end.
Definition comp_named (n : bytes) (i : item) : bool :=
  match i with ILine _ => false | IComp b _ _ | IAlarm b _ _ | IOther b _ _ => beq (upper (cl_value b)) n end.

(** The same content in an order that differs only between different names: under each name there are
    the same items, in the same order. *)
Definition same_names (items items' : list item) : Prop :=
  forall n, filter (line_named n) items = filter (line_named n) items' /\ filter (comp_named n) items = filter (comp_named n) items'.

(** One change of order, at any depth. In an alarm two lines that are next to each other, with
    different names, change places. *)
Inductive moved : list item -> list item -> Prop :=
| Mv_here items items' : same_names items items' -> moved items items'
| Mv_comp pre b body body' e post : moved body body' -> moved (pre ++ IComp b body e :: post) (pre ++ IComp b body' e :: post)
| Mv_alarm pre b l1 l l' l2 e post : is_plain l -> is_plain l' -> upper (cl_name l) <> upper (cl_name l') ->
    moved (pre ++ IAlarm b (l1 ++ l :: l' :: l2) e :: post) (pre ++ IAlarm b (l1 ++ l' :: l :: l2) e :: post).
(** Any number of changes of order. *)
Inductive reordered : list item -> list item -> Prop :=
| Re_same items : reordered items items
| Re_step items items' items'' : moved items items' -> reordered items' items'' -> reordered items items''.
End Order.
