(** A calendar that is cut off between two of its lines: the lines that are left, and whether the cut is inside an alarm. *)
From Coq Require Import String List Bool.
From Verif Require Import Base SpecContent GoTime Sections SpecTree.
Import ListNotations.

(** [cut_at items pre alarm]: [pre] are the first lines of [items]. *)
Inductive cut_at : list item -> list cline -> bool -> Prop :=
| Cut_here items more : cut_at (items ++ more) (flat_map ilines items) false
| Cut_comp items b body e more pre alarm : cut_at body pre alarm -> cut_at (items ++ IComp b body e :: more) (flat_map ilines items ++ b :: pre) alarm
| Cut_other items b body e more pre post : flat_map dlines body = pre ++ post ->
    cut_at (items ++ IOther b body e :: more) (flat_map ilines items ++ b :: pre) false
| Cut_alarm items b pre post e more : cut_at (items ++ IAlarm b (pre ++ post) e :: more) (flat_map ilines items ++ b :: pre) true.

(** BEGIN is always written in capitals. *)
Definition plain_begins {env : Env} (ls : list cline) : Prop := forall l, In l ls -> is_begin l -> cl_name l = bs "BEGIN".
