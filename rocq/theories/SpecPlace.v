(** Places in a calendar where a line can stand, and where its value stands in what Decode returns. *)
From Coq Require Import String Ascii ZArith Bool List.
From Verif Require Import Base Tokeniser SpecContent GoTime Types Params ParamTable PropTable Props SecTable Sections SpecTree SpecRules SpecRfc SpecLine SpecComp SpecAlone.
Import ListNotations.

Section Place.
Context {env : Env}.

(** A place: between the items of a component; in a component inside it; in an alarm inside it. *)
Inductive place :=
| Here (pre post : list item)
| InComp (pre : list item) (b : cline) (q : place) (e : cline) (post : list item)
| InAlarm (pre : list item) (b : cline) (ls ls' : list cline) (e : cline) (post : list item).
(** The items with a line at the place, or with none. *)
Fixpoint fill (q : place) (o : option cline) : list item :=
  match q with
  | Here pre post => pre ++ match o with Some l => [ILine l] | None => [] end ++ post
  | InComp pre b q' e post => pre ++ IComp b (fill q' o) e :: post
  | InAlarm pre b ls ls' e post => pre ++ IAlarm b (ls ++ match o with Some l => [l] | None => [] end ++ ls') e :: post
  end.
(** [leads id q id' pre post]: from a component of type [id] the place leads into one of type [id'], between [pre] and [post]. *)
Inductive leads : secid -> place -> secid -> list item -> list item -> Prop :=
| Leads_here id pre post : leads id (Here pre post) id pre post
| Leads_comp id pre b q e post sid id' pre' post' : In (upper (cl_value b), sid) (children id) -> leads sid q id' pre' post' ->
    leads id (InComp pre b q e post) id' pre' post'
| Leads_alarm id pre b ls ls' e post sid : has_alarms id = true -> alarm_kind (ls ++ ls') sid -> Forall is_plain (ls ++ ls') -> is_end e ->
    leads id (InAlarm pre b ls ls' e post) sid (map ILine ls) (map ILine ls').

(** The rules between the lines of a component. *)
Definition rules_ok (id : secid) (items : list item) : Prop := cross_ok id items /\ one_of_two id items.
(** A line that may stand there: it is not one that must, it is not there twice if it may be there once, and the
    rules between lines are the same with and without it. *)
Definition may_stand (id : secid) (pre : list item) (l : cline) (post : list item) : Prop :=
  ~ In (upper (cl_name l)) (required id) /\ (In (upper (cl_name l)) (optional id) -> own_lines (upper (cl_name l)) (pre ++ post) = []) /\
  (rules_ok id (pre ++ ILine l :: post) <-> rules_ok id (pre ++ post)).

(** [put pid p q x y]: [y] is [x] with [p] put into the field for [pid] of the component at the place, after as many values as
    there are lines with the name before it; all else is the same. *)
Definition alarms_in (items : list item) : list item := filter (fun i => match i with IAlarm _ _ _ => true | _ => false end) items.
Inductive put (pid : propid) (p : prop) : place -> sec -> sec -> Prop :=
| Put_here pre post id t1 t2 a u v c : api_fields id = t1 ++ FTProp pid :: t2 -> length a = length t1 -> length u = length (own_lines (read_name pid) pre) ->
    put pid p (Here pre post) (Sec id (a ++ (u ++ v) :: c)) (Sec id (a ++ (u ++ FVProp pid p :: v) :: c))
| Put_comp pre b q e post id t1 sid t2 a u x y v c : api_fields id = t1 ++ FTSec sid :: t2 -> length a = length t1 ->
    upper (cl_value b) = comp_name sid -> length u = length (own_comps (comp_name sid) pre) -> put pid p q x y ->
    put pid p (InComp pre b q e post) (Sec id (a ++ (u ++ FVSec x :: v) :: c)) (Sec id (a ++ (u ++ FVSec y :: v) :: c))
| Put_alarm pre b ls ls' e post id t1 t2 a u x y v c : api_fields id = t1 ++ FTAlarm :: t2 -> length a = length t1 ->
    length u = length (alarms_in pre) -> put pid p (Here (map ILine ls) (map ILine ls')) x y ->
    put pid p (InAlarm pre b ls ls' e post) (Sec id (a ++ (u ++ FVAlarm (Some x) :: v) :: c)) (Sec id (a ++ (u ++ FVAlarm (Some y) :: v) :: c)).
End Place.
