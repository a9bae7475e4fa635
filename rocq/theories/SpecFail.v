(** What makes Decode fail, and with which error: the first thing that is wrong. Together with [spells] (SpecTree.v)
    this settles the result of Decode for every text. *)
From Coq Require Import String Ascii ZArith Bool List.
From Verif Require Import Base Tokeniser SpecContent SpecBadLine GoTime Types Params ParamTable PropTable Props SecTable Sections SpecTree.
Import ListNotations.

Section Fail.
Context {env : Env}.

(** An error, or a panic. *)
Inductive fail := Failed (e : gerr) | Panicked.
Definition fail_res {A} (f : fail) : res A := match f with Failed e => Err e | Panicked => Panic end.

(** What follows the lines: the end of the text, a line that is not a content line, or the end of the lines of an alarm. *)
Inductive ending := AtEnd | AtBad (e : gerr) | AtList.
Definition end_fail (en : ending) : fail := match en with AtBad e => Failed e | _ => Failed ErrUnexpectedEOF end.
(** The end of the text inside an alarm is a panic. *)
Definition alarm_end_fail (en : ending) : fail := match en with AtEnd => Panicked | AtBad e => Failed e | AtList => Failed ErrUnexpectedEOF end.

(** [so_far id items fs]: the [items] of a component that has not ended are all right, and [fs] are the values of
    its fields. *)
Definition so_far (id : secid) (items : list item) (fs : list (list fval)) : Prop :=
  Forall (item_ok id) items /\ length fs = length (fields_of id) /\
  forall i fd, nth_error (fields_of id) i = Some fd ->
    holds fd items (nth i fs []) /\ (fd_mode fd <> FMany -> length (nth i fs []) <= 1).

(** The content of a skipped component called [n]. *)
Inductive skip_fault : bytes -> list cline -> ending -> fail -> Prop :=
| Sf_end n ds en : Forall skippable ds -> skip_fault n (flat_map dlines ds) en (end_fail en)
| Sf_name n ds e more en : Forall skippable ds -> is_end e -> upper (cl_value e) <> n ->
    skip_fault n (flat_map dlines ds ++ e :: more) en (Failed ErrInvalidEnd)
| Sf_in n ds b ls en f : Forall skippable ds -> is_begin b -> skip_fault (cl_value b) ls en f ->
    skip_fault n (flat_map dlines ds ++ b :: ls) en f.

(** The lines of an alarm up to its END, and the alarm that its actions ask for: all but the last are unknown. *)
Definition alarm_lines (body : list cline) : Prop := Forall (fun l => cl_name l <> bs "BEGIN" /\ cl_name l <> bs "END") body.
Definition action_so_far (body : list cline) (ty : option secid) : Prop :=
  let unknown u := forall id, ~ action_is u id in
  match ty with
  | Some sid => exists us w, values_named (bs "ACTION") body = us ++ [w] /\ Forall unknown us /\ action_is w sid
  | None => Forall unknown (values_named (bs "ACTION") body)
  end.

(** [fault id ls en f]: [ls] are the lines after the BEGIN of a component of type [id], up to [en]. *)
Inductive fault : secid -> list cline -> ending -> fail -> Prop :=
| Fault id items fs rest en f : so_far id items fs -> breaks id fs rest en f -> fault id (flat_map ilines items ++ rest) en f
(** [breaks id fs rest en f]: the first line of [rest], or the component that it begins, is wrong. *)
with breaks : secid -> list (list fval) -> list cline -> ending -> fail -> Prop :=
| Br_end id fs en : breaks id fs [] en (end_fail en)
(** a second value for a field that holds one *)
| Br_multiple id fs l more en i fd : nth_error (fields_of id) i = Some fd -> belongs fd (ILine l) ->
    fd_mode fd <> FMany -> present fs i = true -> breaks id fs (l :: more) en (Failed ErrMultiple)
(** a value or parameter that cannot be read *)
| Br_value id fs l more en i fd pid f : nth_error (fields_of id) i = Some fd -> belongs fd (ILine l) -> fd_type fd = FTProp pid ->
    fd_mode fd = FMany \/ present fs i = false -> prop_decode pid (params_tokens (cl_params l)) (cl_value l) = fail_res f ->
    breaks id fs (l :: more) en f
(** the end of another component *)
| Br_name id fs e more en : is_end e -> cl_value e <> sp_name (sec_spec id) -> breaks id fs (e :: more) en (Failed ErrInvalidEnd)
(** the end of the component, when it is not complete or breaks a rule *)
| Br_missing id fs e more en i fd : is_end e -> cl_value e = sp_name (sec_spec id) -> nth_error (fields_of id) i = Some fd ->
    fd_mode fd = FReq -> present fs i = false -> breaks id fs (e :: more) en (Failed ErrMissingRequired)
| Br_rule id fs e more en r : is_end e -> cl_value e = sp_name (sec_spec id) ->
    (forall i fd, nth_error (fields_of id) i = Some fd -> fd_mode fd = FReq -> present fs i = true) ->
    In r (sp_reqs (sec_spec id)) -> ~ extra_ok (present fs) r -> breaks id fs (e :: more) en (Failed ErrRequirementNotMet)
(** something inside a component, an alarm or a component that is skipped *)
| Br_comp id fs b ls en fd sid f : is_begin b -> In fd (fields_of id) -> fd_type fd = FTSec sid -> upper (cl_value b) = fd_key fd ->
    fault sid ls en f -> breaks id fs (b :: ls) en f
| Br_alarm id fs b ls en fd f : is_begin b -> In fd (fields_of id) -> fd_type fd = FTAlarm -> upper (cl_value b) = fd_key fd ->
    alarm_fault ls en f -> breaks id fs (b :: ls) en f
| Br_skip id fs b ls en f : is_begin b ->
    (forall fd, In fd (fields_of id) -> (forall pid, fd_type fd <> FTProp pid) -> upper (cl_value b) <> fd_key fd) ->
    skip_fault (upper (cl_value b)) ls en f -> breaks id fs (b :: ls) en f
with alarm_fault : list cline -> ending -> fail -> Prop :=
| Al_end body ty en : alarm_lines body -> action_so_far body ty -> alarm_fault body en (alarm_end_fail en)
| Al_begin body ty l more en : alarm_lines body -> action_so_far body ty -> cl_name l = bs "BEGIN" ->
    alarm_fault (body ++ l :: more) en (Failed ErrInvalidStructure)
| Al_action body sid l more en : alarm_lines body -> action_so_far body (Some sid) -> cl_name l = bs "ACTION" ->
    alarm_fault (body ++ l :: more) en (Failed ErrInvalidStructure)
| Al_none body e more en : alarm_lines body -> action_so_far body None -> cl_name e = bs "END" ->
    alarm_fault (body ++ e :: more) en (Failed ErrMissingAlarmAction)
| Al_content body sid e more en f : alarm_lines body -> action_so_far body (Some sid) -> cl_name e = bs "END" ->
    fault sid (body ++ [e]) AtList f -> alarm_fault (body ++ e :: more) en f.

(** The lines of a text. *)
Inductive cut_into : bytes -> list cline -> ending -> Prop :=
| Cu_end ls : Forall (fun l => cline_wf l = true) ls -> cut_into (lines_text ls) ls AtEnd
| Cu_last ls l : Forall (fun l => cline_wf l = true) (ls ++ [l]) -> cut_into (lines_text ls ++ cline_render l) (ls ++ [l]) AtEnd
| Cu_bad ls r e : Forall (fun l => cline_wf l = true) ls -> bad_line r e -> cut_into (lines_text ls ++ r) ls (AtBad e).

Definition opens_calendar (b : cline) : Prop := is_begin b /\ upper (cl_value b) = bs "VCALENDAR".
Inductive fails : bytes -> fail -> Prop :=
| Fl_empty s en : cut_into s [] en -> fails s (end_fail en)
| Fl_first s l ls en : cut_into s (l :: ls) en -> ~ opens_calendar l -> fails s (Failed ErrInvalidCalendar)
| Fl_inside s b ls en f : cut_into s (b :: ls) en -> opens_calendar b -> fault SCalendar ls en f -> fails s f.
End Fail.
Scheme fault_ind2 := Induction for fault Sort Prop
with breaks_ind2 := Induction for breaks Sort Prop
with alarm_fault_ind2 := Induction for alarm_fault Sort Prop.
