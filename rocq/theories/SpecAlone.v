(** Lines that are judged by themselves, and the properties that hold moments in time. *)
From Coq Require Import String Ascii ZArith Bool List.
From Verif Require Import Base Tokeniser SpecContent GoTime Types Params ParamTable PropTable Props SecTable Sections SpecTree SpecRules SpecRfc SpecLine SpecComp.
Import ListNotations.

Section Alone.
Context {env : Env}.

(** A line that can be read as the property of its name, in a component of type [id]. *)
Definition readable (id : secid) (l : cline) : Prop := forall pid, In (FTProp pid) (api_fields id) -> read_name pid = upper (cl_name l) ->
  exists p, line_means pid (cl_params l) (cl_value l) p.

(** The kind of an alarm with these lines: its last ACTION is the only one with a known word. *)
Definition alarm_kind (body : list cline) (sid : secid) : Prop := exists us w,
  values_named (bs "ACTION") body = us ++ [w] /\ Forall (fun u => forall id, ~ action_is u id) us /\ action_is w sid.

(** In a component, at any depth, a line gives place to another with the same name that can be read. In
    an alarm, not for a line ACTION. The content of a component that is skipped may change at will. *)
Inductive revalued : secid -> list item -> list item -> Prop :=
| Rv_here id pre l l' post : upper (cl_name l') = upper (cl_name l) -> readable id l' ->
    revalued id (pre ++ ILine l :: post) (pre ++ ILine l' :: post)
| Rv_comp id pre b body body' e post sid : In (upper (cl_value b), sid) (children id) -> revalued sid body body' ->
    revalued id (pre ++ IComp b body e :: post) (pre ++ IComp b body' e :: post)
| Rv_alarm id pre b ls l l' ls' e post sid : alarm_kind (ls ++ l :: ls') sid -> is_plain l -> cl_name l <> bs "ACTION" -> cl_name l' = cl_name l -> readable sid l' ->
    revalued id (pre ++ IAlarm b (ls ++ l :: ls') e :: post) (pre ++ IAlarm b (ls ++ l' :: ls') e :: post)
| Rv_other id pre b body body' e post : Forall skippable body' ->
    revalued id (pre ++ IOther b body e :: post) (pre ++ IOther b body' e :: post).

(** Properties whose values are moments, or periods between them, unless VALUE says that they are
    dates; TRIGGER needs VALUE for that. *)
Definition moments : list propid := [PrDateTimeStart; PrDateTimeEnd; PrDue; PrRecurrenceID; PrExceptionDateTime; PrRecurrenceDateTimes; PrFreeBusy;
  PrCompleted; PrCreated; PrDateTimeStamp; PrLastTriggered; PrAcknowledged].
(** Those that must be in UTC: RFC 5545 sections 3.8.2.1 and 3.8.7, RFC 9074 section 6.1. *)
Definition stamps : list propid := [PrCompleted; PrCreated; PrDateTimeStamp; PrLastTriggered; PrAcknowledged].
End Alone.
