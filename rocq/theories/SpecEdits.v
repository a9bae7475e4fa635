(** Edits of a text that should not matter: unknown lines, unknown components, letter case. *)
From Coq Require Import String Ascii ZArith Bool List.
From Verif Require Import Base Tokeniser SpecContent GoTime Types Params ParamTable PropTable Props SecTable Sections SpecTree SpecRules.
Import ListNotations.

Section Edits.
Context {env : Env}.

(** [added ok okl id items items']: at some depth, one item allowed by [ok] was put into a component,
    or one line allowed by [okl] was put among the lines of an alarm. *)
Inductive added (ok : secid -> item -> Prop) (okl : list cline -> cline -> Prop) : secid -> list item -> list item -> Prop :=
| Ad_here id pre i post : ok id i -> added ok okl id (pre ++ post) (pre ++ i :: post)
| Ad_comp id pre b body body' e post sid : In (upper (cl_value b), sid) (children id) -> added ok okl sid body body' ->
    added ok okl id (pre ++ IComp b body e :: post) (pre ++ IComp b body' e :: post)
| Ad_alarm id pre b l1 l l2 e post : okl (l1 ++ l2) l ->
    added ok okl id (pre ++ IAlarm b (l1 ++ l2) e :: post) (pre ++ IAlarm b (l1 ++ l :: l2) e :: post).

(** A line whose name the component does not know; in an alarm, one that alarms with its action
    do not know. *)
Definition unknown_line (id : secid) (i : item) : Prop := exists l, i = ILine l /\ is_plain l /\ ~ In (upper (cl_name l)) (known id).
Definition alarm_ids : list secid := [SAlarmAudio; SAlarmDisplay; SAlarmEmail; SAlarmURI; SAlarmNone].
Definition unknown_alarm_line (ls : list cline) (l : cline) : Prop :=
  is_plain l /\ cl_name l <> bs "ACTION" /\
  forall w id, In w (values_named (bs "ACTION") ls) -> action_is w id -> ~ In (upper (cl_name l)) (known id).
(** A component that is not read there. *)
Definition unknown_comp (id : secid) (i : item) : Prop := exists b body e, i = IOther b body e /\ shape_ok id i.
Definition no_line (ls : list cline) (l : cline) : Prop := False.

(** ** Letter case *)
Definition like (a b : bytes) : Prop := upper a = upper b.
(** The same line up to the case of the property name and the parameter names. *)
Definition line_like (l l' : cline) : Prop :=
  like (cl_name l) (cl_name l') /\ cl_value l = cl_value l' /\
  Forall2 (fun p q => like (cp_name p) (cp_name q) /\ cp_first p = cp_first q /\ cp_more p = cp_more q) (cl_params l) (cl_params l').
(** A first line of a component, where the case of the value can differ too. *)
Definition begin_like (l l' : cline) : Prop := like (cl_name l) (cl_name l') /\ like (cl_value l) (cl_value l').
(** In an alarm the names BEGIN, END and ACTION must not change. *)
Definition alarm_line_like (l l' : cline) : Prop := line_like l l' /\
  (cl_name l = cl_name l' \/ ~ In (upper (cl_name l)) [bs "BEGIN"; bs "END"; bs "ACTION"]).

Inductive dlike : ditem -> ditem -> Prop :=
| Dl_line l l' : line_like l l' -> dlike (DLine l) (DLine l')
| Dl_comp b b' body body' e e' : like (cl_name b) (cl_name b') -> cl_value b = cl_value b' -> Forall2 dlike body body' -> begin_like e e' ->
    dlike (DComp b body e) (DComp b' body' e').
Inductive ilike : item -> item -> Prop :=
| Il_line l l' : line_like l l' -> ilike (ILine l) (ILine l')
| Il_comp b b' body body' e e' : begin_like b b' -> Forall2 ilike body body' -> line_like e e' -> ilike (IComp b body e) (IComp b' body' e')
| Il_alarm b b' body body' e e' : begin_like b b' -> Forall2 alarm_line_like body body' -> alarm_line_like e e' -> ilike (IAlarm b body e) (IAlarm b' body' e')
| Il_other b b' body body' e e' : begin_like b b' -> Forall2 dlike body body' -> begin_like e e' -> ilike (IOther b body e) (IOther b' body' e').
End Edits.
