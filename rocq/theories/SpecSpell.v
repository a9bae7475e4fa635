(** The spelling of a calendar: the order of the parameters of a line, the quotes around their values, and the letter case
    of names. *)
From Coq Require Import String Ascii ZArith Bool List.
From Verif Require Import Base Lib Tokeniser SpecContent GoTime Types Params ParamTable PropTable Props SecTable Sections SpecTree SpecRules SpecProps SpecEdits.
Import ListNotations.
Local Open Scope string_scope.
Local Open Scope list_scope.

Section Spell.
Context {env : Env}.
(** The parameters whose values are in quotes, always. *)
Definition quoted_params : list bytes := map bs ["ALTREP"; "DELEGATED-FROM"; "DELEGATED-TO"; "DIR"; "MEMBER"; "SENT-BY"; "URI"; "ID"; "AGENT-ID"].
(** The same values, with or without quotes. *)
Definition values_same (n : bytes) (x x' : cparam) : Prop :=
  Forall2 (fun v v' => pvalue_text v = pvalue_text v' /\ (In n quoted_params -> v = v')) (cp_first x :: cp_more x) (cp_first x' :: cp_more x').
(** The same parameters with each name, in whatever order the names are. *)
Definition params_same (ps ps' : list cparam) : Prop := forall n, Forall2 (values_same n) (given n ps) (given n ps').
Definition line_same (l l' : cline) : Prop := like (cl_name l) (cl_name l') /\ cl_value l = cl_value l' /\ params_same (cl_params l) (cl_params l').
(** In an alarm the names BEGIN, END and ACTION must not change. *)
Definition alarm_line_same (l l' : cline) : Prop := line_same l l' /\
  (cl_name l = cl_name l' \/ ~ In (upper (cl_name l)) [bs "BEGIN"; bs "END"; bs "ACTION"]).

Inductive dsame : ditem -> ditem -> Prop :=
| Ds_line l l' : line_same l l' -> dsame (DLine l) (DLine l')
| Ds_comp b b' body body' e e' : like (cl_name b) (cl_name b') -> cl_value b = cl_value b' -> Forall2 dsame body body' -> begin_like e e' ->
    dsame (DComp b body e) (DComp b' body' e').
Inductive isame : item -> item -> Prop :=
| Is_line l l' : line_same l l' -> isame (ILine l) (ILine l')
| Is_comp b b' body body' e e' : begin_like b b' -> Forall2 isame body body' -> line_same e e' -> isame (IComp b body e) (IComp b' body' e')
| Is_alarm b b' body body' e e' : begin_like b b' -> Forall2 alarm_line_same body body' -> alarm_line_same e e' -> isame (IAlarm b body e) (IAlarm b' body' e')
| Is_other b b' body body' e e' : begin_like b b' -> Forall2 dsame body body' -> begin_like e e' -> isame (IOther b body e) (IOther b' body' e').
End Spell.
