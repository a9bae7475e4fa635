(** A line in an event, and one in an alarm. *)
From Coq Require Import String Ascii ZArith Bool List Lia.
From Verif Require Import Base Lib Tokeniser SpecContent GoTime Types Params ParamTable PropTable Props SecTable Sections Codec SpecTree SpecRules SpecRfc SpecLine SpecComp SpecAlone SpecPlace Sample SampleTree.
Import ListNotations.

Section S.
Context {env : Env}.
Definition p_pre : list item := [ILine (ln "UID" "1"); ILine (ln "CATEGORIES" "A")].
Definition p_post : list item := [ILine (ln "Categories" "B"); ILine (ln "DTSTAMP" "20240229T101500Z")].
Definition p_alarm : item := IAlarm (ln "BEGIN" "VALARM") [ln "TRIGGER" "-PT15M"; ln "ACTION" "AUDIO"] (ln "END" "VALARM").
Definition p_head : list item := [ILine (ln "VERSION" "2.0"); ILine (ln "PRODID" "x")].
(** Between the two CATEGORIES of an event, *)
Definition place1 : place := InComp p_head (ln "BEGIN" "VEVENT") (Here p_pre (p_post ++ [p_alarm])) (ln "END" "VEVENT") [].
Definition line1 : cline := ln "categories" "X,Y".
(** and between the lines of its alarm. *)
Definition place2 : place := InComp p_head (ln "BEGIN" "VEVENT") (InAlarm (p_pre ++ p_post) (ln "BEGIN" "VALARM") [ln "TRIGGER" "-PT15M"] [ln "ACTION" "AUDIO"] (ln "END" "VALARM") []) (ln "END" "VEVENT") [].
Definition line2 : cline := ln "DURATION" "PT5M".

Lemma place_case1 : framed t_begin (fill place1 (Some line1)) t_end /\ leads SCalendar place1 SEvent p_pre (p_post ++ [p_alarm]) /\ is_plain line1 /\
  In (FTProp PrCategories) (api_fields SEvent) /\ read_name PrCategories = upper (cl_name line1) /\ may_stand SEvent p_pre line1 (p_post ++ [p_alarm]) /\
  exists cal, decode_bytes (frame_text t_begin (fill place1 (Some line1)) t_end) = Ok cal.
Proof.
  split; [apply framed_b; vm_compute; reflexivity|]. split; [econstructor; [left; reflexivity|constructor]|]. split; [split; discriminate|]. split; [do 22 right; left; reflexivity|]. split; [reflexivity|].
  split; [|eexists; vm_compute; reflexivity]. split; [intros H; repeat destruct H as [H|H]; (discriminate H || contradiction)|]. split; [intros H; exfalso; repeat destruct H as [H|H]; (discriminate H || contradiction)|].
  split; intros _; (split; [intros [H _]; apply H; reflexivity|exact Logic.I]).
Qed.
Lemma place_case2 : framed t_begin (fill place2 (Some line2)) t_end /\ leads SCalendar place2 SAlarmAudio [ILine (ln "TRIGGER" "-PT15M")] [ILine (ln "ACTION" "AUDIO")] /\ is_plain line2 /\
  In (FTProp PrDuration) (api_fields SAlarmAudio) /\ read_name PrDuration = upper (cl_name line2) /\ may_stand SAlarmAudio [ILine (ln "TRIGGER" "-PT15M")] line2 [ILine (ln "ACTION" "AUDIO")] /\
  exists cal, decode_bytes (frame_text t_begin (fill place2 (Some line2)) t_end) = Ok cal.
Proof.
  split; [apply framed_b; vm_compute; reflexivity|]. split.
  { econstructor; [left; reflexivity|]. change [ILine (ln "TRIGGER" "-PT15M")] with (map ILine [ln "TRIGGER" "-PT15M"]). change [ILine (ln "ACTION" "AUDIO")] with (map ILine [ln "ACTION" "AUDIO"]).
    constructor; [reflexivity| | |reflexivity]; [exists [], (bs "AUDIO"); split; [reflexivity|]; split; [constructor|left; reflexivity]|]. repeat (apply Forall_cons; [split; discriminate|]). constructor. }
  split; [split; discriminate|]. split; [right; left; reflexivity|]. split; [reflexivity|].
  split; [|eexists; vm_compute; reflexivity]. split; [intros H; repeat destruct H as [H|H]; (discriminate H || contradiction)|]. split; [intros _; reflexivity|].
  split; intros _; (split; [intros H; destruct (H eq_refl)|exact Logic.I]).
Qed.
End S.
