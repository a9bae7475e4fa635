(** Lines that cannot be read, in the calendars of SamplePlace.v. *)
From Coq Require Import String Ascii ZArith Bool List Lia.
From Verif Require Import Base Lib GoStrings Tokeniser SpecContent GoTime Types Params ParamTable PropTable Props SecTable Sections Codec SpecTree SpecRules SpecRfc SpecLine LineProofs SpecComp SpecAlone SpecPlace SpecFail TotalProofs Sample SampleTree SamplePlace SpecUnreadable FatalProofs UnreadableProofs.
Import ListNotations.

Section S.
Context {env : Env}.
Definition bad_created : cline := ln "Created" "20240230T000000Z".
Definition bad_repeat : cline := ln "REPEAT" "many".
Definition bad_by_day : cline := ln "RRULE" "COUNT=3;BYDAY=MO,+5,XX;FREQ=DAILY".

Lemma unreadable_event : framed t_begin (fill place1 (Some bad_created)) t_end /\ leads SCalendar place1 SEvent p_pre (p_post ++ [p_alarm]) /\ is_plain bad_created /\
  In (FTProp PrCreated) (api_fields SEvent) /\ read_name PrCreated = upper (cl_name bad_created) /\ own_lines (upper (cl_name bad_created)) p_pre = [] /\
  (exists cal, decode_bytes (frame_text t_begin (fill place1 None) t_end ++ []) = Ok cal) /\
  prop_decode PrCreated (params_tokens (cl_params bad_created)) (cl_value bad_created) = fail_res (Failed ErrStd).
Proof.
  split; [apply framed_b; vm_compute; reflexivity|]. split; [econstructor; [left; reflexivity|constructor]|]. split; [split; discriminate|]. split; [repeat first [left; reflexivity | right]|]. split; [reflexivity|].
  split; [reflexivity|]. split; [eexists; vm_compute; reflexivity|]. vm_compute. reflexivity.
Qed.
Lemma unreadable_alarm : framed t_begin (fill place2 (Some bad_repeat)) t_end /\ leads SCalendar place2 SAlarmAudio [ILine (ln "TRIGGER" "-PT15M")] [ILine (ln "ACTION" "AUDIO")] /\ is_plain bad_repeat /\
  In (FTProp PrRepeat) (api_fields SAlarmAudio) /\ read_name PrRepeat = upper (cl_name bad_repeat) /\ own_lines (upper (cl_name bad_repeat)) [ILine (ln "TRIGGER" "-PT15M")] = [] /\
  (exists cal, decode_bytes (frame_text t_begin (fill place2 None) t_end ++ []) = Ok cal) /\
  exists e, prop_decode PrRepeat (params_tokens (cl_params bad_repeat)) (cl_value bad_repeat) = fail_res (Failed e).
Proof.
  split; [apply framed_b; vm_compute; reflexivity|]. split; [exact (proj1 (proj2 place_case2))|]. split; [split; discriminate|]. split; [repeat first [left; reflexivity | right]|]. split; [reflexivity|].
  split; [reflexivity|]. split; [eexists; vm_compute; reflexivity|]. eexists. vm_compute. reflexivity.
Qed.
Lemma fatal_case : fatal_rule (cl_params bad_by_day) (cl_value bad_by_day).
Proof.
  exists (bs "COUNT=3;"), (bs "MO,"), "5"%char, (bs ",XX;FREQ=DAILY"). split; [reflexivity|]. split; [right; exists (bs "COUNT=3"); reflexivity|]. split; [right; exists (bs "MO"); reflexivity|].
  split; [cbn; intuition discriminate|]. split; [reflexivity|]. split; [right; exists (bs "XX;FREQ=DAILY"); left; reflexivity|]. eexists. apply line_exact. vm_compute. reflexivity.
Qed.
Lemma fatal_event : framed t_begin (fill place1 (Some bad_by_day)) t_end /\ leads SCalendar place1 SEvent p_pre (p_post ++ [p_alarm]) /\ In (FTProp PrRecurrenceRule) (api_fields SEvent) /\ upper (cl_name bad_by_day) = bs "RRULE" /\
  own_lines (bs "RRULE") p_pre = [] /\ (exists cal, decode_bytes (frame_text t_begin (fill place1 None) t_end ++ []) = Ok cal) /\ fatal_rule (cl_params bad_by_day) (cl_value bad_by_day).
Proof.
  split; [apply framed_b; vm_compute; reflexivity|]. split; [exact (proj1 (proj2 unreadable_event))|]. split; [repeat first [left; reflexivity | right]|]. split; [reflexivity|]. split; [reflexivity|]. split; [eexists; vm_compute; reflexivity|exact fatal_case].
Qed.
Definition place3 : place := InComp p_head (ln "BEGIN" "VEVENT") (InAlarm (p_pre ++ p_post) (ln "BEGIN" "VALARM") [ln "TRIGGER" "-PT15M"; ln "ACTION" "AUDIO"] [ln "REPEAT" "2"; ln "DURATION" "PT1M"] (ln "END" "VALARM") []) (ln "END" "VEVENT") [].
Lemma box_case : framed t_begin (fill place3 None) t_end /\ (exists cal, decode_bytes (frame_text t_begin (fill place3 None) t_end ++ []) = Ok cal) /\
  (exists id pre post, leads SCalendar place3 id pre post) /\ after_action place3 /\ small_box (ln "Begin" "X-A") (ln "END" "X-A").
Proof.
  split; [apply framed_b; vm_compute; reflexivity|]. split; [eexists; vm_compute; reflexivity|]. split.
  { do 3 eexists. econstructor; [left; reflexivity|]. constructor; [reflexivity| | |reflexivity]; [exists [], (bs "AUDIO"); split; [reflexivity|]; split; [constructor|left; reflexivity]|]. repeat (apply Forall_cons; [split; discriminate|]). constructor. }
  split; [exists SAlarmAudio, [], (bs "AUDIO"); split; [reflexivity|]; split; [constructor|left; reflexivity]|]. split; [reflexivity|]. split; [discriminate|]. split; reflexivity.
Qed.
(** RRULE is the only property that can panic. *)
Theorem line_panics pid cps s : prop_decode pid (params_tokens cps) s = Panic <-> pid = PrRecurrenceRule /\ fatal_rule cps s.
Proof.
  split; [|intros [-> H]; apply fatal_exact, H]. intros H. destruct (proj2 (prop_total pid _ _) H) as [-> _]. split; [reflexivity|]. apply fatal_exact, H.
Qed.
Theorem decode_fatal b q l e tail id pre post cal : framed b (fill q (Some l)) e -> rest_ok tail -> leads SCalendar q id pre post -> In (FTProp PrRecurrenceRule) (api_fields id) ->
  upper (cl_name l) = bs "RRULE" -> own_lines (bs "RRULE") pre = [] -> decode_bytes (frame_text b (fill q None) e ++ tail) = Ok cal -> fatal_rule (cl_params l) (cl_value l) ->
  decode_bytes (frame_text b (fill q (Some l)) e ++ tail) = Panic.
Proof.
  intros F T Ld IF N O D Ft. change (@Panic sec) with (@fail_res sec Panicked). eapply decode_unreadable; try eassumption.
  - unfold is_plain, is_begin, is_end, line_is. rewrite N. split; discriminate.
  - rewrite N. reflexivity.
  - rewrite N. intros _. exact O.
  - apply fatal_exact in Ft. exact Ft.
Qed.
End S.
