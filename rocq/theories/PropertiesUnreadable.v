(** Property C121, and more on C11 and C91. [fill q (Some l)]: the content of a calendar with the line [l] at the place [q], at
    any depth; [fill q None]: without it (SpecPlace.v). *)
From Coq Require Import String Ascii ZArith Bool List.
From Verif Require Import Base GoStrings Tokeniser SpecContent GoTime SecTable Types Params PropTable Props Sections Codec SpecTree SpecRules SpecLine SpecComp SpecAlone SpecPlace SpecFail SpecUnreadable FatalProofs UnreadableProofs SampleTree SamplePlace SampleUnreadable.
Import ListNotations.

(** C121: a line that cannot be read makes Decode fail wherever it stands, with what is wrong with that line, if the calendar can be
    read without it; the first of its name, if it may be given once. *)
Theorem C121_unreadable_line {env : Env} b q l e tail id pre post pid cal f : framed b (fill q (Some l)) e -> rest_ok tail -> leads SCalendar q id pre post -> is_plain l ->
  In (FTProp pid) (api_fields id) -> read_name pid = upper (cl_name l) -> (In (upper (cl_name l)) (required id ++ optional id) -> own_lines (upper (cl_name l)) pre = []) ->
  decode_bytes (frame_text b (fill q None) e ++ tail) = Ok cal -> prop_decode pid (params_tokens (cl_params l)) (cl_value l) = fail_res f ->
  decode_bytes (frame_text b (fill q (Some l)) e ++ tail) = fail_res f.
Proof. exact (decode_unreadable b q l e tail id pre post pid cal f). Qed.
Print Assumptions C121_unreadable_line.
Example C121_applies {env : Env} : framed t_begin (fill place1 (Some bad_created)) t_end /\ leads SCalendar place1 SEvent p_pre (p_post ++ [p_alarm]) /\ is_plain bad_created /\
  In (FTProp PrCreated) (api_fields SEvent) /\ read_name PrCreated = upper (cl_name bad_created) /\ own_lines (upper (cl_name bad_created)) p_pre = [] /\
  (exists cal, decode_bytes (frame_text t_begin (fill place1 None) t_end ++ []) = Ok cal) /\
  prop_decode PrCreated (params_tokens (cl_params bad_created)) (cl_value bad_created) = fail_res (Failed ErrStd).
Proof. exact unreadable_event. Qed.
Example C121_applies_in_alarms {env : Env} : framed t_begin (fill place2 (Some bad_repeat)) t_end /\ leads SCalendar place2 SAlarmAudio [ILine (ln "TRIGGER" "-PT15M")] [ILine (ln "ACTION" "AUDIO")] /\ is_plain bad_repeat /\
  In (FTProp PrRepeat) (api_fields SAlarmAudio) /\ read_name PrRepeat = upper (cl_name bad_repeat) /\ own_lines (upper (cl_name bad_repeat)) [ILine (ln "TRIGGER" "-PT15M")] = [] /\
  (exists cal, decode_bytes (frame_text t_begin (fill place2 None) t_end ++ []) = Ok cal) /\
  exists e, prop_decode PrRepeat (params_tokens (cl_params bad_repeat)) (cl_value bad_repeat) = fail_res (Failed e).
Proof. exact unreadable_alarm. Qed.

(** C11: exactly the lines on which reading a property panics: an RRULE that is good up to a BYDAY entry of a plus sign and one digit, ... *)
Theorem C11_fatal_lines {env : Env} pid cps s : prop_decode pid (params_tokens cps) s = Panic <-> pid = PrRecurrenceRule /\ fatal_rule cps s.
Proof. exact (line_panics pid cps s). Qed.
Print Assumptions C11_fatal_lines.
(** ... and with one of them in it, at any place where there can be an RRULE, Decode panics on every calendar. *)
Theorem C11_fatal_lines_refuted {env : Env} b q l e tail id pre post cal : framed b (fill q (Some l)) e -> rest_ok tail -> leads SCalendar q id pre post -> In (FTProp PrRecurrenceRule) (api_fields id) ->
  upper (cl_name l) = bs "RRULE" -> own_lines (bs "RRULE") pre = [] -> decode_bytes (frame_text b (fill q None) e ++ tail) = Ok cal -> fatal_rule (cl_params l) (cl_value l) ->
  decode_bytes (frame_text b (fill q (Some l)) e ++ tail) = Panic.
Proof. exact (decode_fatal b q l e tail id pre post cal). Qed.
Print Assumptions C11_fatal_lines_refuted.
Example C11_fatal_applies {env : Env} : framed t_begin (fill place1 (Some bad_by_day)) t_end /\ leads SCalendar place1 SEvent p_pre (p_post ++ [p_alarm]) /\ In (FTProp PrRecurrenceRule) (api_fields SEvent) /\ upper (cl_name bad_by_day) = bs "RRULE" /\
  own_lines (bs "RRULE") p_pre = [] /\ (exists cal, decode_bytes (frame_text t_begin (fill place1 None) t_end ++ []) = Ok cal) /\ fatal_rule (cl_params bad_by_day) (cl_value bad_by_day).
Proof. exact fatal_event. Qed.

(** C91 is false of every alarm: after its action, a component that is begun in lower or mixed case and ended in capitals gives ErrUnexpectedEOF,
    whatever follows. *)
Theorem C91_in_alarms_refuted {env : Env} b q e tail cal id pre post x y : framed b (fill q None) e -> rest_ok tail -> decode_bytes (frame_text b (fill q None) e ++ tail) = Ok cal -> leads SCalendar q id pre post -> after_action q ->
  small_box x y -> cline_wf x = true -> cline_wf y = true -> forall r, decode_bytes (lines_text (b :: lines_before q ++ [x; y]) ++ r) = Err ErrUnexpectedEOF.
Proof. exact (decode_small_box b q e tail cal id pre post x y). Qed.
Print Assumptions C91_in_alarms_refuted.
Example C91_in_alarms_applies {env : Env} : framed t_begin (fill place3 None) t_end /\ (exists cal, decode_bytes (frame_text t_begin (fill place3 None) t_end ++ []) = Ok cal) /\
  (exists id pre post, leads SCalendar place3 id pre post) /\ after_action place3 /\ small_box (ln "Begin" "X-A") (ln "END" "X-A").
Proof. exact box_case. Qed.
