(** Property C114: what a line adds. [fill q (Some l)]: the content of a calendar with the line [l] at the place [q], at any
    depth; [fill q None]: without it. *)
From Coq Require Import String Ascii ZArith Bool List.
From Verif Require Import Base Tokeniser SpecContent GoTime SecTable Types Params PropTable Props Sections Codec SpecTree SpecRules SpecLine SpecComp SpecAlone SpecPlace PlaceProofs SampleTree SamplePlace.
Import ListNotations.

(** C114: with the line, a calendar is read exactly if the line can be read by itself and the calendar without it can be
    read; it holds what that holds, and the value of the line, in its field, after those of the lines with its name that
    come before it. *)
Theorem C114_line_by_line {env : Env} b q l e tail id pre post pid cal : framed b (fill q (Some l)) e -> rest_ok tail -> leads SCalendar q id pre post -> is_plain l ->
  In (FTProp pid) (api_fields id) -> read_name pid = upper (cl_name l) -> may_stand id pre l post ->
  framed b (fill q None) e /\
  (decode_bytes (frame_text b (fill q (Some l)) e ++ tail) = Ok cal <->
   exists p cal0, line_means pid (cl_params l) (cl_value l) p /\ decode_bytes (frame_text b (fill q None) e ++ tail) = Ok cal0 /\ put pid p q cal0 cal).
Proof. exact (decode_place b q l e tail id pre post pid cal). Qed.
Print Assumptions C114_line_by_line.
Example C114_applies {env : Env} : framed t_begin (fill place1 (Some line1)) t_end /\ leads SCalendar place1 SEvent p_pre (p_post ++ [p_alarm]) /\ is_plain line1 /\
  In (FTProp PrCategories) (api_fields SEvent) /\ read_name PrCategories = upper (cl_name line1) /\ may_stand SEvent p_pre line1 (p_post ++ [p_alarm]) /\
  exists cal, decode_bytes (frame_text t_begin (fill place1 (Some line1)) t_end) = Ok cal.
Proof. exact place_case1. Qed.
Example C114_applies_in_alarms {env : Env} : framed t_begin (fill place2 (Some line2)) t_end /\ leads SCalendar place2 SAlarmAudio [ILine (ln "TRIGGER" "-PT15M")] [ILine (ln "ACTION" "AUDIO")] /\ is_plain line2 /\
  In (FTProp PrDuration) (api_fields SAlarmAudio) /\ read_name PrDuration = upper (cl_name line2) /\ may_stand SAlarmAudio [ILine (ln "TRIGGER" "-PT15M")] line2 [ILine (ln "ACTION" "AUDIO")] /\
  exists cal, decode_bytes (frame_text t_begin (fill place2 (Some line2)) t_end) = Ok cal.
Proof. exact place_case2. Qed.
