(** Components in alarms. *)
From Coq Require Import String Ascii ZArith Bool List.
From Verif Require Import Base Strtok Tokeniser SpecContent GoTime Types Params ParamTable PropTable Props SecTable Sections Codec SpecTree SpecRules SpecTrunc BoxProofs SampleTree SampleFail SampleBox.
Import ListNotations.

(** C46 is false at every place in every alarm: if a text decodes, it no longer does with a line
    BEGIN between the lines of one of its alarms, whatever the component is called and whatever
    comes after that line. The error is always the same. *)
Theorem C46_in_alarms_refuted {env : Env} b items e tail cal pre l :
  framed b items e -> rest_ok tail -> decode_bytes (frame_text b items e ++ tail) = Ok cal -> cut_at items pre true ->
  cl_name l = bs "BEGIN" -> cline_wf l = true -> forall r, decode_bytes (lines_text (b :: pre ++ [l]) ++ r) = Err ErrInvalidStructure.
Proof. exact (box_in_alarm b items e tail cal pre l). Qed.
Print Assumptions C46_in_alarms_refuted.
Example C46_in_alarms_applies {env : Env} : framed t_begin t_items t_end /\ rest_ok CRLF /\ (exists cal, decode_bytes (frame_text t_begin t_items t_end ++ CRLF) = Ok cal) /\
  cut_at t_items to_alarm true /\ cl_name box_line = bs "BEGIN" /\ cline_wf box_line = true.
Proof. exact box_case. Qed.
