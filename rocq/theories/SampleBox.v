(** A component in an alarm: an example. *)
From Coq Require Import String Ascii ZArith Bool List Lia.
From Verif Require Import Base Lib Strtok Tokeniser SpecContent TokeniserProofs GoTime Types Params ParamTable PropTable Props SecTable Sections Codec SpecTree SpecRules TreeProofs ExactProofs ShapeProofs SpecTrunc SampleTree SampleFail.
Import ListNotations.

Section Sample.
Context {env : Env}.
Definition box_line : cline := ln "BEGIN" "X-BOX".
Theorem box_case : framed t_begin t_items t_end /\ rest_ok CRLF /\ (exists cal, decode_bytes (frame_text t_begin t_items t_end ++ CRLF) = Ok cal) /\
  cut_at t_items to_alarm true /\ cl_name box_line = bs "BEGIN" /\ cline_wf box_line = true.
Proof.
  split; [exact t_framed|]. split; [right; exists []; reflexivity|]. split; [|split; [exact to_alarm_cut|split; reflexivity]].
  destruct t_means as [cal M]. exists cal. apply (decode_frame t_begin t_items t_end CRLF cal t_framed); [right; exists []; reflexivity|]. split; [exact M|reflexivity].
Qed.
End Sample.
