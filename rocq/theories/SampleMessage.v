(** Concrete messages. *)
From Coq Require Import String Ascii ZArith Bool List.
From Verif Require Import Base Lib Utf8 GoStrings Strtok Tokeniser SpecContent GoTime Types Params ParamTable PropTable Props SecTable Sections Folder Codec SpecTree SpecProps SpecOut Sample SampleTree SampleFail SampleCal DecodedProofs LabelTable Messages SpecMessage MessageProofs MessageLineProofs MessageSecProofs MessageValidProofs MessagePathProofs.
Import ListNotations.

Section S.
Context {env : Env}.
Definition in_event (l : list string) : bytes := lines (["BEGIN:VCALENDAR"; "VERSION:2.0"; "PRODID:x"; "BEGIN:VEVENT"]%string ++ l ++ ["END:VEVENT"; "END:VCALENDAR"]%string).
Definition twice : bytes := in_event ["UID:1"; "UID:2"]%string.
Definition no_action : bytes := in_event ["BEGIN:VALARM"; "TRIGGER:PT1H"; "END:VALARM"]%string.
Definition no_trigger : bytes := in_event ["BEGIN:VALARM"; "ACTION:AUDIO"; "END:VALARM"]%string.
Definition two_languages : bytes := in_event ["DESCRIPTION;LANGUAGE=en,fr:x"]%string.
Definition reads_as (s : bytes) (t : string) : Prop := exists m, decode_m s = MErr m /\ forall std, msg_text std m = bs t.
Theorem message_cases :
  reads_as two_faults "error decoding Calendar->Event: error decoding Event->Duration: error decoding Duration: invalid Duration" /\
  reads_as twice "error decoding Calendar->Event: error decoding Event: multiple UID" /\
  reads_as no_action "error decoding Calendar->Event: error decoding Event->Alarm: missing alarm action" /\
  reads_as no_trigger "error decoding Calendar->Event: error decoding Event->Alarm: error decoding AlarmAudio: required property missing" /\
  reads_as two_languages "error decoding Calendar->Event: error decoding Event->Description: error decoding Description->Language: error decoding Language: invalid param value" /\
  reads_as (bs "BEGIN:VEVENT" ++ CRLF) "invalid calendar".
Proof. repeat split; (eexists; split; [vm_compute; reflexivity|intros; vm_compute; reflexivity]). Qed.
Lemma duration_case : line_says PrDuration [] (bs "P") (Wrap (DecodingType (bs "Duration")) (Root ErrInvalidDuration)).
Proof. apply line_says_iff. vm_compute. reflexivity. Qed.
Lemma twice_case : exists m, decode_m twice = MErr m /\ forall e, ~ errors_is m e.
Proof. eexists. split; [vm_compute; reflexivity|]. intros e []. Qed.
Lemma year1_case : cal_typed cal_year1 /\ exists m, refused_with cal_year1 m /\
  forall std, msg_text std m = bs "error validating Calendar->Event: error validating Event->DateTimeStamp: error decoding DateTimeStamp: invalid Time".
Proof.
  assert (T : cal_typed cal_year1) by (apply (decoded_typed text_year1), year1_decodes). split; [exact T|].
  eexists. split; [apply (proj1 (refused_iff _ _ T)); vm_compute; reflexivity|]. intros std. vm_compute. reflexivity.
Qed.
End S.
