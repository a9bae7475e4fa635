(** Properties C98 to C101: the texts of errors. A message [m] is an error, with what is put around it by fmt.Errorf; [msg_text std m]
    is what its Error method returns, where [std] is that of an error of Go's standard library, if there is one inside; [errors_is m e] is errors.Is.
    [decode_m] is Decode with messages, over a text; [says s m] (SpecMessage.v) is the message of the first thing that is wrong in [s]. *)
From Coq Require Import String Ascii ZArith Bool List.
From Verif Require Import Base Tokeniser SpecContent SpecBadLine GoTime Types Params ParamTable PropTable Props SecTable Sections Folder Codec SpecTree SpecRfc SpecLine SpecFail SpecOut Messages SpecMessage.
From Verif Require Import MessageProofs MessageLineProofs MessageSecProofs MessageValidProofs MessagePathProofs Sample SampleFail SampleCal SampleMessage.
Import ListNotations.

(** C98: Decode returns a message exactly if it is about the first thing that is wrong, ... *)
Theorem C98_message_of_the_first_fault {env : Env} s m : decode_m s = MErr m <-> says s m.
Proof. exact (says_iff s m). Qed.
Print Assumptions C98_message_of_the_first_fault.
(** ... which is for a line the first parameter that is wrong, or else the value, ... *)
Theorem C98_message_of_a_line {env : Env} pid cps d m : prop_decode_m pid (params_tokens cps) d = MErr m <-> line_says pid cps d m.
Proof. exact (line_says_iff pid cps d m). Qed.
Print Assumptions C98_message_of_a_line.
(** ... and apart from messages this is Decode. *)
Theorem C98_same_outcome {env : Env} s : decode_bytes s = match decode_m s with MOk c => Ok c | MErr m => Err (root m) | MPanic => Panic | MNoFuel => NoFuel end.
Proof. exact (eq_sym (decode_erase s)). Qed.
Print Assumptions C98_same_outcome.
Example C98_applies {env : Env} : line_says PrDuration [] (bs "P") (Wrap (DecodingType (bs "Duration")) (Root ErrInvalidDuration)) /\
  (exists m, decode_m two_faults = MErr m /\ forall std, msg_text std m = bs "error decoding Calendar->Event: error decoding Event->Duration: error decoding Duration: invalid Duration") /\
  exists m, decode_m two_languages = MErr m /\ forall std, msg_text std m =
    bs "error decoding Calendar->Event: error decoding Event->Description: error decoding Description->Language: error decoding Language: invalid param value".
Proof. exact (conj duration_case (conj (proj1 message_cases) (proj1 (proj2 (proj2 (proj2 (proj2 message_cases))))))). Qed.

(** C99: errors.Is finds exactly the error that Decode failed with, unless something was given twice, ... *)
Theorem C99_errors_is_partial {env : Env} s m e : decode_m s = MErr m -> errors_is m e <-> decode_bytes s = Err e /\ e <> ErrMultiple.
Proof. exact (decode_is s m e). Qed.
Print Assumptions C99_errors_is_partial.
(** ... and then it finds nothing. *)
Theorem C99_errors_is_refuted {env : Env} s m : decode_m s = MErr m -> (forall e, ~ errors_is m e) <-> decode_bytes s = Err ErrMultiple.
Proof. exact (decode_is_none s m). Qed.
Print Assumptions C99_errors_is_refuted.
Example C99_applies {env : Env} : (exists m, decode_m two_faults = MErr m) /\ exists m, decode_m twice = MErr m /\ forall e, ~ errors_is m e.
Proof. exact (conj (let 'ex_intro _ m (conj H _) := proj1 message_cases in ex_intro _ m H) twice_case). Qed.

(** C100: the message names the way from the calendar to what is wrong: each name is a field of the struct that was named before it, except for alarms,
    which are named by their kind or not at all ([comp_path]), unless the text does not begin as a calendar, ... *)
Theorem C100_names_partial {env : Env} s m : decode_m s = MErr m ->
  (exists e, m = Root e /\ decode_bytes s = Err e /\ forall b ls en, cut_into s (b :: ls) en -> ~ opens_calendar b) \/ comp_path SCalendar m.
Proof. exact (message_path s m). Qed.
Print Assumptions C100_names_partial.
(** ... and begins with the name of the calendar. *)
Theorem C100_begins {env : Env} std id m : comp_path id m -> exists r, msg_text std m = bs "error decoding " ++ comp_word id ++ r.
Proof. exact (path_text std id m). Qed.
Print Assumptions C100_begins.
(** In an alarm the error may come without the name of a component, or with one that is not the name of the field. *)
Theorem C100_alarms_refuted {env : Env} :
  (exists m, decode_m no_action = MErr m /\ forall std, msg_text std m = bs "error decoding Calendar->Event: error decoding Event->Alarm: missing alarm action") /\
  (exists m, decode_m no_trigger = MErr m /\ forall std, msg_text std m = bs "error decoding Calendar->Event: error decoding Event->Alarm: error decoding AlarmAudio: required property missing").
Proof. exact (conj (proj1 (proj2 (proj2 message_cases))) (proj1 (proj2 (proj2 (proj2 message_cases))))). Qed.
Print Assumptions C100_alarms_refuted.

(** C101: Encode refuses a calendar with [e] exactly if [e] is the error of the first value that is not acceptable, ... *)
Theorem C101_encode_says {env : Env} {W E} (wr : W -> bytes -> W * option E) w cal : cal_typed cal ->
  forall e, Encode wr w cal = EncInvalid e w <-> exists m, refused_with cal m /\ errors_is m e.
Proof. exact (encode_says wr w cal). Qed.
Print Assumptions C101_encode_says.
(** ... with the message that leads to it, ... *)
Theorem C101_message {env : Env} cal m : cal_typed cal -> sec_valid_m cal = Some m <-> refused_with cal m.
Proof. exact (refused_iff cal m). Qed.
Print Assumptions C101_message.
(** ... which begins with the name of the component, ... *)
Theorem C101_begins {env : Env} std cal m : refused_with cal m -> exists r, msg_text std m = bs "error validating " ++ comp_word (sec_id cal) ++ bs "->" ++ r.
Proof. exact (refused_text std cal m). Qed.
Print Assumptions C101_begins.
(** ... but may end by saying that something was decoded. *)
Theorem C101_says_validating_refuted {env : Env} : cal_typed cal_year1 /\ exists m, refused_with cal_year1 m /\
  forall std, msg_text std m = bs "error validating Calendar->Event: error validating Event->DateTimeStamp: error decoding DateTimeStamp: invalid Time".
Proof. exact year1_case. Qed.
Print Assumptions C101_says_validating_refuted.
