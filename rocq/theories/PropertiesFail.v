(** Properties C86 to C91: how Decode fails. [cut_into s ls en]: the text [s] is the lines [ls], and then
    comes its end ([AtEnd]) or a line that is not a content line ([AtBad e]); [fails s f]: [f] is what the first thing
    wrong in [s] leads to (SpecFail.v); [bad_line r e]: [r] does not begin with a content line, because of [e] (SpecBadLine.v). *)
From Coq Require Import String Ascii List Arith Bool.
From Verif Require Import Base Tokeniser SpecContent GoTime Types Params ParamTable PropTable Props SecTable Sections Codec SpecTree SpecRules SpecBadLine SpecFail SpecTrunc SpecErrors.
From Verif Require Import BadLineProofs FailTextProofs FailMoreProofs TruncProofs ErrorsProofs Sample SampleTree SampleFail.
Import ListNotations.

(** C86: a calendar that is cut off between two lines gives ErrUnexpectedEOF, if the cut is not inside an alarm, ... *)
Theorem C86_cut_calendars_partial {env : Env} s b items cal pre : opens_calendar b -> means SCalendar items cal -> cut_at items pre false ->
  cut_into s (b :: pre) AtEnd -> decode_bytes s = Err ErrUnexpectedEOF.
Proof. exact (fun Op M => decode_cut_off s b items cal pre false Op M). Qed.
Print Assumptions C86_cut_calendars_partial.
(** ... and a panic if it is, ... *)
Theorem C86_cut_calendars_refuted {env : Env} s b items cal pre : opens_calendar b -> means SCalendar items cal -> cut_at items pre true ->
  cut_into s (b :: pre) AtEnd -> decode_bytes s = Panic.
Proof. exact (fun Op M => decode_cut_off s b items cal pre true Op M). Qed.
Print Assumptions C86_cut_calendars_refuted.
(** ... and there are no other cuts. *)
Theorem C86_every_cut {env : Env} items pre post : flat_map ilines items = pre ++ post -> exists al, cut_at items pre al.
Proof. exact (every_cut items pre post). Qed.
Print Assumptions C86_every_cut.
Example C86_applies {env : Env} : opens_calendar t_begin /\ (exists cal, means SCalendar t_items cal) /\ cut_at t_items to_alarm true /\ cut_at t_items to_other false /\
  cut_into (lines_text (t_begin :: to_alarm)) (t_begin :: to_alarm) AtEnd /\ cut_into (lines_text (t_begin :: to_other)) (t_begin :: to_other) AtEnd.
Proof. exact cut_case. Qed.

(** C87: Decode fails with [f] exactly if that is what the first thing that is wrong leads to, ... *)
Theorem C87_first_fault {env : Env} s f : decode_bytes s = fail_res f <-> fails s f.
Proof. exact (decode_fails s f). Qed.
Print Assumptions C87_first_fault.
(** ... and every text either spells one calendar or fails in one way. *)
Theorem C87_settled {env : Env} s :
  (exists cal, (forall c, spells s c <-> c = cal) /\ forall f, ~ fails s f) \/ (exists f, (forall g, fails s g <-> g = f) /\ forall c, ~ spells s c).
Proof. exact (settled s). Qed.
Print Assumptions C87_settled.
Example C87_applies {env : Env} : fails (two_faults ++ then_more) (Failed ErrInvalidDuration) /\
  fails (lines ["BEGIN:VCALENDAR"; "BEGIN:VEVENT"]%string ++ then_more) (Failed ErrInvalidContentLineName).
Proof. exact (conj (proj1 (decode_fails _ (Failed _)) (proj1 (proj2 fault_case))) (proj1 (decode_fails _ (Failed _)) (proj2 (proj2 (proj2 fault_case))))). Qed.

(** C88: when whole lines have led to an error, what follows makes no difference. *)
Theorem C88_fails_at_once {env : Env} a x e : decode_bytes (a ++ CRLF) = Err e -> e <> ErrUnexpectedEOF -> decode_bytes (a ++ CRLF ++ x) = Err e.
Proof. exact (decode_more a x e). Qed.
Print Assumptions C88_fails_at_once.
Example C88_applies {env : Env} : decode_bytes two_faults = Err ErrInvalidDuration /\ exists a, two_faults = a ++ CRLF.
Proof. exact (conj (proj1 fault_case) (proj1 (proj2 (proj2 fault_case)))). Qed.

(** C89: the error for a line that is not a content line names the part of it that is wrong. *)
Theorem C89_bad_lines s e : get_phrase (new_tokeniser s) = Err e <-> bad_line s e.
Proof. exact (get_phrase_bad s e). Qed.
Print Assumptions C89_bad_lines.
Theorem C89_decode_bad_lines {env : Env} s e : In e line_errors -> decode_bytes s = Err e ->
  exists ls r, Forall (fun l => cline_wf l = true) ls /\ s = lines_text ls ++ r /\ bad_line r e.
Proof. exact (line_error s e). Qed.
Print Assumptions C89_decode_bad_lines.
Example C89_applies : bad_line (bs "DURATION PT1H" ++ CRLF) ErrInvalidContentLineName /\ bad_line (bs ";X=1:2") ErrInvalidContentLine /\
  bad_line (bs "UID;X-A=1,") ErrInvalidContentLineParamValue /\
  bad_line (bs "UID;X-A=" ++ DQ :: bs "1") ErrInvalidContentLineQuotedParamValue /\ bad_line (bs "UID:1" ++ [CR]) ErrInvalidContentLineValue.
Proof. exact bad_line_case. Qed.

(** C90: the error says what is wrong: the first line, ... *)
Theorem C90_not_a_calendar {env : Env} s : decode_bytes s = Err ErrInvalidCalendar <-> exists l ls en, cut_into s (l :: ls) en /\ ~ opens_calendar l.
Proof. exact (invalid_calendar s). Qed.
Print Assumptions C90_not_a_calendar.
(** ... a property of the text that cannot be read, ... *)
Theorem C90_value_errors {env : Env} s e : ~ In e structure_errors -> decode_bytes s = Err e ->
  exists ls en l pid, cut_into s ls en /\ In l ls /\ prop_decode pid (params_tokens (cl_params l)) (cl_value l) = Err e /\ In e (prop_errors (snd (prop_spec pid))).
Proof. exact (value_error s e). Qed.
Print Assumptions C90_value_errors.
(** ... with an error that belongs to the types of its value or to its parameters and is none of the others. *)
Theorem C90_property_errors {env : Env} pid ps s e : prop_decode pid ps s = Err e ->
  In e (prop_errors (snd (prop_spec pid))) /\ ~ In e structure_errors.
Proof. exact (fun H => conj (prop_only pid ps s e H) (prop_errors_apart pid e (prop_only pid ps s e H))). Qed.
Print Assumptions C90_property_errors.
Example C90_applies {env : Env} : decode_bytes two_faults = Err ErrInvalidDuration /\ ~ In ErrInvalidDuration structure_errors /\
  decode_bytes (lines ["BEGIN:VEVENT"]%string) = Err ErrInvalidCalendar.
Proof. split; [exact (proj1 fault_case)|]. split; [cbn [In structure_errors]; intuition discriminate|vm_compute; reflexivity]. Qed.

(** C91: ErrUnexpectedEOF says that the text has ended, if BEGIN is always written in capitals, ... *)
Theorem C91_eof_is_the_end_partial {env : Env} s ls en : cut_into s ls en -> plain_begins ls -> decode_bytes s = Err ErrUnexpectedEOF -> en = AtEnd.
Proof. exact (eof_partial s ls en). Qed.
Print Assumptions C91_eof_is_the_end_partial.
(** ... and not always otherwise: here the calendar is complete, and the component in the alarm is skipped if its END is
    in lower case. *)
Theorem C91_eof_is_the_end_refuted {env : Env} :
  decode_bytes (nested_text ["begin:X-A"; "END:X-A"]%string) = Err ErrUnexpectedEOF /\ is_ok (decode_bytes (nested_text ["begin:X-A"; "end:X-A"]%string)) = true /\
  is_ok (decode_bytes (nested_text [])) = true.
Proof. exact nested_case. Qed.
Print Assumptions C91_eof_is_the_end_refuted.
Example C91_applies {env : Env} : decode_bytes (lines_text (t_begin :: to_other)) = Err ErrUnexpectedEOF /\ cut_into (lines_text (t_begin :: to_other)) (t_begin :: to_other) AtEnd /\
  plain_begins (t_begin :: to_other).
Proof. exact eof_case. Qed.
