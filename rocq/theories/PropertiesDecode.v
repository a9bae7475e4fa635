(** Properties C10, C11, C40-C43, C45-C47, C49, C50 and C55: which texts Decode accepts and what it
    makes of them. A text is described by its lines and the nesting of its components ([framed]);
    [framed] texts are those in which the components are balanced, and C55 says that nothing else is
    accepted. *)
From Coq Require Import String List Arith Bool.
From Verif Require Import Base SpecLines Unfolder Tokeniser SpecContent GoTime Types SecTable Sections Codec SpecTree SpecPanic SpecRules SpecEdits.
From Verif Require Import ExactProofs TotalProofs ShapeProofs RulesProofs AddProofs CaseProofs PrefixProofs DecodeProofs Sample SampleTree.
Import ListNotations.

(** C10, apart from folds: Decode returns when no single read holds a fold. For folds in one read see
    C09 and [C10_decode_terminates_refuted]; missing here are folds in several reads. *)
Theorem C10_decode_terminates_partial {env : Env} chunks w sizes :
  (forall i, 1 <= sizes i) -> Forall (fun c => ~ has_fold c) chunks ->
  exists n, forall fuel, n <= fuel -> Decode fuel sizes chunks w <> NoFuel.
Proof. exact (decode_returns chunks w sizes). Qed.
Print Assumptions C10_decode_terminates_partial.

(** C11 is false: two texts on which Decode panics. *)
Theorem C11_decode_never_panics_refuted {env : Env} sizes :
  (forall i, 2 <= sizes i) ->
  exists n, forall fuel, n <= fuel ->
    Decode fuel sizes [in_alarm_text] false = Panic /\ Decode fuel sizes [bad_day_text] false = Panic.
Proof. exact (panics sizes). Qed.
Print Assumptions C11_decode_never_panics_refuted.

(** C11, what is true: these two are the only causes. A text on which Decode panics holds a rule with
    a BYDAY entry that is a plus sign and one digit, or it stops inside an alarm. *)
Theorem C11_decode_never_panics_partial {env : Env} s :
  decode_bytes s = Panic ->
  (exists ls l tail, s = lines_text ls ++ cline_render l ++ tail /\ (tail = [] \/ exists r, tail = CRLF ++ r) /\ rule_line l) \/
  (exists ls b body, (s = lines_text (ls ++ b :: body) \/ s ++ CRLF = lines_text (ls ++ b :: body)) /\ alarm_line b /\ open_alarm body).
Proof. exact (decode_bytes_panic s). Qed.
Print Assumptions C11_decode_never_panics_partial.

(** C55: Decode accepts a text exactly if it spells a calendar, and the calendar is the one spelled. *)
Theorem C55_decode_is_exact {env : Env} s cal : decode_bytes s = Ok cal <-> spells s cal.
Proof. exact (decode_bytes_exact s cal). Qed.
Print Assumptions C55_decode_is_exact.

(** C55, for a text of known shape. *)
Theorem C55_decode_of_a_shape {env : Env} b items e tail cal :
  framed b items e -> rest_ok tail ->
  (decode_bytes (frame_text b items e ++ tail) = Ok cal <-> means SCalendar items cal /\ cl_value e = bs "VCALENDAR").
Proof. exact (decode_frame b items e tail cal). Qed.
Print Assumptions C55_decode_of_a_shape.

(** C55: what Decode accepts has such a shape. *)
Theorem C55_accepted_texts_are_balanced {env : Env} s cal :
  decode_bytes s = Ok cal -> exists b items e tail,
    framed b items e /\ rest_ok tail /\ s = frame_text b items e ++ tail /\ means SCalendar items cal /\ cl_value e = bs "VCALENDAR".
Proof. exact (decode_has_frame s cal). Qed.
Print Assumptions C55_accepted_texts_are_balanced.

(** C40: in an accepted text every component gives each property it requires, once. *)
Theorem C40_required_properties {env : Env} b items e tail cal id sub n :
  framed b items e -> rest_ok tail -> decode_bytes (frame_text b items e ++ tail) = Ok cal ->
  inside SCalendar items id sub -> In n (required id) -> length (own_lines n sub) = 1.
Proof. exact (decoded_required b items e tail cal id sub n). Qed.
Print Assumptions C40_required_properties.

(** C41: a property that may be given once is not given twice. *)
Theorem C41_single_properties {env : Env} b items e tail cal id sub n :
  framed b items e -> rest_ok tail -> decode_bytes (frame_text b items e ++ tail) = Ok cal ->
  inside SCalendar items id sub -> In n (optional id) -> length (own_lines n sub) <= 1.
Proof. exact (decoded_optional b items e tail cal id sub n). Qed.
Print Assumptions C41_single_properties.

(** C42: the rules between properties hold. *)
Theorem C42_cross_property_rules {env : Env} b items e tail cal id sub :
  framed b items e -> rest_ok tail -> decode_bytes (frame_text b items e ++ tail) = Ok cal ->
  inside SCalendar items id sub -> cross_ok id sub.
Proof. exact (decoded_cross b items e tail cal id sub). Qed.
Print Assumptions C42_cross_property_rules.

(** C40-C42, for the calendar that is returned: every component in it obeys the rules. *)
Theorem C42_decoded_calendars_are_lawful {env : Env} s cal y : decode_bytes s = Ok cal -> part_of y cal -> lawful y.
Proof. exact (decoded_lawful s cal y). Qed.
Print Assumptions C42_decoded_calendars_are_lawful.

(** C43 is false, in every case: an accepted email or URI alarm has exactly one of DURATION and
    REPEAT, where it should have both or neither. *)
Theorem C43_duration_with_repeat_refuted {env : Env} b items e tail cal id sub :
  framed b items e -> rest_ok tail -> decode_bytes (frame_text b items e ++ tail) = Ok cal ->
  inside SCalendar items id sub -> id = SAlarmEmail \/ id = SAlarmURI ->
  (gives "DURATION" sub <-> ~ gives "REPEAT" sub).
Proof. exact (decoded_repeat b items e tail cal id sub). Qed.
Print Assumptions C43_duration_with_repeat_refuted.

(** C45: a line with a name that its component does not know does not matter. *)
Theorem C45_unknown_properties_ignored {env : Env} b items items' e tail :
  framed b items e -> framed b items' e -> rest_ok tail ->
  added unknown_line unknown_alarm_line SCalendar items items' ->
  forall cal, decode_bytes (frame_text b items e ++ tail) = Ok cal <-> decode_bytes (frame_text b items' e ++ tail) = Ok cal.
Proof. exact (decode_unknown_line b items items' e tail). Qed.
Print Assumptions C45_unknown_properties_ignored.

(** C46, except in alarms: a component that is not known there does not matter. *)
Theorem C46_unknown_components_skipped_partial {env : Env} b items items' e tail :
  framed b items e -> framed b items' e -> rest_ok tail ->
  added unknown_comp no_line SCalendar items items' ->
  forall cal, decode_bytes (frame_text b items e ++ tail) = Ok cal <-> decode_bytes (frame_text b items' e ++ tail) = Ok cal.
Proof. exact (decode_unknown_comp b items items' e tail). Qed.
Print Assumptions C46_unknown_components_skipped_partial.

(** C46 is false in alarms. *)
Theorem C46_unknown_components_skipped_refuted {env : Env} :
  is_ok (decode_bytes (alarm_text ["ACTION:AUDIO"; "TRIGGER:-PT15M"]%string)) = true /\
  is_ok (decode_bytes (alarm_text ["ACTION:AUDIO"; "TRIGGER:-PT15M"; "BEGIN:X-BOX"; "END:X-BOX"]%string)) = false.
Proof. exact alarm_box. Qed.
Print Assumptions C46_unknown_components_skipped_refuted.

(** C47, with exceptions: the case of property names, parameter names and component names does not
    matter, apart from component names after END, from BEGIN, END and ACTION in alarms, and from the
    names of components nested in a component that is skipped. *)
Theorem C47_names_ignore_case_partial {env : Env} b items e b' items' e' tail :
  framed b items e -> framed b' items' e' -> rest_ok tail ->
  begin_like b b' -> Forall2 ilike items items' -> line_like e e' ->
  forall cal, decode_bytes (frame_text b items e ++ tail) = Ok cal <-> decode_bytes (frame_text b' items' e' ++ tail) = Ok cal.
Proof. exact (decode_case b items e b' items' e' tail). Qed.
Print Assumptions C47_names_ignore_case_partial.

(** C47 is false after END: a calendar whose last line has another case is never accepted. *)
Theorem C47_names_ignore_case_refuted {env : Env} b items e tail :
  framed b items e -> rest_ok tail -> cl_value e <> bs "VCALENDAR" ->
  forall cal, decode_bytes (frame_text b items e ++ tail) <> Ok cal.
Proof. exact (decode_end_case b items e tail). Qed.
Print Assumptions C47_names_ignore_case_refuted.

(** C49: what follows the calendar does not matter. *)
Theorem C49_trailing_data_ignored {env : Env} s t cal :
  (decode_bytes s = Ok cal -> decode_bytes (s ++ CRLF ++ t) = Ok cal) /\
  (decode_bytes (s ++ CRLF) = Ok cal -> decode_bytes (s ++ CRLF ++ t) = Ok cal).
Proof. exact (conj (decode_more s t cal) (decode_more_line s t cal)). Qed.
Print Assumptions C49_trailing_data_ignored.

(** C50: a calendar text that is cut before its end is never accepted. *)
Theorem C50_truncated_calendars_fail {env : Env} b items e p q cal :
  framed b items e -> cl_value e = bs "VCALENDAR" -> frame_text b items e = p ++ q -> q <> [] -> decode_bytes p <> Ok cal.
Proof. exact (PrefixProofs.decode_cut b items e p q cal). Qed.
Print Assumptions C50_truncated_calendars_fail.

(** A calendar with an event, an alarm, a time zone and a component that is not known. *)
Example C55_applies {env : Env} : framed t_begin t_items t_end /\ is_ok (decode_bytes (frame_text t_begin t_items t_end ++ CRLF)) = true.
Proof. exact (conj t_framed t_decodes). Qed.
Example C40_applies {env : Env} : inside SCalendar t_items SEvent t_event /\ inside SCalendar t_items STimezone t_zone /\ inside SCalendar t_items SAlarmAudio t_audio.
Proof. exact (conj t_event_inside (conj t_zone_inside t_alarm_inside)). Qed.
Example C43_applies {env : Env} :
  is_ok (decode_bytes (alarm_text (mail ++ ["DURATION:PT5M"; "REPEAT:2"]%string))) = false /\ is_ok (decode_bytes (alarm_text mail)) = false /\
  is_ok (decode_bytes (alarm_text (mail ++ ["DURATION:PT5M"]%string))) = true.
Proof. vm_compute. repeat split. Qed.
Example C10_applies : Forall (fun c => ~ has_fold c) [text1; text1].
Proof. exact text1_twice. Qed.
Example C11_applies {env : Env} : decode_bytes in_alarm_text = Panic /\ decode_bytes bad_day_text = Panic.
Proof. vm_compute. split; reflexivity. Qed.
Example C42_applies {env : Env} : exists cal ev, decode_bytes (frame_text t_begin t_items t_end) = Ok cal /\ part_of ev cal /\ sec_id ev = SEvent.
Proof. exact t_event_part. Qed.
Example C45_applies {env : Env} : framed t_begin t_items_line t_end /\ added unknown_line unknown_alarm_line SCalendar t_items t_items_line.
Proof. exact (conj t_line_framed t_line_added). Qed.
Example C46_applies {env : Env} : framed t_begin t_items_comp t_end /\ added unknown_comp no_line SCalendar t_items t_items_comp.
Proof. exact (conj t_comp_framed t_comp_added). Qed.
Example C47_applies {env : Env} : framed t_begin2 t_items2 t_end2 /\ begin_like t_begin t_begin2 /\ Forall2 ilike t_items t_items2 /\ line_like t_end t_end2.
Proof. exact (conj t2_framed t2_like). Qed.
Example C47_refuted_applies {env : Env} : framed t_begin t_items t_end3 /\ cl_value t_end3 <> bs "VCALENDAR".
Proof. exact t3_framed. Qed.
Example C50_applies {env : Env} : exists p q, frame_text t_begin t_items t_end = p ++ q /\ q <> [].
Proof. exists (frame_text t_begin t_items (ln "END" "VCALENDA")), (bs "R"). split; [vm_compute; reflexivity|discriminate]. Qed.
