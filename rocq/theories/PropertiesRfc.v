(** Properties C62 to C65: Decode against tables copied from RFC 5545 and the Go API (SpecRfc.v,
    SpecLine.v, SpecComp.v), which do not mention the tables of the model. *)
From Coq Require Import String Ascii List ZArith Bool.
From Verif Require Import Base GoStrings Tokeniser SpecContent GoTime Types Params ParamTable PropTable Props SecTable Sections Codec SpecText SpecTree SpecRules SpecEdits SpecProps SpecRfc SpecLine LineProofs SpecComp CompProofs RfcProofs Sample SampleTree SampleRfc.
Import ListNotations.

(** C62: a line is read as a property exactly if its parameters and its value are what the tables say. *)
Theorem C62_lines_read {env : Env} pid cps d p : prop_decode pid (params_tokens cps) d = Ok p <-> line_means pid cps d p.
Proof. exact (line_exact pid cps d p). Qed.
Print Assumptions C62_lines_read.

(** Every parameter that RFC 5545 gives a property is read, except two, ... *)
Theorem C62_parameters_read_partial pid n : In n (rfc_params pid) <-> In n (read_params pid) \/ In (pid, n) unread_params.
Proof. exact (params_read pid n). Qed.
Print Assumptions C62_parameters_read_partial.

(** ... RELATED of TRIGGER, so that an alarm relative to the end is read as one relative to the start,
    and LANGUAGE of REQUEST-STATUS. *)
Theorem C62_parameters_read_refuted {env : Env} pid a x b d : In (pid, upper (cp_name x)) unread_params ->
  prop_decode pid (params_tokens (a ++ x :: b)) d = prop_decode pid (params_tokens (a ++ b)) d.
Proof. exact (unread_ignored pid a x b d). Qed.
Print Assumptions C62_parameters_read_refuted.

Example C62_applies : @line_means env0 PrAttendee a_params (bs "mailto:j@town")
  (PStruct [Some (PVEnum 2); None; None; None; None; None; None; None; Some (PVText (bs "Jo")); None; None] [Some (VCalendarAddress (bs "mailto:j@town" : @url env0))]).
Proof. exact a_line. Qed.
Example C62_refuted_applies {env : Env} : In (PrTrigger, upper (cp_name (CParam (bs "RELATED") (Plain (bs "END")) []))) unread_params.
Proof. left. reflexivity. Qed.

(** C63 is false: a text with a list of dates, times or periods in EXDATE, RDATE or FREEBUSY, as
    RFC 5545 allows, does not decode, ... *)
Theorem C63_lists_read_refuted {env : Env} b items e tail id sub pid l form :
  framed b items e -> rest_ok tail -> inside SCalendar items id sub -> In (FTProp pid) (api_fields id) ->
  pid = PrExceptionDateTime \/ pid = PrRecurrenceDateTimes \/ pid = PrFreeBusy ->
  In l (own_lines (prop_name pid) sub) -> form_of form -> rfc_list form (cl_value l) ->
  forall cal, decode_bytes (frame_text b items e ++ tail) <> Ok cal.
Proof. exact (lists_rejected b items e tail id sub pid l form). Qed.
Print Assumptions C63_lists_read_refuted.

(** ... nor does one with a REQUEST-STATUS as RFC 5545 demands it, with a semicolon after the code. *)
Theorem C63_request_status_refuted {env : Env} b items e tail id sub l code rest :
  framed b items e -> rest_ok tail -> inside SCalendar items id sub -> In (FTProp PrRequestStatus) (api_fields id) ->
  In l (own_lines (bs "REQUEST-STATUS") sub) -> forallb (fun c => negb (is_bsl c)) code = true -> cl_value l = code ++ bs ";" ++ rest ->
  forall cal, decode_bytes (frame_text b items e ++ tail) <> Ok cal.
Proof. exact (request_status_rejected b items e tail id sub l code rest). Qed.
Print Assumptions C63_request_status_refuted.

Example C63_applies {env : Env} : framed t_begin (x_items x_dates) t_end /\
  inside SCalendar (x_items x_dates) SEvent [ILine (ln "DTSTAMP" "20240229T101500Z"); ILine (ln "UID" "1"); ILine x_dates] /\
  rfc_list rfc_date_time (cl_value x_dates) /\ framed t_begin (x_items x_status) t_end /\
  exists cal, decode_bytes (frame_text t_begin (x_items (ln "EXDATE" "20240301T090000Z")) t_end) = Ok cal.
Proof. exact x_lists. Qed.

(** C64: a text decodes to a calendar exactly if it has the shape of one and, in every component, each
    field of the struct holds the values of the lines and components with its name, in order. *)
Theorem C64_fields_exact {env : Env} s cal : decode_bytes s = Ok cal <-> text_means s cal.
Proof. exact (decode_text_means s cal). Qed.
Print Assumptions C64_fields_exact.

(** Every property that RFC 5545 allows in a component is read, except those of [lost_props], ... *)
Theorem C64_properties_read_partial id n : In n (rfc_once id ++ rfc_many id) -> In n (known id) \/ lost id n.
Proof. exact (rfc_read id n). Qed.
Print Assumptions C64_properties_read_partial.

(** ... which do not matter: CALSCALE, METHOD, RRULE in a to-do, ATTACH in an email alarm and
    LAST-MODIFIED are dropped without an error. *)
Theorem C64_properties_read_refuted {env : Env} b items items' e tail :
  framed b items e -> framed b items' e -> rest_ok tail -> added lost_line lost_alarm_line SCalendar items items' ->
  forall cal, decode_bytes (frame_text b items e ++ tail) = Ok cal <-> decode_bytes (frame_text b items' e ++ tail) = Ok cal.
Proof. exact (lost_ignored b items items' e tail). Qed.
Print Assumptions C64_properties_read_refuted.

Example C64_applies {env : Env} : framed t_begin (r_items [] r_alarm) t_end /\ framed t_begin (r_items [ILine (ln "METHOD" "CANCEL")] r_alarm) t_end /\ framed t_begin (r_items [] r_alarm') t_end /\
  (added lost_line lost_alarm_line SCalendar (r_items [] r_alarm) (r_items [ILine (ln "METHOD" "CANCEL")] r_alarm) /\ added lost_line lost_alarm_line SCalendar (r_items [] r_alarm) (r_items [] r_alarm')) /\
  exists cal, decode_bytes (frame_text t_begin (r_items [] r_alarm) t_end ++ []) = Ok cal.
Proof. exact (conj (proj1 r_framed) (conj (proj1 (proj2 r_framed)) (conj (proj2 (proj2 r_framed)) (conj r_added r_decodes)))). Qed.

(** C65 is false: numbers have no range but that of int32, ... *)
Theorem C65_numbers_refuted {env : Env} pid cps n : In pid [PrPriority; PrPercentComplete; PrSequence; PrRepeat] -> (- 2 ^ 31 <= n < 2 ^ 31)%Z ->
  line_means pid cps (fmt_int n) (PNew (VInteger n)).
Proof. exact (numbers_read pid cps n). Qed.
Print Assumptions C65_numbers_refuted.

(** ... and a calendar of version 3.0 with an event of priority 77 and sequence number -1 that is a
    draft and ends before it starts, and a to-do that is confirmed and done to 200 per cent, is read, and
    would be written. *)
Theorem C65_values_refuted {env : Env} : exists cal ev td, decode_bytes odd_text = Ok cal /\ sec_valid cal = None /\ part_of ev cal /\ part_of td cal /\ sec_id ev = SEvent /\ sec_id td = STodo /\
  has_prop cal PrVersion (PNew (VText (bs "3.0"))) /\ has_prop ev PrPriority (PNew (VInteger 77)) /\ has_prop ev PrSequence (PNew (VInteger (-1))) /\ has_prop ev PrStatus (PEnum 6) /\
  has_prop td PrPercentComplete (PNew (VInteger 200)) /\ has_prop td PrStatus (PEnum 1) /\
  exists t t', has_prop ev PrDateTimeStart (PStruct [] [Some (VDateTime t); None]) /\ has_prop ev PrDateTimeEnd (PStruct [] [Some (VDateTime t'); None]) /\ (t_sec t' < t_sec t)%Z.
Proof. exact odd_read. Qed.
Print Assumptions C65_values_refuted.

Example C65_applies : In PrPriority [PrPriority; PrPercentComplete; PrSequence; PrRepeat] /\ (- 2 ^ 31 <= 77 < 2 ^ 31)%Z.
Proof. split; [left; reflexivity|split; [discriminate|reflexivity]]. Qed.
