(** Properties C92 to C97: the order of lines, time zones, moments in UTC, lines that are judged by
    themselves, and calendars that are written alike. *)
From Coq Require Import String Ascii ZArith Bool List.
From Verif Require Import Base Tokeniser SpecContent GoTime Types Params ParamTable PropTable Props SecTable Sections Folder Codec SpecTree SpecRules SpecEdits SpecTime SpecProps SpecRfc SpecLine SpecComp SpecLang SpecCal SpecOrder SpecAlone.
From Verif Require Import OrderProofs AloneProofs LastModProofs Sample SampleTree SampleCal SampleOrder.
Import ListNotations.

(** C92: the content in another order, in which items with the same name keep their order, is read as
    the same calendar. *)
Theorem C92_order_of_names {env : Env} b items items' e tail : framed b items e -> rest_ok tail -> reordered items items' ->
  framed b items' e /\ forall cal, decode_bytes (frame_text b items e ++ tail) = Ok cal <-> decode_bytes (frame_text b items' e ++ tail) = Ok cal.
Proof. exact (decode_reordered b items items' e tail). Qed.
Print Assumptions C92_order_of_names.

Example C92_applies {env : Env} : framed t_begin (o_items (o_event o_alarm)) t_end /\ reordered (o_items (o_event o_alarm)) (o_items' (o_event' o_alarm')) /\
  exists cal, decode_bytes (frame_text t_begin (o_items (o_event o_alarm)) t_end ++ []) = Ok cal.
Proof. exact o_reordered. Qed.

(** C93 is false: a moment in a zone that the system does not know makes Decode fail, whatever zones the
    calendar defines; a zone whose name starts with a slash is never known; ... *)
Theorem C93_zones_of_the_calendar_refuted {env : Env} b items e tail id sub pid l tz :
  framed b items e -> rest_ok tail -> inside SCalendar items id sub -> In (FTProp pid) (api_fields id) -> In pid moments ->
  In l (own_lines (prop_name pid) sub) -> given (bs "VALUE") (cl_params l) = [] -> last_given (bs "TZID") (cl_params l) = Some tz -> load_location 0 tz = None ->
  forall cal, decode_bytes (frame_text b items e ++ tail) <> Ok cal.
Proof. exact (unknown_zone b items e tail id sub pid l tz). Qed.
Print Assumptions C93_zones_of_the_calendar_refuted.
Theorem C93_global_zones_refuted {env : Env} id s : load_location id (bs "/" ++ s) = None.
Proof. exact (slash_zone id s). Qed.
Print Assumptions C93_global_zones_refuted.

(** ... and the definition of a zone does not matter: with another one, all of the calendar is the same
    but its list of zones. *)
Theorem C93_zone_rules_refuted {env : Env} b pre z body body' ze post e tail cal cal' :
  framed b (pre ++ IComp z body ze :: post) e -> framed b (pre ++ IComp z body' ze :: post) e -> rest_ok tail -> upper (cl_value z) = bs "VTIMEZONE" ->
  decode_bytes (frame_text b (pre ++ IComp z body ze :: post) e ++ tail) = Ok cal -> decode_bytes (frame_text b (pre ++ IComp z body' ze :: post) e ++ tail) = Ok cal' ->
  forall i t, nth_error (api_fields SCalendar) i = Some t -> t <> FTSec STimezone -> nth i (sec_fields cal) [] = nth i (sec_fields cal') [].
Proof. exact (zone_rules_ignored b pre z body body' ze post e tail cal cal'). Qed.
Print Assumptions C93_zone_rules_refuted.

Example C93_applies {env : Env} : framed t_begin (z_items "+0100" z_start) t_end /\ inside SCalendar (z_items "+0100" z_start) SEvent (z_event z_start) /\ In (FTProp PrDateTimeStart) (api_fields SEvent) /\ In PrDateTimeStart moments /\
  In z_start (own_lines (prop_name PrDateTimeStart) (z_event z_start)) /\ given (bs "VALUE") (cl_params z_start) = [] /\ last_given (bs "TZID") (cl_params z_start) = Some (bs "/town/Town") /\ load_location 0 (bs "/town/Town") = None.
Proof. exact z_unknown. Qed.
Example C93_rules_apply : @framed env0 t_begin (z_items "+0100" z_town) t_end /\ @framed env0 t_begin (z_items "-0700" z_town) t_end /\
  (exists cal, @decode_bytes env0 (frame_text t_begin (z_items "+0100" z_town) t_end ++ []) = Ok cal) /\ exists cal, @decode_bytes env0 (frame_text t_begin (z_items "-0700" z_town) t_end ++ []) = Ok cal.
Proof. exact z_rules. Qed.

(** C94 is false: for every moment in a zone there is a calendar that is written and read back, with the
    moment in that zone, and without any definition of a zone. *)
Theorem C94_zones_are_defined_refuted {env : Env} t z : moment_good 0 t -> is_zero t = false -> t_loc t = LZone z 0 -> exists cal out, Encode ok_writer [] cal = EncDone None out /\
  (forall w sizes, (forall i, 1 <= sizes i) -> length (concat out) <= sizes 0 -> exists n, forall fuel, n <= fuel -> Decode fuel sizes [concat out] w = Ok cal) /\
  has_prop cal PrDateTimeStart (PStruct [] [Some (VDateTime t); None]) /\ forall y, part_of y cal -> sec_id y <> STimezone.
Proof. exact (zone_undefined t z). Qed.
Print Assumptions C94_zones_are_defined_refuted.
Example C94_applies : let t := @Time env0 1709280000 0 (@LZone env0 (bs "Europe/Town") 0) in moment_good 0 t /\ is_zero t = false.
Proof. exact zone_case. Qed.

(** C95: what is read as DTSTAMP, CREATED, COMPLETED, ACKNOWLEDGED and LAST-TRIGGERED is any moment, ... *)
Theorem C95_stamps_read {env : Env} pid cps d p : In pid stamps ->
  (line_means pid cps d p <-> exists t, datetime_text 0 (last_given (bs "TZID") cps) d t /\ p = PNew (VDateTime t)).
Proof. exact (stamps_read pid cps d p). Qed.
Print Assumptions C95_stamps_read.
(** ... not only one in UTC: every moment in local time is read too, and would be written. *)
Theorem C95_stamps_in_utc_refuted {env : Env} pid cps a c y mo d h mi x ns : In pid stamps -> last_given (bs "TZID") cps = None -> date_text a y mo d -> real_date y mo d -> clock_text c h mi x ns ->
  line_means pid cps (a ++ bs "T" ++ c) (PNew (VDateTime (go_date y mo d h mi x ns LLocal))).
Proof. exact (stamp_not_utc pid cps a c y mo d h mi x ns). Qed.
Print Assumptions C95_stamps_in_utc_refuted.
Theorem C95_stamps_written_refuted {env : Env} pid t : In pid stamps -> is_zero t = false -> prop_valid pid (PNew (VDateTime t)) = None.
Proof. exact (stamp_written pid t). Qed.
Print Assumptions C95_stamps_written_refuted.
Example C95_applies {env : Env} : In PrCreated stamps /\ last_given (bs "TZID") [] = None /\ date_text (bs "20161231") 2016 12 31 /\ real_date 2016 12 31 /\ clock_text (bs "235959") 23 59 59 0.
Proof. exact stamp_case. Qed.

(** C96 is false: if a text decodes, it still does if a line gives place to any other with the same name
    that can be read by itself; in an alarm, unless it is ACTION. So no rule between values is kept: an
    end after its start, an end of the type of its start, different UIDs. *)
Theorem C96_rules_between_values_refuted {env : Env} b items items' e tail : framed b items e -> framed b items' e -> rest_ok tail -> revalued SCalendar items items' ->
  (exists cal, decode_bytes (frame_text b items e ++ tail) = Ok cal) -> exists cal, decode_bytes (frame_text b items' e ++ tail) = Ok cal.
Proof. exact (decode_revalued b items items' e tail). Qed.
Print Assumptions C96_rules_between_values_refuted.
Example C96_applies {env : Env} : framed t_begin (a_items a_end) t_end /\ framed t_begin (a_items a_end') t_end /\ revalued SCalendar (a_items a_end) (a_items a_end') /\
  exists cal, decode_bytes (frame_text t_begin (a_items a_end) t_end ++ []) = Ok cal.
Proof. exact a_case. Qed.
Example C96_applies_in_alarms {env : Env} : framed t_begin (r_items r_old) t_end /\ framed t_begin (r_items r_new) t_end /\ revalued SCalendar (r_items r_old) (r_items r_new) /\
  exists cal, decode_bytes (frame_text t_begin (r_items r_old) t_end ++ []) = Ok cal.
Proof. exact r_case. Qed.

(** C97, for calendars whose values survive being written. They may have last-modified times, although
    these are not read back (C44), and the rules between fields need not be met. *)
Theorem C97_written_apart_partial {env : Env} cal cal' e e' out out' : sec_id cal = SCalendar -> sec_id cal' = SCalendar -> cal_good cal -> cal_good cal' ->
  Encode ok_writer [] cal = EncDone e out -> Encode ok_writer [] cal' = EncDone e' out' -> concat out = concat out' -> cal = cal'.
Proof. exact (said_apart cal cal' e e' out out'). Qed.
Print Assumptions C97_written_apart_partial.
Example C97_applies {env : Env} : (sec_id cal_plain = SCalendar /\ cal_good cal_plain /\ exists out, Encode ok_writer [] cal_plain = EncDone None out) /\
  (sec_id cal_modified = SCalendar /\ cal_good cal_modified /\ exists out, Encode ok_writer [] cal_modified = EncDone None out).
Proof. exact both_written. Qed.
(** It is false of others: two calendars whose moments differ by less than a second are written alike. *)
Theorem C97_written_apart_refuted {env : Env} {W E} (wr : W -> bytes -> W * option E) w s n n' l : is_zero (Time s n l) = false -> is_zero (Time s n' l) = false ->
  Encode wr w (cal_at (Time s n l)) = Encode wr w (cal_at (Time s n' l)).
Proof. exact (written_alike wr w s n n' l). Qed.
Print Assumptions C97_written_apart_refuted.
Example C97_refuted_applies {env : Env} : is_zero (Time 1709280000 0 LUTC) = false /\ is_zero (Time 1709280000 5 LUTC) = false /\ cal_at (Time 1709280000 0 LUTC) <> cal_at (Time 1709280000 5 LUTC).
Proof. exact alike_case. Qed.
