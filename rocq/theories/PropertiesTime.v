(** Properties C26-C33 and C54: dates, times, periods and recurrence rules. Seconds are counted from
    1970-01-01T00:00:00Z: -62167219200 is the start of year 0, 253402300800 that of year 10000. *)
From Coq Require Import String Ascii ZArith Bool List.
From Verif Require Import Base GoTime Types SpecDuration SpecTime SpecRecur TimeProofs DateProofs RecurProofs Sample.
Import ListNotations.
Local Open Scope Z_scope.

(** C26 *)
Theorem C26_utc_date_times_round_trip {env : Env} m sec :
  pmap_get m (bs "TZID") = None -> -62167219200 <= sec < 253402300800 ->
  value_decode KDateTime m (concat (value_encode (VDateTime (Time sec 0 LUTC)))) = Ok (VDateTime (Time sec 0 LUTC)).
Proof. exact (v_datetime_utc m sec). Qed.
Print Assumptions C26_utc_date_times_round_trip.

Theorem C26_utc_dates_round_trip {env : Env} m sec :
  sec mod 86400 = 0 -> -62167219200 <= sec < 253402300800 ->
  value_decode KDate m (concat (value_encode (VDate (Time sec 0 LUTC)))) = Ok (VDate (Time sec 0 LUTC)).
Proof. exact (v_date_utc m sec). Qed.
Print Assumptions C26_utc_dates_round_trip.

Example C26_applies (env : Env) : 1709164800 mod 86400 = 0 /\
  value_encode (VDate (Time 1709164800 0 LUTC)) = [bs "20240229"] /\
  value_encode (VDateTime (Time 253402300799 0 LUTC)) = [bs "99991231T235959Z"].
Proof. split; [|split]; vm_compute; reflexivity. Qed.

(** C54 *)
Theorem C54_utc_times_of_day_round_trip {env : Env} m sec :
  pmap_get m (bs "TZID") = None -> -62167219200 <= sec < -62167219200 + 86400 ->
  value_decode KTime m (concat (value_encode (VTime (Time sec 0 LUTC)))) = Ok (VTime (Time sec 0 LUTC)).
Proof. exact (v_time_utc m sec). Qed.
Print Assumptions C54_utc_times_of_day_round_trip.

Example C54_applies (env : Env) : value_encode (VTime (Time (-62167219200 + 3661) 0 LUTC)) = [bs "010101Z"].
Proof. vm_compute. reflexivity. Qed.

(** C27. [date_text]: eight digits; [real_date]: a day of the Gregorian calendar; [day_number]: its
    distance from 1970-01-01. *)
Theorem C27_only_real_dates {env : Env} m s v : value_decode KDate m s = Ok v -> exists y mo d,
  date_text s y mo d /\ real_date y mo d /\ 0 <= y <= 9999 /\ v = VDate (Time (86400 * day_number y mo d) 0 LUTC).
Proof. exact (date_decoded m s v). Qed.
Print Assumptions C27_only_real_dates.

(** ... [reads_as]: a date-time text names a day that exists and a time of day, and the instant is
    that reading less an offset of its location. *)
Theorem C27_only_real_date_times {env : Env} m s v : value_decode KDateTime m s = Ok v ->
  exists t, v = VDateTime t /\ reads_as s t /\
  match pmap_get m (bs "TZID") with
  | Some tz => load_location 0 tz = Some (t_loc t)
  | None => t_loc t = if ends_with "Z"%char s then LUTC else LLocal
  end.
Proof. exact (datetime_decoded m s v). Qed.
Print Assumptions C27_only_real_date_times.

Example C27_applies (env : Env) : value_decode KDate [] (bs "20240229") = Ok (VDate (Time (86400 * 19782) 0 LUTC)) /\
  value_decode KDate [] (bs "20230229") = Err ErrStd.
Proof. split; vm_compute; reflexivity. Qed.

(** C28: in a zone ... *)
Theorem C28_zoned_date_times_round_trip {env : Env} m sec z : let l := LZone z 0 in
  pmap_get m (bs "TZID") = Some (zone_name z) -> load_location 0 (zone_name z) = Some l ->
  coherent l -> bounded l -> unambiguous l sec -> calm l sec ->
  -62167219200 <= sec + offset_at l sec < 253402300800 ->
  value_decode KDateTime m (concat (value_encode (VDateTime (Time sec 0 l)))) = Ok (VDateTime (Time sec 0 l)).
Proof. exact (v_datetime_zoned m sec z). Qed.
Print Assumptions C28_zoned_date_times_round_trip.

(** ... and in local time. *)
Theorem C28_local_date_times_round_trip {env : Env} m sec : pmap_get m (bs "TZID") = None ->
  coherent LLocal -> bounded LLocal -> unambiguous LLocal sec -> calm LLocal sec ->
  -62167219200 <= sec + offset_at LLocal sec < 253402300800 ->
  value_decode KDateTime m (concat (value_encode (VDateTime (Time sec 0 LLocal)))) = Ok (VDateTime (Time sec 0 LLocal)).
Proof. exact (v_datetime_local m sec). Qed.
Print Assumptions C28_local_date_times_round_trip.

Example C28_applies sec : let l := @LZone env0 (bs "Europe/Town") 0 in
  load_location 0 (bs "Europe/Town") = Some l /\ bounded l /\ unambiguous l sec /\ calm l sec /\ coherent l.
Proof. exact (town_ok sec). Qed.

(** C29 *)
Theorem C29_periods_round_trip {env : Env} m p :
  pmap_get m (bs "TZID") = None -> value_valid (VPeriod p) = None -> utc_in_years (p_start p) ->
  (utc_in_years (p_end p) /\ is_zero (p_end p) = false /\ p_dur p = zero_duration) \/
  (p_end p = zero_time /\ dur_fits (p_dur p) /\ dur_plain (p_dur p)) ->
  value_decode KPeriod m (concat (value_encode (VPeriod p))) = Ok (VPeriod p).
Proof. exact (v_period_utc m p). Qed.
Print Assumptions C29_periods_round_trip.

Example C29_applies (env : Env) :
  value_valid (VPeriod (Period (Time 0 0 LUTC) (Time 3600 0 LUTC) zero_duration)) = None /\
  value_valid (VPeriod (Period (Time 0 0 LUTC) zero_time (Duration false 0 1 2 0 0))) = None.
Proof. split; reflexivity. Qed.

(** C30 is false: with a zone, no period that has an end can be encoded. *)
Theorem C30_decoded_period_refuted {env : Env} m s p tz z :
  pmap_get m (bs "TZID") = Some tz -> load_location 0 tz = Some (LZone z 0) ->
  value_decode KPeriod m s = Ok (VPeriod p) -> is_zero (p_end p) = false -> value_valid (VPeriod p) <> None.
Proof. exact (period_zone_rejected m s p tz z). Qed.
Print Assumptions C30_decoded_period_refuted.

Example C30_applies : exists p,
  @value_decode env0 KPeriod [(bs "TZID", bs "Europe/Town")] (bs "20240301T090000/20240301T100000") = Ok (VPeriod p) /\
  is_zero (p_end p) = false /\ after (p_end p) (p_start p) = true.
Proof. exact zoned_case. Qed.

(** It holds without a zone, if start and end are both in UTC or both local. *)
Theorem C30_decoded_period_partial {env : Env} m s p :
  value_decode KPeriod m s = Ok (VPeriod p) -> is_zero (p_start p) = false -> pmap_get m (bs "TZID") = None ->
  is_zero (p_end p) = true \/ (after (p_end p) (p_start p) = true /\ t_loc (p_end p) = t_loc (p_start p)) ->
  value_valid (VPeriod p) = None.
Proof. exact (period_accepted m s p). Qed.
Print Assumptions C30_decoded_period_partial.

(** C31, and when it fails: among the rules that Encode accepts and whose UNTIL survives, the ones that
    decode back to themselves are exactly those with ordinals within -53..53 and not both COUNT and UNTIL.
    [recur_typed]: the components are values of their Go types. *)
Theorem C31_recurrence_rules_round_trip {env : Env} m r :
  pmap_get m (bs "TZID") = zone_of (r_until r) -> recur_typed r -> value_valid (VRecur r) = None -> until_good r ->
  (value_decode KRecur m (concat (value_encode (VRecur r))) = Ok (VRecur r) <-> recur_sensible r).
Proof. exact (v_recur_exact m r). Qed.
Print Assumptions C31_recurrence_rules_round_trip.

Example C31_applies (env : Env) : recur_typed recur_good /\ recur_sensible recur_good /\ until_good recur_good /\ value_valid (VRecur recur_good) = None /\
  concat (recur_encode recur_good) = bs "FREQ=YEARLY;UNTIL=20231114T221320Z;INTERVAL=2;BYSECOND=0,30;BYHOUR=9;BYDAY=MO,-1FR;BYMONTHDAY=-1;BYWEEKNO=20;BYMONTH=1,12;BYSETPOS=-2;WKST=MO".
Proof. exact recur_good_ok. Qed.

(** C32 *)
Theorem C32_decoded_rules_are_in_range {env : Env} m s v : value_decode KRecur m s = Ok v ->
  exists r, v = VRecur r /\ recur_in_range r /\ value_valid v = None.
Proof. exact (v_recur_decoded m s v). Qed.
Print Assumptions C32_decoded_rules_are_in_range.

(** C33 is false: no rule that is out of range decodes back to itself, and Encode accepts some. *)
Theorem C33_every_rule_refuted {env : Env} m r : ~ recur_in_range r ->
  value_decode KRecur m (concat (value_encode (VRecur r))) <> Ok (VRecur r).
Proof. exact (v_recur_lost m r). Qed.
Print Assumptions C33_every_rule_refuted.

Example C33_applies (env : Env) : recur_valid recur54 = None /\ ~ recur_in_range recur54 /\
  recur_valid recur_both = None /\ ~ recur_in_range recur_both.
Proof. exact recur_bad. Qed.
