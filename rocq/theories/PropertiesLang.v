(** Properties C67 to C76: the texts that are read as values of each type are exactly those described in
    SpecLang.v and SpecRule.v, and how these compare with RFC 5545. [m] are the parameters of the line. *)
From Coq Require Import String Ascii ZArith Bool List Permutation.
From Verif Require Import Base GoTime Types SpecText SpecDuration SpecTime SpecLang SpecRule.
From Verif Require Import LangProofs LangTimeProofs LangDurProofs LangRuleProofs LangRfcProofs Sample SampleLang.
Import ListNotations.
Local Open Scope Z_scope.

(** C67 *)
Theorem C67_integers_read {env : Env} m s v : value_decode KInteger m s = Ok v <-> exists z, integer_text s z /\ v = VInteger z.
Proof. exact (integer_lang m s v). Qed.
Print Assumptions C67_integers_read.
Example C67_applies {env : Env} : value_decode KInteger [] (bs "-2147483648") = Ok (VInteger (-2147483648)) /\
  value_decode KInteger [] (bs "+07") = Ok (VInteger 7) /\ value_decode KInteger [] (bs "2147483648") = Err ErrStd.
Proof. repeat split; vm_compute; reflexivity. Qed.

(** C68 *)
Theorem C68_dates_read {env : Env} m s v : value_decode KDate m s = Ok v <->
  exists y mo d, date_text s y mo d /\ real_date y mo d /\ v = VDate (Time (86400 * day_number y mo d) 0 LUTC).
Proof. exact (date_lang m s v). Qed.
Print Assumptions C68_dates_read.
Example C68_applies : date_text (bs "20161231") 2016 12 31 /\ real_date 2016 12 31.
Proof. exact day_case. Qed.

(** C69 *)
Theorem C69_binary_read {env : Env} m s v : value_decode KBinary m s = Ok v <->
  pmap_get m (bs "ENCODING") = Some (bs "BASE64") /\ exists r b, no_breaks s r /\ base64 r b /\ v = VBinary b.
Proof. exact (binary_lang m s v). Qed.
Print Assumptions C69_binary_read.
Example C69_applies {env : Env} : value_decode KBinary [(bs "ENCODING", bs "BASE64")] (bs "VG93b" ++ CRLF ++ bs "g==") = Ok (VBinary (bs "Town")) /\
  value_decode KBinary [(bs "ENCODING", bs "BASE64")] (bs "VG93bg=") = Err ErrStd.
Proof. split; vm_compute; reflexivity. Qed.

(** C70: every offset of RFC 5545 is read, except those with 60 seconds, ... *)
Theorem C70_offsets_of_rfc_partial {env : Env} m s u : utcoffset_rfc s u ->
  (forall ds, s = bs "+" ++ ds \/ s = bs "-" ++ ds -> length ds = 6%nat -> skipn 4 ds <> bs "60") ->
  value_decode KUTCOffset m s = Ok (VUTCOffset u).
Proof. exact (offset_rfc_read m s u). Qed.
Print Assumptions C70_offsets_of_rfc_partial.
Example C70_applies {env : Env} : utcoffset_rfc (bs "-0130") (-5400) /\
  (forall ds, bs "-0130" = bs "+" ++ ds \/ bs "-0130" = bs "-" ++ ds -> length ds = 6%nat -> skipn 4 ds <> bs "60").
Proof. exact offset_case. Qed.

(** ... what is read is this, ... *)
Theorem C70_offsets_read {env : Env} m s v : value_decode KUTCOffset m s = Ok v <-> exists u, utcoffset_text s u /\ v = VUTCOffset u.
Proof. exact (utcoffset_lang m s v). Qed.
Print Assumptions C70_offsets_read.

(** ... and it is not the same. *)
Theorem C70_offsets_of_rfc_refuted {env : Env} m :
  value_decode KUTCOffset m (bs "9900") = Ok (VUTCOffset 356400) /\ (forall u, ~ utcoffset_rfc (bs "9900") u) /\
  value_decode KUTCOffset m (bs "+010060") = Err ErrInvalidOffset /\ utcoffset_rfc (bs "+010060") 3660.
Proof. exact (offset_witness m). Qed.
Print Assumptions C70_offsets_of_rfc_refuted.

(** C71: every date-time and time of RFC 5545 is read, except those with 60 seconds, if the zone exists, ... *)
Theorem C71_date_times_of_rfc_partial {env : Env} m s : datetime_rfc (pmap_get m (bs "TZID")) s -> firstn 2 (skipn 13 s) <> bs "60" ->
  (forall tz, pmap_get m (bs "TZID") = Some tz -> load_location 0 tz <> None) -> exists t, value_decode KDateTime m s = Ok (VDateTime t).
Proof. exact (datetime_rfc_read m s). Qed.
Print Assumptions C71_date_times_of_rfc_partial.
Theorem C71_times_of_rfc_partial {env : Env} m s : time_rfc (pmap_get m (bs "TZID")) s -> firstn 2 (skipn 4 s) <> bs "60" ->
  (forall tz, pmap_get m (bs "TZID") = Some tz -> load_location 0 tz <> None) -> exists t, value_decode KTime m s = Ok (VTime t).
Proof. exact (time_rfc_read m s). Qed.
Print Assumptions C71_times_of_rfc_partial.

(** ... what is read, and as which moment, is this, ... *)
Theorem C71_date_times_read {env : Env} m s v : value_decode KDateTime m s = Ok v <->
  exists t, datetime_text 0 (pmap_get m (bs "TZID")) s t /\ v = VDateTime t.
Proof. exact (datetime_lang m s v). Qed.
Print Assumptions C71_date_times_read.
Theorem C71_times_read {env : Env} m s v : value_decode KTime m s = Ok v <->
  exists t, time_text (pmap_get m (bs "TZID")) s t /\ v = VTime t.
Proof. exact (time_lang m s v). Qed.
Print Assumptions C71_times_read.

(** ... and it is not the same: leap seconds are refused and fractions are read. *)
Theorem C71_moments_of_rfc_refuted {env : Env} m : pmap_get m (bs "TZID") = None ->
  datetime_rfc None (bs "20161231T235959Z") /\ time_rfc None (bs "235959") /\
  datetime_rfc None (bs "20161231T235960Z") /\ time_rfc None (bs "235960Z") /\
  value_decode KDateTime m (bs "20161231T235960Z") = Err ErrStd /\ value_decode KTime m (bs "235960Z") = Err ErrStd /\
  (forall tz, ~ datetime_rfc tz (bs "20161231T235959.5Z")) /\
  value_decode KDateTime m (bs "20161231T235959.5Z") = Ok (VDateTime (Time 1483228799 500000000 LUTC)).
Proof. exact (moments_case m). Qed.
Print Assumptions C71_moments_of_rfc_refuted.
Example C71_applies {env : Env} : pmap_get [(bs "VALUE", bs "DATE-TIME")] (bs "TZID") = None /\ datetime_rfc None (bs "20161231T235959Z") /\ firstn 2 (skipn 13 (bs "20161231T235959Z")) <> bs "60".
Proof. exact moment_case. Qed.

(** C72: what is read as a duration is this (that every duration of RFC 5545 is read is C22), ... *)
Theorem C72_durations_read_partial {env : Env} m s v : value_decode KDuration m s = Ok v <-> exists d, duration_text s d /\ v = VDuration d.
Proof. exact (duration_lang m s v). Qed.
Print Assumptions C72_durations_read_partial.

(** ... and it is more than RFC 5545 allows. *)
Theorem C72_durations_of_rfc_refuted {env : Env} m : value_decode KDuration m (bs "P1H") = Ok (VDuration (Duration false 0 0 1 0 0)) /\
  value_decode KDuration m (bs "P1DT2H3MT4H") = Ok (VDuration (Duration false 0 1 4 3 0)) /\
  (forall neg w d h mi s, ~ dur_value (bs "P1H") neg w d h mi s).
Proof. exact (duration_witness m). Qed.
Print Assumptions C72_durations_of_rfc_refuted.
Example C72_applies {env : Env} : value_decode KDuration [] (bs "-P1DT2H") = Ok (VDuration (Duration true 0 1 2 0 0)) /\
  value_decode KDuration [] (bs "P5S") = Err ErrInvalidDuration /\ value_decode KDuration [] (bs "P1W1D") = Err ErrInvalidDuration.
Proof. repeat split; vm_compute; reflexivity. Qed.

(** C73 *)
Theorem C73_periods_read {env : Env} m s v : value_decode KPeriod m s = Ok v <->
  exists p, period_text (pmap_get m (bs "TZID")) s p /\ v = VPeriod p.
Proof. exact (period_lang m s v). Qed.
Print Assumptions C73_periods_read.
Example C73_applies {env : Env} : value_decode KPeriod [] (bs "19970101T180000Z/PT5H30M") = Ok (VPeriod (Period (Time 852141600 0 LUTC) zero_time (Duration false 0 0 5 30 0))) /\
  value_decode KPeriod [] (bs "19970101T180000Z/19970102T070000Z") = Ok (VPeriod (Period (Time 852141600 0 LUTC) (Time 852188400 0 LUTC) zero_duration)).
Proof. split; vm_compute; reflexivity. Qed.

(** C74: every rule of RFC 5545 is read, in capitals, with its parts in any order, ... *)
Theorem C74_rules_of_rfc_partial {env : Env} m s ps s' ps' : let tz := pmap_get m (bs "TZID") in
  listed ";"%char (rpart_text day_rfc tz) s ps -> parts_rfc ps -> Permutation ps ps' -> listed ";"%char (rpart_text day_rfc tz) s' ps' ->
  value_decode KRecur m s = Ok (VRecur (rule_of ps)) /\ value_decode KRecur m s' = Ok (VRecur (rule_of ps)).
Proof. exact (recur_any_order m s ps s' ps'). Qed.
Print Assumptions C74_rules_of_rfc_partial.
Example C74_applies {env : Env} m : let tz := pmap_get m (bs "TZID") in
  listed ";"%char (rpart_text day_rfc tz) (bs "FREQ=MONTHLY;COUNT=10;BYDAY=MO,-1FR") parts_case /\ parts_rfc parts_case /\
  Permutation parts_case (rev parts_case) /\ listed ";"%char (rpart_text day_rfc tz) (bs "BYDAY=MO,-1FR;COUNT=10;FREQ=MONTHLY") (rev parts_case).
Proof. exact (recur_case m). Qed.

(** ... what is read is this, ... *)
Theorem C74_rules_read {env : Env} m s v : value_decode KRecur m s = Ok v <->
  exists r, recur_text (pmap_get m (bs "TZID")) s r /\ v = VRecur r.
Proof. exact (recur_lang m s v). Qed.
Print Assumptions C74_rules_read.

(** ... and it is not the same: of two frequencies the last is used, and small letters, which RFC 5545
    allows, are refused. *)
Theorem C74_rules_of_rfc_refuted {env : Env} m :
  value_decode KRecur m (bs "FREQ=DAILY;FREQ=WEEKLY") = Ok (VRecur (Recur 4 0 false zero_time 0 0 [] [] [] [] [] [] [] [] [])) /\
  (forall r, ~ recur_rfc (pmap_get m (bs "TZID")) (bs "FREQ=DAILY;FREQ=WEEKLY") r) /\
  (exists e, value_decode KRecur m (bs "freq=daily") = Err e).
Proof. exact (recur_witness m). Qed.
Print Assumptions C74_rules_of_rfc_refuted.

(** C75 *)
Theorem C75_text_lists_read {env : Env} m s v : value_decode KMText m s = Ok v <-> exists l, texts s l /\ v = VMText l.
Proof. exact (mtext_lang m s v). Qed.
Print Assumptions C75_text_lists_read.
Example C75_applies {env : Env} : value_decode KMText [] (bs "WORK,TOWN\, HALL,,a\nb") = Ok (VMText [bs "WORK"; bs "TOWN, HALL"; []; bs "a" ++ [LF] ++ bs "b"]) /\
  value_decode KMText [] (bs "a;b") = Err ErrInvalidText.
Proof. split; vm_compute; reflexivity. Qed.

(** C76: what is read as a number or pair of numbers is this (finite numbers are left to strconv), ... *)
Theorem C76_floats_read_partial {env : Env} m s v : value_decode KFloat m s = Ok v <-> exists f, float_text s f /\ v = VFloat f.
Proof. exact (float_lang m s v). Qed.
Print Assumptions C76_floats_read_partial.
Theorem C76_pairs_read_partial {env : Env} m s v : value_decode KTFloat m s = Ok v <-> exists p, pair_text s p /\ v = VTFloat p.
Proof. exact (pair_lang m s v). Qed.
Print Assumptions C76_pairs_read_partial.

(** ... and it is not only numbers. *)
Theorem C76_only_numbers_refuted {env : Env} m : value_decode KTFloat m (bs "NaN;-Infinity") = Ok (VTFloat (FNaN, FInf true)).
Proof. exact (no_numbers m). Qed.
Print Assumptions C76_only_numbers_refuted.
Example C76_applies : @value_decode env0 KTFloat [] (bs "37.38;-122.08") = Ok (VTFloat (FFin (bs "37.38" : @fin env0), FFin (bs "-122.08" : @fin env0))).
Proof. exact town_geo. Qed.
