(** Property C126: the order of moments. [earlier s s']: [s] comes before [s'] in the order of their bytes; [after t' t]: Time.After. *)
From Coq Require Import String Ascii ZArith Bool List.
From Verif Require Import Base Utf8 GoStrings GoTime Types SpecTime SpecMoments MomentProofs Sample SampleMoments.
Import ListNotations.
Local Open Scope Z_scope.

(** C126: a date is after another exactly if its text is, and no two texts give the same date; ... *)
Theorem C126_dates_in_order {env : Env} m m' s s' t t' : value_decode KDate m s = Ok (VDate t) -> value_decode KDate m' s' = Ok (VDate t') ->
  (after t' t = true <-> earlier s s') /\ (t = t' <-> s = s').
Proof. exact (dates_in_order m m' s s' t t'). Qed.
Print Assumptions C126_dates_in_order.
(** ... the same holds of moments in UTC without a fraction. *)
Theorem C126_utc_in_order {env : Env} m m' s s' t t' : pmap_get m (bs "TZID") = None -> pmap_get m' (bs "TZID") = None ->
  length s = 16%nat -> length s' = 16%nat -> ends_with "Z"%char s = true -> ends_with "Z"%char s' = true ->
  value_decode KDateTime m s = Ok (VDateTime t) -> value_decode KDateTime m' s' = Ok (VDateTime t') -> (after t' t = true <-> earlier s s') /\ (t = t' <-> s = s').
Proof. exact (utc_in_order m m' s s' t t'). Qed.
Print Assumptions C126_utc_in_order.
(** It cannot hold in a zone: where clocks go from 01:00 to 02:00, 01:30 is half an hour after 02:00. *)
Theorem C126_not_in_zones : @coherent env_spring LLocal /\ @bounded env_spring LLocal /\
  @value_decode env_spring KDateTime [] (bs "20240331T013000") = Ok (VDateTime (Time (spring + 1800) 0 LLocal)) /\
  @value_decode env_spring KDateTime [] (bs "20240331T020000") = Ok (VDateTime (Time spring 0 LLocal)) /\ earlier (bs "20240331T013000") (bs "20240331T020000").
Proof. exact spring_case. Qed.
Print Assumptions C126_not_in_zones.
Example C126_applies : @value_decode env0 KDate [] (bs "20240229") = Ok (VDate (Time (86400 * 19782) 0 LUTC)) /\ @value_decode env0 KDate [] (bs "20240301") = Ok (VDate (Time (86400 * 19783) 0 LUTC)) /\
  earlier (bs "20240229") (bs "20240301") /\
  @value_decode env0 KDateTime [] (bs "20240229T235959Z") = Ok (VDateTime (Time (86400 * 19783 - 1) 0 LUTC)) /\ @value_decode env0 KDateTime [] (bs "20240301T000000Z") = Ok (VDateTime (Time (86400 * 19783) 0 LUTC)) /\
  earlier (bs "20240229T235959Z") (bs "20240301T000000Z").
Proof. exact moments_ordered. Qed.
