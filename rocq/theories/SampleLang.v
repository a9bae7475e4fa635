(** Texts of each value type, for PropertiesLang.v. *)
From Coq Require Import String Ascii ZArith Bool List Permutation Lia.
From Verif Require Import Base Lib GoTime Types SpecText SpecDuration SpecTime SpecLang SpecRule LangProofs LangTimeProofs LangDurProofs LangRuleProofs LangRfcProofs Sample.
Import ListNotations.
Local Open Scope Z_scope.

Section S.
Context {env : Env}.
Lemma dec ds n : ds <> [] -> Forall (fun c => 48 <= code c <= 57) ds -> n = decimal_value ds -> decimal ds n.
Proof. intros A B C. split; [exact A|]. split; [exact B|exact C]. Qed.
Ltac dig := match goal with
  | |- digits_of _ _ _ => split; [dig|reflexivity]
  | |- decimal _ _ => apply dec; [discriminate|repeat (constructor; [vm_compute; split; discriminate|]); constructor|vm_compute; reflexivity]
  end.

Lemma offset_case : utcoffset_rfc (bs "-0130") (-5400) /\
  (forall ds, bs "-0130" = bs "+" ++ ds \/ bs "-0130" = bs "-" ++ ds -> length ds = 6%nat -> skipn 4 ds <> bs "60").
Proof.
  split.
  - exists (bs "0130"), 5400. split; [|right; split; [reflexivity|split; [reflexivity|lia]]].
    exists (bs "01"), 1, (bs "30"), 30. split; [dig|]. split; [dig|]. split; [lia|]. split; [lia|]. left. split; reflexivity.
  - intros ds [H|H] L; [discriminate H|]. injection H as <-. discriminate L.
Qed.

Lemma day_case : date_text (bs "20161231") 2016 12 31 /\ real_date 2016 12 31.
Proof.
  split.
  - exists (bs "2016"), (bs "12"), (bs "31"). split; [reflexivity|]. do 3 (split; [reflexivity|]). split; [dig|]. split; dig.
  - exists 31. split; [|lia]. left. split; [cbn; auto 10|reflexivity].
Qed.
Lemma clock_case : clock_rfc (bs "235959") 23 59 59 /\ clock_rfc (bs "235960") 23 59 60.
Proof.
  split; (split; [|lia]).
  - exists (bs "23"), (bs "59"), (bs "59"). split; [reflexivity|]. split; [dig|]. split; dig.
  - exists (bs "23"), (bs "59"), (bs "60"). split; [reflexivity|]. split; [dig|]. split; dig.
Qed.

(** The leap second at the end of 2016 is refused, and a fraction of a second is read. *)
Lemma moments_case m : pmap_get m (bs "TZID") = None ->
  datetime_rfc None (bs "20161231T235959Z") /\ time_rfc None (bs "235959") /\
  datetime_rfc None (bs "20161231T235960Z") /\ time_rfc None (bs "235960Z") /\
  value_decode KDateTime m (bs "20161231T235960Z") = Err ErrStd /\ value_decode KTime m (bs "235960Z") = Err ErrStd /\
  (forall tz, ~ datetime_rfc tz (bs "20161231T235959.5Z")) /\
  value_decode KDateTime m (bs "20161231T235959.5Z") = Ok (VDateTime (Time 1483228799 500000000 LUTC)).
Proof.
  intros TZ. destruct day_case as [DT RD]. destruct clock_case as [C59 C60].
  split; [exists (bs "20161231"), (bs "235959"), 2016, 12, 31, 23, 59, 59; split; [right; reflexivity|auto]|].
  split; [exists (bs "235959"), 23, 59, 59; split; [left; reflexivity|exact C59]|].
  split; [exists (bs "20161231"), (bs "235960"), 2016, 12, 31, 23, 59, 60; split; [right; reflexivity|auto]|].
  split; [exists (bs "235960"), 23, 59, 60; split; [right; reflexivity|exact C60]|].
  split; [cbn [value_decode]; unfold datetime_decode; rewrite TZ; vm_compute; reflexivity|].
  split; [cbn [value_decode]; unfold clock_decode; rewrite TZ; vm_compute; reflexivity|].
  split; [|cbn [value_decode]; unfold datetime_decode; rewrite TZ; vm_compute; reflexivity].
  intros tz (d & c & y & mo & da & h & mi & x & P & D & _ & (hh & mm & ss & -> & H1 & H2 & H3) & _).
  assert (LD : length d = 8%nat) by exact (LangRuleProofs.date_length _ _ _ _ D). destruct H1 as [_ L1], H2 as [_ L2], H3 as [_ L3].
  assert (LE : length (bs "20161231T235959.5Z") = length (d ++ bs "T" ++ hh ++ mm ++ ss) \/ length (bs "20161231T235959.5Z") = length (d ++ bs "T" ++ (hh ++ mm ++ ss) ++ bs "Z"))
    by (destruct tz; [left; rewrite <- P; reflexivity|destruct P as [P|P]; [left|right]; rewrite <- P; reflexivity]).
  rewrite !app_length, LD, L1, L2, L3 in LE. destruct LE as [LE|LE]; discriminate LE.
Qed.

Lemma moment_case : pmap_get [(bs "VALUE", bs "DATE-TIME")] (bs "TZID") = None /\ datetime_rfc None (bs "20161231T235959Z") /\ firstn 2 (skipn 13 (bs "20161231T235959Z")) <> bs "60".
Proof.
  destruct day_case as [DT RD]. destruct clock_case as [C59 _]. split; [reflexivity|].
  split; [exists (bs "20161231"), (bs "235959"), 2016, 12, 31, 23, 59, 59; split; [right; reflexivity|auto]|discriminate].
Qed.

(** Two orders of one rule. *)
Definition parts_case : list rpart := [RFreq 5; RCount 10; RByDay [DayRecur 2 0; DayRecur 6 (-1)]].
Lemma recur_case m : let tz := pmap_get m (bs "TZID") in
  listed ";"%char (rpart_text day_rfc tz) (bs "FREQ=MONTHLY;COUNT=10;BYDAY=MO,-1FR") parts_case /\ parts_rfc parts_case /\
  Permutation parts_case (rev parts_case) /\ listed ";"%char (rpart_text day_rfc tz) (bs "BYDAY=MO,-1FR;COUNT=10;FREQ=MONTHLY") (rev parts_case).
Proof.
  intros tz. assert (NI : forall c s, existsb (beqc c) s = false -> ~ In c s).
  { intros c s H I. assert (X : existsb (beqc c) s = true) by (apply existsb_exists; exists c; split; [exact I|apply beqc_eq; reflexivity]). congruence. }
  assert (F : rpart_text day_rfc tz (bs "FREQ=MONTHLY") (RFreq 5)) by (exists (bs "MONTHLY"); split; [reflexivity|cbn [rvalue]; cbn; auto 10]).
  assert (C : rpart_text day_rfc tz (bs "COUNT=10") (RCount 10)) by (exists (bs "10"); split; [reflexivity|split; [dig|lia]]).
  assert (D : rpart_text day_rfc tz (bs "BYDAY=MO,-1FR") (RByDay [DayRecur 2 0; DayRecur 6 (-1)])).
  { exists (bs "MO,-1FR"). split; [reflexivity|]. cbn [rvalue]. apply (L_more _ _ (bs "MO") _ (bs "-1FR")); [|apply NI; reflexivity|apply L_one; [|apply NI; reflexivity]].
    - exists [], (bs "MO"). split; [reflexivity|]. split; [cbn; auto|]. left. split; reflexivity.
    - exists (bs "-1"), (bs "FR"). split; [reflexivity|]. split; [cbn; auto 10|]. right. exists (bs "1"), 1. split; [dig|]. split; [cbn; lia|]. split; [lia|]. right. right. split; reflexivity. }
  split; [apply (L_more _ _ (bs "FREQ=MONTHLY") _ (bs "COUNT=10;BYDAY=MO,-1FR")); [exact F|apply NI; reflexivity|];
    apply (L_more _ _ (bs "COUNT=10") _ (bs "BYDAY=MO,-1FR")); [exact C|apply NI; reflexivity|]; apply L_one; [exact D|apply NI; reflexivity]|].
  split.
  { split; [left; reflexivity|]. split.
    - cbn. repeat constructor; cbn; intuition discriminate.
    - intros [U _]. unfold parts_case, named in U. rewrite Exists_exists in U. destruct U as (p & I & E). cbn in I. decompose [or] I; subst; try discriminate; contradiction. }
  split; [apply Permutation_rev|].
  apply (L_more _ _ (bs "BYDAY=MO,-1FR") _ (bs "COUNT=10;FREQ=MONTHLY")); [exact D|apply NI; reflexivity|].
  apply (L_more _ _ (bs "COUNT=10") _ (bs "FREQ=MONTHLY")); [exact C|apply NI; reflexivity|]. apply L_one; [exact F|apply NI; reflexivity].
Qed.

Lemma no_numbers m : value_decode KTFloat m (bs "NaN;-Infinity") = Ok (VTFloat (FNaN, FInf true)).
Proof. vm_compute. reflexivity. Qed.
End S.
Lemma town_geo : @value_decode env0 KTFloat [] (bs "37.38;-122.08") = Ok (VTFloat (FFin (bs "37.38" : @fin env0), FFin (bs "-122.08" : @fin env0))).
Proof. vm_compute. reflexivity. Qed.
