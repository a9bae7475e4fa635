(** Moments in UTC are in the order of their texts. *)
From Coq Require Import String Ascii ZArith Bool List Lia.
From Verif Require Import Base Lib Utf8 GoStrings NumProofs GoTime Types SpecContent SpecDuration DurationProofs SpecTime TimeProofs DateProofs SpecLang LangProofs LangTimeProofs SpecMoments.
Import ListNotations.
Local Open Scope Z_scope.

Lemma earlier_irrefl s : ~ earlier s s.
Proof. induction s as [|c s IH]; intros H; inversion H; subst; [lia|auto]. Qed.
Lemma earlier_app a : forall a' b b', length a = length a' -> (earlier (a ++ b) (a' ++ b') <-> earlier a a' \/ (a = a' /\ earlier b b')).
Proof.
  induction a as [|x a IH]; intros [|y a'] b b' L; cbn [length app] in *; try discriminate.
  - split; [auto|intros [H|[_ H]]; [inversion H|exact H]].
  - injection L as L. split.
    + intros H. inversion H as [|? ? ? ? LT|? ? ? R]; subst; [left; apply EL_here, LT|]. apply IH in R; [|exact L]. destruct R as [R|[-> R]]; [left; apply EL_later, R|right; auto].
    + intros [H|[Q H]]; [|injection Q as -> ->; apply EL_later, IH; auto]. inversion H as [|? ? ? ? LT|? ? ? R]; subst; [apply EL_here, LT|apply EL_later, IH; auto].
Qed.
Lemma digits_order a : forall b, length a = length b -> forallb is_digit a = true -> forallb is_digit b = true -> (earlier a b <-> digits_val 0 a < digits_val 0 b).
Proof.
  induction a as [|x a IH]; intros [|y b] L A B; cbn [length forallb] in *; try discriminate; [split; [intros H; inversion H|cbn; lia]|].
  injection L as L. apply andb_true_iff in A as [X A]. apply andb_true_iff in B as [Y B]. specialize (IH b L A B). cbn [digits_val]. rewrite (digits_val_acc a), (digits_val_acc b), L. cbn [Z.mul Z.add].
  pose proof (digits_val_bound a A) as BA. pose proof (digits_val_bound b B) as BB. rewrite L in BA. set (P := 10 ^ Z.of_nat (length b)) in *. clearbody P.
  unfold is_digit, in_range in X, Y. split.
  - intros H. inversion H as [|? ? ? ? LT|? ? ? R]; subst; [nia|apply IH in R; lia].
  - intros H. destruct (Z.lt_trichotomy (code x) (code y)) as [C|[C|C]]; [apply EL_here, C| |nia].
    assert (x = y) by (apply code_inj, C). subst y. apply EL_later, IH. lia.
Qed.
Lemma digits_same a b : length a = length b -> forallb is_digit a = true -> forallb is_digit b = true -> digits_val 0 a = digits_val 0 b -> a = b.
Proof.
  revert b. induction a as [|x a IH]; intros [|y b] L A B Q; cbn [length forallb] in *; try discriminate; [reflexivity|].
  injection L as L. apply andb_true_iff in A as [X A]. apply andb_true_iff in B as [Y B]. cbn [digits_val] in Q. rewrite (digits_val_acc a), (digits_val_acc b), L in Q. cbn [Z.mul Z.add] in Q.
  pose proof (digits_val_bound a A) as BA. pose proof (digits_val_bound b B) as BB. rewrite L in BA. set (P := 10 ^ Z.of_nat (length b)) in *. clearbody P.
  assert (code x = code y) by nia. assert (x = y) by (apply code_inj; assumption). subst y. f_equal. apply IH; auto. lia.
Qed.

Lemma app_inv_len {A} (a : list A) : forall a' b b', length a = length a' -> a ++ b = a' ++ b' -> a = a' /\ b = b'.
Proof. induction a as [|x a IH]; intros [|y a'] b b' L Q; cbn in *; try discriminate; [auto|]. injection Q as -> Q. injection L as L. destruct (IH a' b b' L Q). subst. auto. Qed.

(** ** Days *)
Definition ymd (y m d : Z) : Z := 10000 * y + 100 * m + d.
Lemma date_digits s y m d : date_text s y m d -> length s = 8%nat /\ forallb is_digit s = true /\ digits_val 0 s = ymd y m d.
Proof.
  intros (dy & dm & dd & -> & LY & LM & LD & Y & M & D). apply decimal_spec in Y as (_ & FY & <-). apply decimal_spec in M as (_ & FM & <-). apply decimal_spec in D as (_ & FD & <-).
  rewrite !app_length, LY, LM, LD, !forallb_app, FY, FM, FD, !digits_val_app, (digits_val_acc dd), (digits_val_acc dm), LM, LD. unfold ymd. change (10 ^ Z.of_nat 2) with 100. repeat split; lia.
Qed.
Lemma year_days k y : y <= k -> 365 * y + y / 4 - y / 100 + y / 400 <= 365 * k + k / 4 - k / 100 + k / 400.
Proof.
  intros H. assert (y / 4 <= k / 4) by (apply Z.div_le_mono; lia). assert (y / 400 <= k / 400) by (apply Z.div_le_mono; lia).
  assert (k / 100 <= y / 100 + (k - y)) by dlia. lia.
Qed.
Lemma month_cases m : 1 <= m <= 12 -> m = 1 \/ m = 2 \/ m = 3 \/ m = 4 \/ m = 5 \/ m = 6 \/ m = 7 \/ m = 8 \/ m = 9 \/ m = 10 \/ m = 11 \/ m = 12.
Proof. lia. Qed.
Definition month_days (lp : bool) (m : Z) : Z := nth (Z.to_nat (m - 1)) days_before_month 0 + (if (2 <? m) && lp then 1 else 0).
Lemma month_end y m d : 1 <= m <= 12 -> 1 <= d <= days_in m y -> 0 <= month_days (is_leap y) m /\ month_days (is_leap y) m + d <= 365 + (if is_leap y then 1 else 0) /\
  forall m', m < m' <= 12 -> month_days (is_leap y) m + d <= month_days (is_leap y) m'.
Proof.
  intros M D. unfold days_in in D. generalize dependent (is_leap y). intros lp D. match type of D with _ <= _ <= ?e => remember e as k eqn:K end.
  assert (MONO : forall m1 m2, 1 <= m1 <= 12 -> m1 <= m2 <= 12 -> month_days lp m1 <= month_days lp m2).
  { intros m1 m2 A B. assert (N : 1 <= m2 <= 12) by lia. apply month_cases in A, N. destruct A as [->|[->|[->|[->|[->|[->|[->|[->|[->|[->|[->| ->]]]]]]]]]]]; destruct N as [->|[->|[->|[->|[->|[->|[->|[->|[->|[->|[->| ->]]]]]]]]]]]; try lia; destruct lp; vm_compute; discriminate. }
  assert (NEXT : m < 12 -> month_days lp m + d <= month_days lp (m + 1)).
  { intros B. apply month_cases in M. destruct M as [->|[->|[->|[->|[->|[->|[->|[->|[->|[->|[->| ->]]]]]]]]]]]; destruct lp; vm_compute in K; subst k; match goal with |- ?a + d <= ?b => let a' := eval vm_compute in a in let b' := eval vm_compute in b in change (a' + d <= b') end; lia. }
  split; [|split].
  - pose proof (MONO 1 m) as Q. assert (month_days lp 1 = 0) by (destruct lp; reflexivity). lia.
  - destruct (Z.eq_dec m 12) as [->|N]; [destruct lp; vm_compute in K; subst k; match goal with |- ?a + d <= ?b => let a' := eval vm_compute in a in let b' := eval vm_compute in b in change (a' + d <= b') end; lia|]. pose proof (MONO (m + 1) 12). assert (month_days lp 12 = 334 + if lp then 1 else 0) by (destruct lp; reflexivity). lia.
  - intros m' B. pose proof (MONO (m + 1) m'). lia.
Qed.
Lemma day_number_split y m d : day_number y m d = 365 * (y - 1) + (y - 1) / 4 - (y - 1) / 100 + (y - 1) / 400 + (month_days (is_leap y) m + d) - 719163.
Proof. unfold day_number, month_days. fold (is_leap y). lia. Qed.
Lemma days_order y m d y' m' d' : real_date y m d -> real_date y' m' d' -> ymd y m d < ymd y' m' d' -> day_number y m d < day_number y' m' d'.
Proof.
  intros R R' L. apply real_date_spec in R as [M D]. apply real_date_spec in R' as [M' D']. rewrite !day_number_split.
  assert (B : forall a b, days_in a b <= 31) by (intros a b; unfold days_in; destruct (a =? 2); [destruct (is_leap b); lia|destruct (_ || _); lia]).
  pose proof (B m y). pose proof (B m' y'). unfold ymd in L.
  destruct (month_end y m d M D) as (_ & E & N). destruct (month_end y' m' d' M' D') as (Z0 & _ & _).
  destruct (Z.lt_trichotomy y y') as [C|[<-|C]]; [| |lia].
  - pose proof (year_days (y' - 1) y ltac:(lia)) as Q.
    assert (LP : is_leap y = true -> y / 4 - (y - 1) / 4 - (y / 100 - (y - 1) / 100) + (y / 400 - (y - 1) / 400) = 1) by (unfold is_leap; intros; dlia).
    assert (LN : is_leap y = false -> y / 4 - (y - 1) / 4 - (y / 100 - (y - 1) / 100) + (y / 400 - (y - 1) / 400) = 0) by (unfold is_leap; intros; dlia).
    destruct (is_leap y); [specialize (LP eq_refl)|specialize (LN eq_refl)]; lia.
  - destruct (Z.lt_trichotomy m m') as [C|[<-|C]]; [specialize (N m' ltac:(lia)); lia|lia|lia].
Qed.
Lemma ymd_inj y m d y' m' d' : real_date y m d -> real_date y' m' d' -> ymd y m d = ymd y' m' d' -> day_number y m d = day_number y' m' d'.
Proof.
  intros R R' Q. apply real_date_spec in R as [M D]. apply real_date_spec in R' as [M' D'].
  assert (B : forall a b, days_in a b <= 31) by (intros a b; unfold days_in; destruct (a =? 2); [destruct (is_leap b); lia|destruct (_ || _); lia]).
  pose proof (B m y). pose proof (B m' y'). unfold ymd in Q. assert (y = y') by lia. assert (m = m') by lia. assert (d = d') by lia. subst. reflexivity.
Qed.
Lemma days_order_iff y m d y' m' d' : real_date y m d -> real_date y' m' d' -> (ymd y m d < ymd y' m' d' <-> day_number y m d < day_number y' m' d').
Proof.
  intros R R'. split; [apply days_order; assumption|]. intros H. destruct (Z.lt_trichotomy (ymd y m d) (ymd y' m' d')) as [C|[C|C]]; [exact C| |].
  - apply ymd_inj in C; auto. lia.
  - apply days_order in C; auto. lia.
Qed.
Lemma days_same y m d y' m' d' : real_date y m d -> real_date y' m' d' -> day_number y m d = day_number y' m' d' -> ymd y m d = ymd y' m' d'.
Proof.
  intros R R' H. destruct (Z.lt_trichotomy (ymd y m d) (ymd y' m' d')) as [C|[C|C]]; [|exact C|]; apply days_order in C; auto; lia.
Qed.

(** ** Clocks *)
Definition hms (h mi x : Z) : Z := 10000 * h + 100 * mi + x.
Lemma clock_digits_val s h mi x : clock_digits s h mi x -> length s = 6%nat /\ forallb is_digit s = true /\ digits_val 0 s = hms h mi x.
Proof.
  intros (hh & mm & ss & -> & [H LH] & [M LM] & [S LS]). apply decimal_spec in H as (_ & FY & <-). apply decimal_spec in M as (_ & FM & <-). apply decimal_spec in S as (_ & FD & <-).
  rewrite !app_length, LH, LM, LS, !forallb_app, FY, FM, FD, !digits_val_app, (digits_val_acc ss), (digits_val_acc mm), LM, LS. unfold hms. change (10 ^ Z.of_nat 2) with 100. repeat split; lia.
Qed.
Lemma clock_order h mi x h' mi' x' : 0 <= h <= 23 -> 0 <= mi <= 59 -> 0 <= x <= 59 -> 0 <= h' <= 23 -> 0 <= mi' <= 59 -> 0 <= x' <= 59 ->
  (hms h mi x < hms h' mi' x' <-> h * 3600 + mi * 60 + x < h' * 3600 + mi' * 60 + x').
Proof. unfold hms. lia. Qed.

Section T.
Context {env : Env}.
Lemma after_sec a b l l' : after (Time b 0 l') (Time a 0 l) = true <-> a < b.
Proof. unfold after. cbn [t_sec t_nsec]. rewrite Z.ltb_irrefl, andb_false_r, orb_false_r. apply Z.ltb_lt. Qed.
Theorem dates_in_order m m' s s' t t' : value_decode KDate m s = Ok (VDate t) -> value_decode KDate m' s' = Ok (VDate t') ->
  (after t' t = true <-> earlier s s') /\ (t = t' <-> s = s').
Proof.
  intros H H'. apply date_lang in H as (y & mo & d & T & R & Q). apply date_lang in H' as (y' & mo' & d' & T' & R' & Q'). assert (QT : t = Time (86400 * day_number y mo d) 0 LUTC) by congruence. assert (QT' : t' = Time (86400 * day_number y' mo' d') 0 LUTC) by congruence. clear Q Q'. subst t t'.
  destruct (date_digits _ _ _ _ T) as (L & F & V). destruct (date_digits _ _ _ _ T') as (L' & F' & V'). rewrite after_sec, digits_order, V, V', days_order_iff by (auto; congruence).
  split; [split; intros ?; lia|]. split; [|intros ->; rewrite V in V'; rewrite (ymd_inj _ _ _ _ _ _ R R' V'); reflexivity]. intros Q. apply (f_equal t_sec) in Q. cbn [t_sec] in Q.
  apply digits_same; auto; [congruence|]. rewrite V, V'. apply days_same; auto. lia.
Qed.
Lemma utc_text m s t : pmap_get m (bs "TZID") = None -> length s = 16%nat -> ends_with "Z"%char s = true -> value_decode KDateTime m s = Ok (VDateTime t) ->
  exists d y mo da c h mi x, s = d ++ bs "T" ++ c ++ bs "Z" /\ date_text d y mo da /\ real_date y mo da /\ clock_digits c h mi x /\ 0 <= h <= 23 /\ 0 <= mi <= 59 /\ 0 <= x <= 59 /\
    t = Time (86400 * day_number y mo da + (h * 3600 + mi * 60 + x)) 0 LUTC.
Proof.
  intros N L Z H. apply datetime_lang in H as (t0 & T & Q). injection Q as ->. rewrite N in T. destruct T as (d & c & y & mo & da & h & mi & x & ns & l & P & D & R & (a & f & -> & CD & RH & RM & RX & FR) & ->).
  destruct (date_digits _ _ _ _ D) as (LD & _ & _). destruct (clock_digits_val _ _ _ _ CD) as (LA & FA & _). cbn [placed] in P. destruct P as [[-> ->]|[-> ->]]; rewrite !app_length, LD, LA in L; change (length (bs "T")) with 1%nat in L; try change (length (bs "Z")) with 1%nat in L.
  - destruct f as [|q f]; [|cbn [length] in L; lia]. destruct FR as [[_ ->]|(q & ds & n & Q & _)]; [|discriminate].
    exists d, y, mo, da, a, h, mi, x. rewrite app_nil_r, <- !app_assoc. do 7 (split; [first [reflexivity | assumption]|]). rewrite go_date_resolve, resolve_utc. apply real_date_spec in R as [M _]. rewrite (day_number_spec y mo da M). f_equal. lia.
  - destruct f as [|q [|q2 f]]; cbn [length] in L; try lia. destruct FR as [[Q _]|(q' & ds & n & Q & _ & DE & _)]; [discriminate|]. injection Q as _ <-. destruct DE as (NE & _). congruence.
Qed.
Theorem utc_in_order m m' s s' t t' : pmap_get m (bs "TZID") = None -> pmap_get m' (bs "TZID") = None -> length s = 16%nat -> length s' = 16%nat -> ends_with "Z"%char s = true -> ends_with "Z"%char s' = true ->
  value_decode KDateTime m s = Ok (VDateTime t) -> value_decode KDateTime m' s' = Ok (VDateTime t') -> (after t' t = true <-> earlier s s') /\ (t = t' <-> s = s').
Proof.
  intros N N' L L' Z Z' H H'. apply utc_text in H as (d & y & mo & da & c & h & mi & x & -> & D & R & C & RH & RM & RX & ->); auto.
  apply utc_text in H' as (d' & y' & mo' & da' & c' & h' & mi' & x' & -> & D' & R' & C' & RH' & RM' & RX' & ->); auto.
  destruct (date_digits _ _ _ _ D) as (LD & FD & VD). destruct (date_digits _ _ _ _ D') as (LD' & FD' & VD'). destruct (clock_digits_val _ _ _ _ C) as (LC & FC & VC). destruct (clock_digits_val _ _ _ _ C') as (LC' & FC' & VC').
  assert (DQ : d = d' <-> day_number y mo da = day_number y' mo' da').
  { split; [intros <-; apply ymd_inj; auto; congruence|]. intros Q. apply digits_same; auto; [congruence|]. rewrite VD, VD'. apply days_same; auto. }
  assert (CQ : c = c' <-> h * 3600 + mi * 60 + x = h' * 3600 + mi' * 60 + x').
  { split; [intros <-; rewrite VC in VC'; unfold hms in VC'; lia|]. intros Q. apply digits_same; auto; [congruence|]. rewrite VC, VC'. unfold hms. lia. }
  rewrite after_sec. split.
  - rewrite (earlier_app d d') by congruence. rewrite (earlier_app (bs "T") (bs "T")) by reflexivity. rewrite (earlier_app c c') by congruence.
    rewrite (digits_order d d'), VD, VD', (days_order_iff _ _ _ _ _ _ R R') by (auto; congruence). rewrite (digits_order c c'), VC, VC', (clock_order _ _ _ _ _ _ RH RM RX RH' RM' RX') by (auto; congruence).
    rewrite DQ. pose proof (earlier_irrefl (bs "T")). pose proof (earlier_irrefl (bs "Z")). split; [|intros [X|[X [Y|[_ [Y|[_ Y]]]]]]; try contradiction; lia].
    intros X. destruct (Z.lt_trichotomy (day_number y mo da) (day_number y' mo' da')) as [U|[U|U]]; [left; exact U| |lia]. right. split; [exact U|]. right. split; [reflexivity|]. left. lia.
  - split.
    + intros Q. apply (f_equal t_sec) in Q. cbn [t_sec] in Q. assert (A : d = d') by (apply DQ; lia). assert (B : c = c') by (apply CQ; apply DQ in A; lia). congruence.
    + intros Q. apply app_inv_len in Q as [A Q]; [|congruence]. injection Q as Q. apply app_inv_tail in Q. apply DQ in A. apply CQ in Q. rewrite A, Q. reflexivity.
Qed.
End T.
