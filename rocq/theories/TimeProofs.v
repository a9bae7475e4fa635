(** Dates and times. *)
From Coq Require Import String Ascii ZArith Znumtheory Bool List Lia ZifyBool.
From Verif Require Import Base Lib Utf8 GoStrings GoTime Types NumProofs SpecTime.
Import ListNotations.
Local Open Scope Z_scope.

(** ** The calendar *)

(** Years, from March to February, within an era of 400; [ystart] is the first day of a year. *)
Definition ystart (y : Z) : Z := 365 * y + y / 4 - y / 100.
Definition g (x : Z) : Z := x - x / 1460 + x / 36524 - x / 146096.
Definition yoe_of (x : Z) : Z := g x / 365.

Lemma g_step x : 0 <= x < 146096 -> g x <= g (x + 1).
Proof.
  intros H. unfold g.
  assert (x / 146096 = 0) by dlia. 
  destruct (Z.eq_dec x 146095) as [->|N]; [vm_compute; discriminate|].
  assert ((x + 1) / 146096 = 0) by dlia. dlia.
Qed.

Lemma g_mono x y : 0 <= x -> x <= y -> y <= 146096 -> g x <= g y.
Proof.
  intros X L Y. pose (P := fun k => 0 <= k -> x + k <= 146096 -> g x <= g (x + k)).
  assert (H : forall k, 0 <= k -> P k).
  { apply natlike_ind; unfold P; intros.
    - rewrite Z.add_0_r. lia.
    - pose proof (g_step (x + x0) ltac:(lia)). replace (x + Z.succ x0) with (x + x0 + 1) by lia.
      specialize (H0 ltac:(lia) ltac:(lia)). lia. }
  specialize (H (y - x) ltac:(lia)). unfold P in H. replace (x + (y - x)) with y in H by lia. apply H; lia.
Qed.

Definition years : list Z := map Z.of_nat (seq 0 400).
Lemma years_forall (p : Z -> bool) : forallb p years = true -> forall v, 0 <= v < 400 -> p v = true.
Proof.
  intros H v R. rewrite forallb_forall in H. apply H. unfold years. apply in_map_iff. exists (Z.to_nat v).
  split; [lia|]. apply in_seq. lia.
Qed.

Definition yend (y : Z) : Z := if y =? 399 then 146096 else ystart (y + 1) - 1.
Lemma yoe_sweep y : 0 <= y < 400 -> yoe_of (ystart y) = y /\ yoe_of (yend y) = y /\ 0 <= ystart y /\ yend y <= 146096.
Proof.
  intros H. pose proof (years_forall (fun y => (yoe_of (ystart y) =? y) && (yoe_of (yend y) =? y) && (0 <=? ystart y) && (yend y <=? 146096))
    ltac:(vm_compute; reflexivity) y H) as B. cbv beta in B. lia.
Qed.

Lemma yoe_of_spec y x : 0 <= y < 400 -> ystart y <= x <= yend y -> yoe_of x = y.
Proof.
  intros H B. destruct (yoe_sweep y H) as (E1 & E2 & L1 & L2). unfold yoe_of in *.
  pose proof (g_mono (ystart y) x ltac:(lia) ltac:(lia) ltac:(lia)).
  pose proof (g_mono x (yend y) ltac:(lia) ltac:(lia) ltac:(lia)). dlia.
Qed.

Lemma year_exists x : 0 <= x <= 146096 -> exists y, 0 <= y < 400 /\ ystart y <= x <= yend y.
Proof.
  intros H.
  assert (P : forall n, (n <= 400)%nat -> 0 <= x < ystart (Z.of_nat n) \/ (n = 400%nat) -> exists y, 0 <= y < 400 /\ ystart y <= x <= yend y).
  { induction n as [|n IH]; intros L B.
    - destruct B as [B|B]; [change (ystart (Z.of_nat 0)) with 0 in B; lia|lia].
    - destruct (Z.lt_ge_cases x (ystart (Z.of_nat n))) as [LT|GE]; [apply IH; lia|].
      exists (Z.of_nat n). split; [lia|]. split; [exact GE|]. unfold yend.
      destruct (Z.of_nat n =? 399) eqn:E; [lia|]. destruct B as [B|B]; [|lia].
      replace (Z.of_nat n + 1) with (Z.of_nat (S n)) by lia. lia. }
  apply (P 400%nat); auto.
Qed.

(** Month and day from the day of the March year. *)
Definition doys : list Z := map Z.of_nat (seq 0 366).
Lemma doys_forall (p : Z -> bool) : forallb p doys = true -> forall v, 0 <= v <= 365 -> p v = true.
Proof.
  intros H v R. rewrite forallb_forall in H. apply H. unfold doys. apply in_map_iff. exists (Z.to_nat v).
  split; [lia|]. apply in_seq. lia.
Qed.

(** Lengths of the months from March on, in a leap year. *)
Definition mlen (mp : Z) : Z := nth (Z.to_nat mp) [31; 30; 31; 30; 31; 31; 30; 31; 30; 31; 31; 29] 0.

Lemma doy_sweep x : 0 <= x <= 365 ->
  let mp := (5 * x + 2) / 153 in let d := x - (153 * mp + 2) / 5 + 1 in
  0 <= mp <= 11 /\ 1 <= d <= mlen mp /\ (mp = 11 /\ d = 29 <-> x = 365).
Proof.
  intros H. pose proof (doys_forall (fun x => let mp := (5 * x + 2) / 153 in let d := x - (153 * mp + 2) / 5 + 1 in
    (0 <=? mp) && (mp <=? 11) && (1 <=? d) && (d <=? mlen mp) && Bool.eqb ((mp =? 11) && (d =? 29)) (x =? 365))
    ltac:(vm_compute; reflexivity) x H) as B. cbv beta zeta in *. 
  rewrite !andb_true_iff, Bool.eqb_true_iff in B. destruct B as [[[[B1 B2] B3] B4] B5].
  split; [lia|]. split; [lia|]. split; intros; lia.
Qed.

Lemma md_sweep mp d : 0 <= mp <= 11 -> 1 <= d <= mlen mp ->
  let x := (153 * mp + 2) / 5 + d - 1 in 0 <= x <= 365 /\ (5 * x + 2) / 153 = mp.
Proof.
  intros H D.
  assert (B : forallb (fun mp => forallb (fun d => implb ((1 <=? d) && (d <=? mlen mp)) (let x := (153 * mp + 2) / 5 + d - 1 in
    (0 <=? x) && (x <=? 365) && ((5 * x + 2) / 153 =? mp))) (map Z.of_nat (seq 0 32))) (map Z.of_nat (seq 0 12)) = true) by (vm_compute; reflexivity).
  assert (IM : In mp (map Z.of_nat (seq 0 12))).
  { apply in_map_iff. exists (Z.to_nat mp). split; [lia|]. apply in_seq. lia. }
  rewrite forallb_forall in B. specialize (B mp IM). cbv beta in B. rewrite forallb_forall in B.
  assert (M : mlen mp <= 31).
  { assert (M : forallb (fun mp => mlen mp <=? 31) (map Z.of_nat (seq 0 12)) = true) by (vm_compute; reflexivity).
    rewrite forallb_forall in M. specialize (M mp IM). apply Z.leb_le, M. }
  assert (ID : In d (map Z.of_nat (seq 0 32))).
  { apply in_map_iff. exists (Z.to_nat d). split; [lia|]. apply in_seq. lia. }
  specialize (B d ID). cbv beta zeta in *. replace ((1 <=? d) && (d <=? mlen mp)) with true in B by lia. cbn [implb] in B. lia.
Qed.

(** A date given by its era, March year of the era and day of that year. *)
Lemma civil_parts era y x : 0 <= y < 400 -> 0 <= x <= 365 -> ystart y + x <= yend y ->
  let mp := (5 * x + 2) / 153 in
  civil_from_days (era * 146097 + ystart y + x - 719468) =
    (y + era * 400 + (if 10 <=? mp then 1 else 0), (if mp <? 10 then mp + 3 else mp - 9), x - (153 * mp + 2) / 5 + 1).
Proof.
  intros Y X E. cbv zeta. unfold civil_from_days. cbv zeta.
  replace (era * 146097 + ystart y + x - 719468 + 719468) with (ystart y + x + era * 146097) by lia.
  destruct (yoe_sweep y Y) as (_ & _ & L1 & L2).
  rewrite Z.mod_add, Z.div_add by lia. rewrite (Z.mod_small (ystart y + x) 146097), (Z.div_small (ystart y + x) 146097) by lia.
  set (doe := ystart y + x).
  change ((doe - doe / 1460 + doe / 36524 - doe / 146096) / 365) with (yoe_of doe).
  rewrite (yoe_of_spec y doe Y) by (unfold doe; lia).
  change (365 * y + y / 4 - y / 100) with (ystart y). replace (doe - ystart y) with x by (unfold doe; lia).
  destruct (doy_sweep x X) as (M & _). set (mp := (5 * x + 2) / 153) in *.
  destruct (mp <? 10) eqn:EM.
  - replace (mp + 3 <=? 2) with false by lia. replace (10 <=? mp) with false by lia. repeat f_equal; lia.
  - replace (mp - 9 <=? 2) with true by lia. replace (10 <=? mp) with true by lia. repeat f_equal; lia.
Qed.

Lemma days_parts era y mp d : 0 <= y < 400 -> 0 <= mp <= 11 ->
  days_from_civil (y + era * 400 + (if 10 <=? mp then 1 else 0)) (if mp <? 10 then mp + 3 else mp - 9) d =
  era * 146097 + ystart y + ((153 * mp + 2) / 5 + d - 1) - 719468.
Proof.
  intros Y M. unfold days_from_civil. cbv zeta.
  assert (EY : (if (if mp <? 10 then mp + 3 else mp - 9) <=? 2 then y + era * 400 + (if 10 <=? mp then 1 else 0) - 1
    else y + era * 400 + (if 10 <=? mp then 1 else 0)) = y + era * 400).
  { destruct (mp <? 10) eqn:E.
    - replace (mp + 3 <=? 2) with false by lia. replace (10 <=? mp) with false by lia. lia.
    - replace (mp - 9 <=? 2) with true by lia. replace (10 <=? mp) with true by lia. lia. }
  rewrite EY, Z.mod_add, Z.div_add by lia. rewrite Z.mod_small, Z.div_small by lia.
  replace (((if mp <? 10 then mp + 3 else mp - 9) + 9) mod 12) with mp.
  - unfold ystart. lia.
  - destruct (mp <? 10) eqn:E; [|dlia]. replace (mp + 3 + 9) with (mp + 1 * 12) by lia. rewrite Z.mod_add by lia. dlia.
Qed.

Lemma year_days y : 0 <= y < 400 -> yend y = ystart y + (if is_leap (y + 1) then 365 else 364).
Proof.
  intros H. pose proof (years_forall (fun y => yend y =? ystart y + (if is_leap (y + 1) then 365 else 364)) ltac:(vm_compute; reflexivity) y H) as B.
  cbv beta in B. lia.
Qed.

Lemma is_leap_era y era : is_leap (y + era * 400) = is_leap y.
Proof. 
  unfold is_leap. replace ((y + era * 400) mod 4) with (y mod 4) by dlia.
  replace ((y + era * 400) mod 100) with (y mod 100) by dlia. rewrite Z.mod_add by lia. reflexivity.
Qed.

Lemma mlen_days mp : 0 <= mp <= 10 -> forall y, mlen mp = days_in (if mp <? 10 then mp + 3 else mp - 9) y.
Proof.
  intros H y.
  assert (MP : mp = 0 \/ mp = 1 \/ mp = 2 \/ mp = 3 \/ mp = 4 \/ mp = 5 \/ mp = 6 \/ mp = 7 \/ mp = 8 \/ mp = 9 \/ mp = 10) by lia.
  clear H. repeat (destruct MP as [->|MP]; [reflexivity|]). subst mp. reflexivity.
Qed.

(** The date of a day number is a date of the calendar, and has that day number. *)
Theorem civil_inverse n : let '(y, m, d) := civil_from_days n in
  1 <= m <= 12 /\ 1 <= d <= days_in m y /\ days_from_civil y m d = n.
Proof.
  set (era := (n + 719468) / 146097). set (doe := (n + 719468) mod 146097).
  assert (R : 0 <= doe <= 146096) by (unfold doe; dlia).
  destruct (year_exists doe R) as (y & Y & B). set (x := doe - ystart y).
  pose proof (year_days y Y) as YD.
  assert (X : 0 <= x <= 365) by (unfold x; destruct (is_leap (y + 1)); lia).
  replace n with (era * 146097 + ystart y + x - 719468) by (unfold x, era, doe; dlia).
  rewrite civil_parts by (auto; unfold x; lia). cbv zeta. destruct (doy_sweep x X) as (M & D & DL).
  set (mp := (5 * x + 2) / 153) in *.
  split; [destruct (mp <? 10) eqn:E; lia|]. split.
  - split; [lia|]. set (d := x - (153 * mp + 2) / 5 + 1) in *.
    destruct (Z.eq_dec mp 11) as [MP|MP]; [|erewrite mlen_days in D by lia; apply D].
    clearbody mp d. subst mp. unfold days_in.
    change (11 <? 10) with false. change (10 <=? 11) with true. cbv iota. change (11 - 9 =? 2) with true. cbv iota.
    replace (y + era * 400 + 1) with (y + 1 + era * 400) by lia. rewrite is_leap_era. change (mlen 11) with 29 in D.
    destruct (is_leap (y + 1)) eqn:L; [lia|].
    destruct (Z.eq_dec d 29) as [E|]; [|lia]. assert (x = 365) by (apply DL; auto). unfold x in *. lia.
  - rewrite days_parts by lia. lia.
Qed.

(** A date of the calendar is the date of its day number. *)
Theorem days_inverse y m d : 1 <= m <= 12 -> 1 <= d <= days_in m y -> civil_from_days (days_from_civil y m d) = (y, m, d).
Proof.
  intros M D. set (mp := (m + 9) mod 12). set (y' := if m <=? 2 then y - 1 else y).
  assert (MP : 0 <= mp <= 11) by (unfold mp; dlia).
  assert (Em : m = if mp <? 10 then mp + 3 else mp - 9).
  { unfold mp. destruct ((m + 9) mod 12 <? 10) eqn:E; dlia. }
  set (era := y' / 400). set (yo := y' mod 400).
  assert (Yo : 0 <= yo < 400) by (unfold yo; dlia).
  assert (Ey : y = yo + era * 400 + (if 10 <=? mp then 1 else 0)).
  { unfold yo, era. assert (y' = y' mod 400 + y' / 400 * 400) by dlia.
    assert (A : y = y' + (if 10 <=? mp then 1 else 0)).
    { unfold y', mp. destruct (m <=? 2) eqn:E; destruct (10 <=? (m + 9) mod 12) eqn:E2; dlia. }
    lia. }
  assert (DM : 1 <= d <= mlen mp /\ (d = 29 -> mp = 11 -> is_leap (yo + 1) = true)).
  { destruct (Z.eq_dec mp 11) as [E|E].
    - rewrite E in *. change (mlen 11) with 29. change (11 <? 10) with false in Em. change (10 <=? 11) with true in Ey. cbv iota in Em, Ey.
      change (11 - 9) with 2 in Em. clearbody mp yo era. subst m y. unfold days_in in D. change (2 =? 2) with true in D. cbv iota in D.
      replace (yo + era * 400 + 1) with (yo + 1 + era * 400) in D by lia. rewrite is_leap_era in D.
      destruct (is_leap (yo + 1)); split; auto; lia.
    - split; [|intros; contradiction]. rewrite (mlen_days mp ltac:(lia) y), <- Em. exact D. }
  destruct DM as [DM DL]. destruct (md_sweep mp d MP DM) as [X E5]. cbv zeta in X, E5. set (x := (153 * mp + 2) / 5 + d - 1) in *.
  rewrite Ey at 1. rewrite Em at 1. rewrite days_parts by assumption. fold x.
  rewrite civil_parts; [|assumption|assumption|].
  - cbv zeta. rewrite E5. rewrite <- Em, <- Ey. f_equal. unfold x. lia.
  - rewrite year_days by assumption. destruct (doy_sweep x X) as (_ & _ & DD). rewrite E5 in DD.
    destruct (is_leap (yo + 1)) eqn:L; [lia|].
    assert (x <> 365); [|lia]. intros EX. apply DD in EX as [E1 E2].
    assert (d = 29) by (unfold x in E2; lia). specialize (DL H E1). discriminate.
Qed.

(** ** The specification's calendar *)
Lemma is_leap_spec y : is_leap y = true <-> leap_year y.
Proof.
  unfold is_leap, leap_year.
  assert (D : forall k, k <> 0 -> (y mod k =? 0) = true <-> (k | y)).
  { intros k K. rewrite Z.eqb_eq. split; [apply Z.mod_divide; exact K|apply Z.mod_divide; exact K]. }
  rewrite andb_true_iff, orb_true_iff, negb_true_iff, (D 4), (D 400) by lia.
  rewrite <- (D 100) by lia. rewrite not_true_iff_false. reflexivity.
Qed.

Lemma days_in_spec y m : 1 <= m <= 12 -> month_length y m (days_in m y).
Proof.
  intros M. unfold month_length, days_in. cbn [In].
  destruct (m =? 2) eqn:E2.
  - right. right. destruct (is_leap y) eqn:L.
    + left. rewrite <- is_leap_spec. repeat split; [lia|exact L].
    + right. rewrite <- is_leap_spec. repeat split; [lia|congruence].
  - destruct ((m =? 4) || (m =? 6) || (m =? 9) || (m =? 11)) eqn:E; [right; left|left]; split; lia.
Qed.

Lemma real_date_spec y m d : real_date y m d <-> 1 <= m <= 12 /\ 1 <= d <= days_in m y.
Proof.
  split.
  - intros (len & L & D).
    assert (M : 1 <= m <= 12) by (unfold month_length in L; cbn [In] in L; lia). split; [exact M|].
    assert (len = days_in m y); [|lia]. clear D M. unfold month_length, days_in in *. cbn [In] in L.
    destruct L as [[L ->]|[[L ->]|[(-> & L & ->)|(-> & L & ->)]]].
    + replace (m =? 2) with false by lia. replace ((m =? 4) || (m =? 6) || (m =? 9) || (m =? 11)) with false by lia. reflexivity.
    + replace (m =? 2) with false by lia. replace ((m =? 4) || (m =? 6) || (m =? 9) || (m =? 11)) with true by lia. reflexivity.
    + apply is_leap_spec in L. rewrite L. reflexivity.
    + destruct (is_leap y) eqn:E; [apply is_leap_spec in E; contradiction|reflexivity].
  - intros [M D]. exists (days_in m y). split; [apply days_in_spec, M|exact D].
Qed.

Lemma day_number_spec y m d : 1 <= m <= 12 -> days_from_civil y m d = day_number y m d.
Proof.
  intros M. unfold days_from_civil, day_number. cbv zeta. fold (is_leap y).
  assert (LP : is_leap y = true -> y / 4 - (y - 1) / 4 - (y / 100 - (y - 1) / 100) + (y / 400 - (y - 1) / 400) = 1) by (unfold is_leap; intros; dlia).
  assert (LN : is_leap y = false -> y / 4 - (y - 1) / 4 - (y / 100 - (y - 1) / 100) + (y / 400 - (y - 1) / 400) = 0) by (unfold is_leap; intros; dlia).
  assert (ERA : forall v, v / 400 * 146097 + (v mod 400 * 365 + v mod 400 / 4 - v mod 400 / 100) = 365 * v + v / 4 - v / 100 + v / 400).
  { intros v. dlia. }
  assert (C : m = 1 \/ m = 2 \/ m = 3 \/ m = 4 \/ m = 5 \/ m = 6 \/ m = 7 \/ m = 8 \/ m = 9 \/ m = 10 \/ m = 11 \/ m = 12) by lia.
  destruct C as [->|[->|C]].
  - change (1 <=? 2) with true. cbv iota. pose proof (ERA (y - 1)) as A.
    change (nth (Z.to_nat (1 - 1)) days_before_month 0) with 0. change ((153 * ((1 + 9) mod 12) + 2) / 5) with 306.
    change (2 <? 1) with false. cbn [andb]. lia.
  - change (2 <=? 2) with true. cbv iota. pose proof (ERA (y - 1)) as A.
    change (nth (Z.to_nat (2 - 1)) days_before_month 0) with 31. change ((153 * ((2 + 9) mod 12) + 2) / 5) with 337.
    change (2 <? 2) with false. cbn [andb]. lia.
  - replace (m <=? 2) with false by lia. replace (2 <? m) with true by lia. cbn [andb]. pose proof (ERA y) as A.
    assert (T : (153 * ((m + 9) mod 12) + 2) / 5 = nth (Z.to_nat (m - 1)) days_before_month 0 - 59).
    { clear - C. repeat (destruct C as [->|C]; [reflexivity|]). subst. reflexivity. }
    rewrite T. destruct (is_leap y); [specialize (LP eq_refl)|specialize (LN eq_refl)]; lia.
Qed.

(** ** Digits *)
Definition upto (n : nat) : list Z := map Z.of_nat (seq 0 n).
Lemma upto_forall n (p : Z -> bool) : forallb p (upto n) = true -> forall v, 0 <= v < Z.of_nat n -> p v = true.
Proof.
  intros H v R. rewrite forallb_forall in H. apply H. unfold upto. apply in_map_iff. exists (Z.to_nat v).
  split; [lia|]. apply in_seq. lia.
Qed.

Lemma pad2 n : 0 <= n < 100 -> pad_int 2 n = two_digits n.
Proof.
  intros H. apply beq_eq. apply (upto_forall 100 (fun n => beq (pad_int 2 n) (two_digits n))); [vm_compute; reflexivity|].
  exact H.
Qed.

Lemma digits_zeros k s : digits_val 0 (repeat (digit_chr 0) k ++ s) = digits_val 0 s /\ forallb is_digit (repeat (digit_chr 0) k) = true.
Proof. induction k as [|k [A B]]; [auto|]. cbn [repeat app digits_val forallb]. split; [exact A|exact B]. Qed.

Lemma pad_uint_spec w n : 0 <= n < 10 ^ Z.of_nat w -> (0 < w)%nat ->
  length (pad_uint w n) = w /\ forallb is_digit (pad_uint w n) = true /\ digits_val 0 (pad_uint w n) = n.
Proof.
  intros H W. pose proof (fmt_uint_length n w H W) as L. destruct (fmt_uint_spec n ltac:(lia)) as (D & N & V & _).
  unfold pad_uint. destruct (digits_zeros (w - length (fmt_uint n)) (fmt_uint n)) as [A B].
  rewrite app_length, repeat_length, forallb_app, D, B, A, V. split; [lia|]. split; reflexivity.
Qed.

Lemma pad4 y : 0 <= y < 10000 -> pad_int 4 y = two_digits (y / 100) ++ two_digits (y mod 100).
Proof.
  intros H. unfold pad_int. replace (y <? 0) with false by lia.
  destruct (pad_uint_spec 4 y ltac:(change (10 ^ Z.of_nat 4) with 10000; lia) ltac:(lia)) as (L & D & V).
  apply digits_val_inj; auto.
  - unfold two_digits. cbn [app forallb]. rewrite !digit_chr_digit by dlia. reflexivity.
  - rewrite V, digits_val_app, two_val by dlia. rewrite digits_val_acc, two_val by dlia.
    change (10 ^ Z.of_nat (length (two_digits (y mod 100)))) with 100. dlia.
Qed.

Lemma getnum_two n r f : 0 <= n < 100 -> getnum (two_digits n ++ r) f = Some (n, r).
Proof.
  intros H. unfold two_digits. cbn [app getnum]. rewrite !digit_chr_digit, !digit_chr_code by dlia.
  f_equal. f_equal. dlia.
Qed.

Lemma parse_year_four a b r : 0 <= a < 100 -> 0 <= b < 100 ->
  parse_year (two_digits a ++ two_digits b ++ r) = Some (100 * a + b, r).
Proof.
  intros A B. pose proof (two_val a A) as VA. pose proof (two_val b B) as VB. unfold two_digits in *. cbn [app parse_year forallb].
  rewrite !digit_chr_digit by dlia. cbn [andb]. cbn [digits_val] in *. rewrite !digit_chr_code in * by dlia. f_equal. f_equal. dlia.
Qed.

Definition ymd_text (y m d : Z) : bytes := two_digits (y / 100) ++ two_digits (y mod 100) ++ two_digits m ++ two_digits d.
Definition hms_text (h mi s : Z) : bytes := two_digits h ++ two_digits mi ++ two_digits s.

Lemma days_in_le m y : days_in m y <= 31.
Proof. unfold days_in. destruct (m =? 2); [destruct (is_leap y); lia|]. destruct (_ || _); lia. Qed.

Lemma parse_ymd_text y m d r : 0 <= y < 10000 -> 1 <= m <= 12 -> 1 <= d <= days_in m y ->
  parse_ymd (ymd_text y m d ++ r) = Some (y, m, d, r).
Proof.
  intros Y M D. pose proof (days_in_le m y). unfold parse_ymd, ymd_text. rewrite <- !app_assoc, parse_year_four by dlia.
  cbn [obind]. rewrite getnum_two by lia. cbn [ranged]. unfold in_range at 1. replace ((1 <=? m) && (m <=? 12)) with true by lia.
  cbn [obind]. rewrite getnum_two by lia. cbn [obind]. replace (100 * (y / 100) + y mod 100) with y by dlia.
  unfold in_range. replace ((1 <=? d) && (d <=? days_in m y)) with true by lia. reflexivity.
Qed.

Lemma parse_hms_text h mi s r : 0 <= h < 24 -> 0 <= mi < 60 -> 0 <= s < 60 -> parse_frac r = (0, r) ->
  parse_hms (hms_text h mi s ++ r) = Some (h, mi, s, 0, r).
Proof.
  intros H M S' F. unfold parse_hms, hms_text. rewrite <- !app_assoc, getnum_two by lia. cbn [ranged]. unfold in_range.
  replace ((0 <=? h) && (h <=? 23)) with true by lia. cbn [obind]. rewrite getnum_two by lia. cbn [ranged]. unfold in_range.
  replace ((0 <=? mi) && (mi <=? 59)) with true by lia. cbn [obind]. rewrite getnum_two by lia. cbn [ranged]. unfold in_range.
  replace ((0 <=? s) && (s <=? 59)) with true by lia. cbn [obind]. rewrite F. reflexivity.
Qed.

Section Times.
Context {env : Env}.

(** Seconds of the first instants of the years 0 and 10000. *)
Lemma year_range n y m d : civil_from_days n = (y, m, d) -> (-719528 <= n < 2932897 <-> 0 <= y < 10000).
Proof.
  intros E. pose proof (civil_inverse n) as C. rewrite E in C. destruct C as (M & D & V).
  rewrite day_number_spec in V by exact M. pose proof (days_in_le m y) as L.
  assert (B : 0 <= nth (Z.to_nat (m - 1)) days_before_month 0 /\ nth (Z.to_nat (m - 1)) days_before_month 0 + days_in m y +
    (if (2 <? m) && is_leap y then 1 else 0) <= (if is_leap y then 366 else 365)).
  { assert (C : m = 1 \/ m = 2 \/ m = 3 \/ m = 4 \/ m = 5 \/ m = 6 \/ m = 7 \/ m = 8 \/ m = 9 \/ m = 10 \/ m = 11 \/ m = 12) by lia.
    clear - C. repeat (destruct C as [->|C]; [unfold days_in; destruct (is_leap y); vm_compute; split; discriminate|]).
    subst m. unfold days_in. destruct (is_leap y); vm_compute; split; discriminate. }
  unfold day_number in V. fold (is_leap y) in V.
  assert (LP : is_leap y = true -> y / 4 - (y - 1) / 4 - (y / 100 - (y - 1) / 100) + (y / 400 - (y - 1) / 400) = 1) by (unfold is_leap; intros; dlia).
  set (a := nth _ _ _) in *. set (b := if (2 <? m) && is_leap y then 1 else 0) in *.
  assert (0 <= b <= 1) by (unfold b; destruct ((2 <? m) && is_leap y); lia).
  clearbody a b.
  assert (N : 1 <= a + b + d <= 366) by (revert B; destruct (is_leap y); lia).
  assert (N2 : is_leap y = false -> a + b + d <= 365) by (intros I; rewrite I in B; lia).
  clear B. split; intros R.
  - assert (A1 : y < 10000 \/ 10000 <= y) by lia. assert (A2 : 0 <= y \/ y <= -1) by lia.
    split.
    + destruct A2 as [A2|A2]; [exact A2|exfalso]. destruct (Z.eq_dec y (-1)) as [->|]; [|clear N2; dlia].
      change (is_leap (-1)) with false in *. specialize (N2 eq_refl).
      change (365 * (-1 - 1) + (-1 - 1) / 4 - (-1 - 1) / 100 + (-1 - 1) / 400) with (-731) in V. lia.
    + destruct A1 as [A1|A1]; [exact A1|exfalso]. dlia.
  - split; [dlia|].
    destruct (Z.eq_dec y 9999) as [->|]; [|dlia]. change (is_leap 9999) with false in *. specialize (N2 eq_refl).
    change (365 * (9999 - 1) + (9999 - 1) / 4 - (9999 - 1) / 100 + (9999 - 1) / 400) with 3651694 in V. lia.
Qed.

Definition resolve (l : loc) (unix : Z) : Z :=
  let '(off, st, en) := lookup l unix in
  if off =? 0 then unix
  else let utc := unix - off in
       unix - (if (utc <? st) || (en <=? utc) then offset_at l utc else off).

Lemma go_date_resolve y mo d h mi s ns l :
  go_date y mo d h mi s ns l = Time (resolve l (days_from_civil y mo d * 86400 + h * 3600 + mi * 60 + s)) ns l.
Proof. unfold go_date, resolve. destruct (lookup l _) as [[off st] en]. reflexivity. Qed.

Lemma resolve_utc w : resolve LUTC w = w.
Proof. reflexivity. Qed.

Lemma resolve_zone l s : coherent l -> bounded l -> unambiguous l s -> calm l s -> resolve l (s + offset_at l s) = s.
Proof.
  intros CO BO UN (o & CA). unfold resolve. set (w := s + offset_at l s).
  pose proof (CO w) as COw. destruct (lookup l w) as [[off st] en] eqn:LW.
  assert (OW : offset_at l w = off) by (unfold offset_at; rewrite LW; reflexivity).
  destruct (off =? 0) eqn:Z0; [apply UN; fold w; lia|]. cbv zeta.
  pose proof (BO s) as Bs. pose proof (BO w) as Bw.
  destruct ((w - off <? st) || (en <=? w - off)) eqn:OUT.
  - pose proof (CA w ltac:(unfold w; lia)) as Aw. pose proof (CA (w - off) ltac:(unfold w; lia)) as Au.
    assert (X : w - off + offset_at l (w - off) = s + offset_at l s -> w - offset_at l (w - off) = s).
    { intros Q. pose proof (UN _ Q) as U. rewrite U. unfold w. lia. }
    destruct Au as [Au|Au]; [rewrite Au; unfold w; lia|].
    destruct Aw as [Aw|Aw].
    + assert (w - off = s) by (unfold w in *; lia). rewrite H. unfold w. lia.
    + apply X. rewrite Au. rewrite OW in Aw. subst o. fold w. lia.
  - specialize (COw (w - off) ltac:(lia)). apply UN. fold w. lia.
Qed.

(** The wall clock reading of a time, and the text that shows it. *)
Definition shows (w : Z) (y m d h mi s : Z) : Prop :=
  civil_from_days (w / 86400) = (y, m, d) /\ h = w mod 86400 / 3600 /\ mi = w mod 86400 / 60 mod 60 /\ s = w mod 86400 mod 60.

Lemma wall_parts w : -62167219200 <= w < 253402300800 -> exists y m d h mi s, shows w y m d h mi s /\
  0 <= y < 10000 /\ 1 <= m <= 12 /\ 1 <= d <= days_in m y /\ 0 <= h < 24 /\ 0 <= mi < 60 /\ 0 <= s < 60 /\
  days_from_civil y m d * 86400 + h * 3600 + mi * 60 + s = w.
Proof.
  intros W. destruct (civil_from_days (w / 86400)) as [[y m] d] eqn:E.
  pose proof (civil_inverse (w / 86400)) as C. rewrite E in C. destruct C as (M & D & V).
  pose proof (proj1 (year_range _ _ _ _ E) ltac:(dlia)) as Y.
  exists y, m, d, (w mod 86400 / 3600), (w mod 86400 / 60 mod 60), (w mod 86400 mod 60).
  unfold shows. rewrite E, V. repeat split; try lia; dlia.
Qed.

Lemma format_date_text t y m d h mi s : shows (wall t) y m d h mi s -> 0 <= y < 10000 -> 1 <= m <= 12 -> 1 <= d <= days_in m y ->
  format_date t = ymd_text y m d.
Proof.
  intros (E & _) Y M D. pose proof (days_in_le m y). unfold format_date. rewrite E, pad4, !pad2 by lia. unfold ymd_text. rewrite <- !app_assoc. reflexivity.
Qed.

Lemma format_clock_text t y m d h mi s : shows (wall t) y m d h mi s -> 0 <= h < 24 -> 0 <= mi < 60 -> 0 <= s < 60 ->
  format_clock t = hms_text h mi s.
Proof. intros (_ & -> & -> & ->) H M S'. unfold format_clock. cbv zeta. rewrite !pad2 by lia. reflexivity. Qed.

Lemma parse_date_format t : -62167219200 <= wall t < 253402300800 ->
  parse_date (format_date t) = Some (Time (wall t - wall t mod 86400) 0 LUTC).
Proof.
  intros W. destruct (wall_parts _ W) as (y & m & d & h & mi & s & S' & Y & M & D & H & MI & SS & V).
  rewrite (format_date_text t y m d h mi s) by auto. unfold parse_date.
  pose proof (parse_ymd_text y m d [] Y M D) as P. rewrite app_nil_r in P. rewrite P. cbn [obind].
  rewrite go_date_resolve, resolve_utc. f_equal. f_equal. destruct S' as (E & _).
  pose proof (civil_inverse (wall t / 86400)) as C. rewrite E in C. dlia.
Qed.

Lemma parse_datetime_format (z : bool) t l : -62167219200 <= wall t < 253402300800 ->
  parse_datetime z (format_datetime t ++ (if z then bs "Z" else [])) l = Some (Time (resolve l (wall t)) 0 l).
Proof.
  intros W. destruct (wall_parts _ W) as (y & m & d & h & mi & s & S' & Y & M & D & H & MI & SS & V).
  unfold format_datetime. rewrite (format_date_text t y m d h mi s), (format_clock_text t y m d h mi s) by auto.
  unfold parse_datetime. rewrite <- !app_assoc, parse_ymd_text by auto. cbn [obind bs list_ascii_of_string app lit]. change (beqc "T" "T") with true.
  cbn [obind]. rewrite parse_hms_text by (auto; destruct z; reflexivity). cbn [obind].
  rewrite go_date_resolve, V. destruct z; reflexivity.
Qed.

Lemma parse_clock_format (z : bool) t l : -62167219200 <= wall t < -62167132800 ->
  parse_clock z (format_clock t ++ (if z then bs "Z" else [])) l = Some (Time (resolve l (wall t)) 0 l).
Proof.
  intros W. destruct (wall_parts (wall t) ltac:(lia)) as (y & m & d & h & mi & s & S' & Y & M & D & H & MI & SS & V).
  rewrite (format_clock_text t y m d h mi s) by auto.
  unfold parse_clock. rewrite parse_hms_text by (auto; destruct z; reflexivity). cbn [obind].
  rewrite go_date_resolve. change (days_from_civil 0 1 1) with (-719528).
  assert (E : days_from_civil y m d = -719528).
  { destruct S' as (E & _). pose proof (civil_inverse (wall t / 86400)) as C. rewrite E in C. dlia. }
  rewrite E in V. rewrite V. destruct z; reflexivity.
Qed.

Lemma digits_no_z w : (forall c, In c w -> is_digit c = true) -> forall u, w <> [] -> ends_with "Z"%char (u ++ w) = false.
Proof.
  intros D u N. unfold ends_with. rewrite rev_app_distr. destruct (rev w) as [|c r] eqn:E.
  - apply (f_equal (@rev _)) in E. rewrite rev_involutive in E. contradiction.
  - cbn [app]. assert (I : In c w) by (apply in_rev; rewrite E; left; reflexivity). specialize (D c I).
    destruct (beqc c "Z") eqn:B; [|reflexivity]. apply Ascii.eqb_eq in B. subst c. discriminate.
Qed.
End Times.
