(** The texts that are read as recurrence rules. *)
From Coq Require Import String Ascii ZArith Bool List Lia ZifyBool Permutation.
From Verif Require Import Base Lib Utf8 GoStrings Strtok Tokeniser GoTime Types SpecDuration SpecTime SpecLang SpecRule.
From Verif Require Import NumProofs TokeniserProofs DurationProofs TimeProofs DateProofs RecurProofs LangProofs LangTimeProofs.
Import ListNotations.
Local Open Scope Z_scope.

(** ** Lists *)
Lemma split_one sep w : ~ In sep w -> split sep w = [w].
Proof. intros N. pose proof (split_parts sep [] w N (Forall_nil _)) as H. cbn [map concat] in H. rewrite app_nil_r in H. exact H. Qed.

Lemma split_more sep : forall w s, ~ In sep w -> split sep (w ++ sep :: s) = w :: split sep s.
Proof.
  induction w as [|c w IH]; intros s N; cbn [app split].
  - rewrite beqc_refl. reflexivity.
  - destruct (beqc c sep) eqn:E; [apply beqc_eq in E; exfalso; apply N; left; exact E|].
    rewrite IH by (intros I; apply N; right; exact I). reflexivity.
Qed.

Lemma sep_first sep (s : bytes) : ~ In sep s \/ exists w r, s = w ++ sep :: r /\ ~ In sep w.
Proof.
  induction s as [|c s IH]; [left; intros []|]. destruct (beqc c sep) eqn:E.
  - apply beqc_eq in E. subst c. right. exists [], s. split; [reflexivity|intros []].
  - assert (N : c <> sep) by (intros ->; rewrite beqc_refl in E; discriminate). destruct IH as [IH|IH].
    + left. intros [H|H]; contradiction.
    + destruct IH as (w & r & -> & IH). right. exists (c :: w), r. split; [reflexivity|]. intros [H|H]; contradiction.
Qed.

Lemma listed_split {A} sep (P : bytes -> A -> Prop) s l : listed sep P s l <-> Forall2 P (split sep s) l.
Proof.
  split.
  - induction 1 as [w a PA N|w a s l PA N H IH].
    + rewrite split_one by exact N. repeat constructor. exact PA.
    + rewrite split_more by exact N. constructor; assumption.
  - remember (length s) as n eqn:En. assert (L : (length s <= n)%nat) by lia. clear En. revert s l L. induction n as [|n IH]; intros s l L F.
    + destruct s; [|cbn [length] in L; lia]. cbn [split] in F. inversion F as [|? a ? l' PA F']; subst. inversion F'; subst. apply L_one; [exact PA|intros []].
    + destruct (sep_first sep s) as [N|(w & r & -> & N)].
      * rewrite split_one in F by exact N. inversion F as [|? a ? l' PA F']; subst. inversion F'; subst. apply L_one; assumption.
      * rewrite split_more in F by exact N. inversion F as [|? a ? l' PA F']; subst. apply L_more; [exact PA|exact N|]. apply IH; [|exact F'].
        rewrite app_length in L. cbn [length] in L. lia.
Qed.

Lemma mapM_iff {A B} (f : A -> res B) ws : forall l, mapM f ws = Ok l <-> Forall2 (fun w a => f w = Ok a) ws l.
Proof.
  induction ws as [|w ws IH]; intros l; cbn [mapM].
  - split; [intros H; apply Ok_inj in H; subst; constructor|]. intros H. inversion H. reflexivity.
  - split.
    + intros H. apply bind_ok in H as (b & HB & H). apply bind_ok in H as (bs' & HBS & H). apply Ok_inj in H. subst l. constructor; [exact HB|]. apply IH. exact HBS.
    + intros H. inversion H as [|? b ? l' HB HL]; subst. rewrite HB. cbn [bind]. rewrite (proj2 (IH l') HL). reflexivity.
Qed.

Lemma F2_iff {A B} (P Q : A -> B -> Prop) ws l : (forall w a, P w a <-> Q w a) -> Forall2 P ws l <-> Forall2 Q ws l.
Proof. intros E. split; intros H; induction H; constructor; try apply E; assumption. Qed.

Lemma ulist_iff lo hi s l : 0 <= lo -> hi < 256 -> parse_ulist lo hi s = Ok l <-> listed ","%char (unsigned_item lo hi) s l.
Proof.
  intros LO HI. unfold parse_ulist. rewrite mapM_iff, listed_split. apply F2_iff. intros w v. unfold unsigned_item. split.
  - destruct (parse_uint 8 w) as [n|] eqn:E; [|discriminate]. apply parse_uint_iff in E as [D _]. unfold in_range.
    destruct ((lo <=? n) && (n <=? hi)) eqn:R; [|discriminate]. intros H. apply Ok_inj in H. subst v. split; [exact D|lia].
  - intros [D R]. rewrite (proj2 (parse_uint_iff 8 w v)) by (split; [exact D|change (2 ^ 8) with 256; lia]). unfold in_range.
    destruct ((lo <=? v) && (v <=? hi)) eqn:E; [reflexivity|lia].
Qed.

Lemma slist_iff bits hi s l : 0 < bits <= 64 -> hi < 2 ^ (bits - 1) -> parse_slist bits hi s = Ok l <-> listed ","%char (signed_item hi) s l.
Proof.
  intros B HI. unfold parse_slist. rewrite mapM_iff, listed_split. apply F2_iff. intros w v. unfold signed_item. split.
  - destruct (parse_int bits w) as [n|] eqn:E; [|discriminate]. apply parse_int_iff in E as [D _]; [|exact B].
    destruct ((n =? 0) || (hi <? n) || (n <? - hi)) eqn:R; [discriminate|]. intros H. apply Ok_inj in H. subst v. split; [exact D|lia].
  - intros (D & N & R). rewrite (proj2 (parse_int_iff bits w v B)) by (split; [exact D|lia]).
    destruct ((v =? 0) || (hi <? v) || (v <? - hi)) eqn:E; [lia|reflexivity].
Qed.

(** ** Words *)
Lemma index_of_iff w l n : index_of w l = Some n -> nth_error l n = Some w.
Proof.
  revert n. induction l as [|x l IH]; intros n; cbn [index_of]; [discriminate|]. destruct (beq w x) eqn:E.
  - apply beq_eq in E. intros H. injection H as <-. subst. reflexivity.
  - destruct (index_of w l) as [k|]; [|discriminate]. intros H. injection H as <-. cbn [nth_error]. apply IH. reflexivity.
Qed.

Lemma freq_iff v f : (exists n, index_of v freq_words = Some n /\ f = Z.of_nat n) <-> In (v, f) frequencies.
Proof.
  split.
  - intros (n & H & ->). pose proof (index_of_lt _ _ _ H) as L. apply index_of_iff in H. unfold freq_words in *. cbn [length] in L.
    do 7 (destruct n as [|n]; [injection H as <-; unfold frequencies; cbn [In Z.of_nat Pos.of_succ_nat Pos.succ]; tauto|]). lia.
  - unfold frequencies. cbn [In]. intros H. repeat (destruct H as [H|H]; [injection H as <- <-; eexists; split; [vm_compute; reflexivity|reflexivity]|]). destruct H.
Qed.

Lemma weekday_iff v d : day_of_word v = Some d <-> In (v, d) weekdays.
Proof.
  unfold day_of_word. split.
  - destruct (index_of v day_words) as [n|] eqn:H; [|discriminate]. intros E. injection E as <-.
    pose proof (index_of_lt _ _ _ H) as L. apply index_of_iff in H. unfold day_words in *. cbn [length] in L.
    do 7 (destruct n as [|n]; [injection H as <-; unfold weekdays; cbn [In Z.of_nat Pos.of_succ_nat Pos.succ Z.add Pos.add]; tauto|]). lia.
  - unfold weekdays. cbn [In]. intros H. repeat (destruct H as [H|H]; [injection H as <- <-; vm_compute; reflexivity|]). destruct H.
Qed.

Lemma weekday_shape w d : In (w, d) weekdays -> exists a b, w = [a; b] /\ is_digit a = false /\ beqc a "+" = false /\ beqc a "-" = false /\ 1 <= d <= 7.
Proof.
  unfold weekdays. cbn [In]. intros H.
  repeat (destruct H as [H|H]; [injection H as <- <-; eexists; eexists; split; [reflexivity|]; repeat split; try reflexivity; lia|]). destruct H.
Qed.

Lemma parse_day_iff w d : parse_day w = Ok d <-> day_text w d.
Proof.
  split.
  - unfold parse_day. destruct w as [|c0 [|c1 tl0]]; try discriminate.
    set (neg := beqc c0 "-"). set (plus := beqc c0 "+"). set (day1 := if plus || neg then c1 :: tl0 else c0 :: c1 :: tl0).
    destruct (neg && Nat.ltb (length day1) 2) eqn:NL; [discriminate|].
    assert (SG : exists sign, c0 :: c1 :: tl0 = sign ++ day1 /\
       ((sign = [] /\ neg = false) \/ (sign = bs "+" /\ neg = false) \/ (sign = bs "-" /\ neg = true))).
    { unfold day1, plus, neg. destruct (beqc c0 "+") eqn:E1.
      - apply beqc_eq in E1. subst c0. exists (bs "+"). auto.
      - destruct (beqc c0 "-") eqn:E2; [apply beqc_eq in E2; subst c0; exists (bs "-"); auto|]. exists []. auto. }
    clearbody day1 neg plus. destruct SG as (sign & -> & SG). clear NL.
    destruct day1 as [|d0 day2]; [discriminate|]. destruct (is_digit d0) eqn:D0.
    + destruct day2 as [|d1 day2']; [discriminate|]. destruct (is_digit d1) eqn:D1.
      * destruct (_ || _) eqn:R; [discriminate|]. cbn [bind orb negb]. destruct (Nat.eqb_spec (length day2') 2); [|discriminate]. cbn [negb].
        destruct (day_of_word day2') as [dd|] eqn:W; [|discriminate]. intros H. apply Ok_inj in H. subst d. apply weekday_iff in W.
        pose proof (two_val_of d0 d1 D0 D1) as [DC LC]. cbn [digits_val] in DC.
        left. exists (sign ++ [d0; d1]), day2'. split; [rewrite <- app_assoc; reflexivity|]. cbn [dr_day dr_occ]. split; [exact W|]. right.
        exists [d0; d1], ((code d0 - 48) * 10 + (code d1 - 48)). split; [replace ((code d0 - 48) * 10 + (code d1 - 48)) with ((0 * 10 + (code d0 - 48)) * 10 + (code d1 - 48)) by lia; exact DC|].
        split; [rewrite LC; lia|]. split; [apply decimal_nonneg in DC; lia|].
        destruct SG as [SG|[SG|SG]]; destruct SG as [-> ->]; cbn [app]; auto.
      * destruct (_ || _) eqn:R; [discriminate|]. cbn [bind orb negb]. destruct (Nat.eqb_spec (length (d1 :: day2')) 2) as [L2|L2]; [|discriminate]. cbn [negb].
        destruct (day_of_word (d1 :: day2')) as [dd|] eqn:W; [|discriminate]. intros H. apply Ok_inj in H. subst d. apply weekday_iff in W.
        left. exists (sign ++ [d0]), (d1 :: day2'). split; [rewrite <- app_assoc; reflexivity|]. cbn [dr_day dr_occ]. split; [exact W|]. right.
        assert (DC : decimal [d0] (code d0 - 48)) by (apply decimal_spec; cbn [forallb digits_val]; rewrite D0; split; [discriminate|split; [reflexivity|lia]]).
        exists [d0], (code d0 - 48). split; [exact DC|]. split; [cbn [length]; lia|]. split; [apply decimal_nonneg in DC; lia|].
        destruct SG as [SG|[SG|SG]]; destruct SG as [-> ->]; cbn [app]; auto.
    + cbn [bind orb]. destruct neg; [discriminate|]. cbn [negb orb]. destruct (Nat.eqb_spec (length (d0 :: day2)) 2) as [L2|L2]; [|discriminate]. cbn [negb].
      destruct (day_of_word (d0 :: day2)) as [dd|] eqn:W; [|discriminate]. intros H. apply Ok_inj in H. subst d. apply weekday_iff in W.
      destruct SG as [SG|[SG|SG]]; destruct SG as [-> SG].
      * left. exists [], (d0 :: day2). auto.
      * right. exists (d0 :: day2). auto.
      * discriminate.
  - intros [H|H].
    + destruct H as (num & word & -> & W & H). destruct (weekday_shape _ _ W) as (a & b & -> & DA & PA & MA & _). apply weekday_iff in W.
      assert (NUM : forall neg (sign : bytes) ds n, decimal ds n -> (length ds <= 2)%nat -> 1 <= n <= 53 -> 
        ((sign = [] /\ neg = false) \/ (sign = bs "+" /\ neg = false) \/ (sign = bs "-" /\ neg = true)) ->
        parse_day ((sign ++ ds) ++ [a; b]) = Ok (DayRecur (dr_day d) (if neg then - n else n))).
      { intros neg sign ds n D L R SG. apply decimal_bytes in D as (F & N & V).
        destruct ds as [|x [|y [|z ds]]]; [contradiction| | |cbn [length] in L; lia].
        - cbn [forallb] in F. rewrite andb_true_r in F. cbn [digits_val] in V. destruct (digit_not_sign x F) as [X1 X2].
          assert (R2 : (code x - 48 =? 0) || (53 <? code x - 48) = false) by lia.
          assert (VN : code x - 48 = n) by lia.
          destruct SG as [SG|[SG|SG]]; destruct SG as [-> ->]; cbn [app bs list_ascii_of_string]; unfold parse_day.
          + rewrite X1, X2. cbn [orb andb]. rewrite F, DA, R2. cbn [bind orb negb length Nat.eqb]. rewrite W, VN. reflexivity.
          + change (beqc "+" "-") with false. change (beqc "+" "+") with true. cbn [orb andb]. rewrite F, DA, R2. cbn [bind orb negb length Nat.eqb]. rewrite W, VN. reflexivity.
          + change (beqc "-" "-") with true. change (beqc "-" "+") with false. cbn [orb andb length Nat.ltb Nat.leb]. rewrite F, DA, R2. cbn [bind orb negb length Nat.eqb]. rewrite W, VN. reflexivity.
        - cbn [forallb] in F. rewrite andb_true_r in F. apply andb_true_iff in F as [F G]. cbn [digits_val] in V. destruct (digit_not_sign x F) as [X1 X2].
          assert (R2 : ((code x - 48) * 10 + (code y - 48) =? 0) || (53 <? (code x - 48) * 10 + (code y - 48)) = false) by lia.
          assert (VN : (code x - 48) * 10 + (code y - 48) = n) by lia.
          destruct SG as [SG|[SG|SG]]; destruct SG as [-> ->]; cbn [app bs list_ascii_of_string]; unfold parse_day.
          + rewrite X1, X2. cbn [orb andb]. rewrite F, G, R2. cbn [bind orb negb length Nat.eqb]. rewrite W, VN. reflexivity.
          + change (beqc "+" "-") with false. change (beqc "+" "+") with true. cbn [orb andb]. rewrite F, G, R2. cbn [bind orb negb length Nat.eqb]. rewrite W, VN. reflexivity.
          + change (beqc "-" "-") with true. change (beqc "-" "+") with false. cbn [orb andb length Nat.ltb Nat.leb]. rewrite F, G, R2. cbn [bind orb negb length Nat.eqb]. rewrite W, VN. reflexivity. }
      destruct d as [day occ]. cbn [dr_day dr_occ] in *. destruct H as [H|H].
      * destruct H as [-> ->]. cbn [app]. unfold parse_day. rewrite PA, MA. cbn [orb andb]. rewrite DA. cbn [bind orb negb length Nat.eqb]. rewrite W. reflexivity.
      * destruct H as (ds & n & D & L & R & H). destruct H as [H|[H|H]]; destruct H as [-> ->].
        -- apply (NUM false [] ds n); auto.
        -- apply (NUM false (bs "+") ds n); auto.
        -- apply (NUM true (bs "-") ds n); auto.
    + destruct H as (word & -> & W & O). destruct (weekday_shape _ _ W) as (a & b & -> & DA & PA & MA & _). apply weekday_iff in W.
      destruct d as [day occ]. cbn [dr_day dr_occ] in *. subst occ. cbn [app bs list_ascii_of_string]. unfold parse_day.
      change (beqc "+" "-") with false. change (beqc "+" "+") with true. cbn [orb andb]. rewrite DA. cbn [bind orb negb length Nat.eqb]. rewrite W. reflexivity.
Qed.

Section LangRule.
Context {env : Env}.

(** ** One part *)
Lemma names_distinct p k v : rname p = k -> ~ In "="%char k /\ cut "="%char (k ++ bs "=" ++ v) = Some (k, v).
Proof.
  intros <-. assert (N : ~ In "="%char (rname p)) by (destruct p; vm_compute; intuition discriminate).
  split; [exact N|]. apply (cut_app "="%char (rname p) v N).
Qed.

Lemma date_iff v t : date_decode v = Ok t <-> exists y mo d, date_text v y mo d /\ real_date y mo d /\ t = Time (86400 * day_number y mo d) 0 LUTC.
Proof.
  pose proof (date_lang [] v (VDate t)) as H. unfold value_decode in H. rewrite rmap_ok in H. split.
  - intros E. destruct (proj1 H) as (y & mo & d & A & B & C); [exists t; auto|]. injection C as C. exists y, mo, d. auto.
  - intros (y & mo & d & A & B & C). destruct (proj2 H) as (t' & E & F); [exists y, mo, d; subst t; auto|]. injection F as F. subst t'. exact E.
Qed.

Lemma date_length v y mo d : date_text v y mo d -> length v = 8%nat.
Proof. intros (a & b & c & -> & A & B & C & _). rewrite !app_length. lia. Qed.
Lemma datetime_length id tz v t : datetime_text id tz v t -> (10 < length v)%nat.
Proof.
  intros (d & c & y & mo & da & h & mi & x & ns & l & P & DT & _ & (a & f & -> & (hh & mm & ss & -> & [_ H1] & [_ H2] & [_ H3]) & _) & _).
  apply date_length in DT. unfold placed in P.
  assert (L : (10 < length (d ++ bs "T" ++ (hh ++ mm ++ ss) ++ f))%nat) by (rewrite !app_length; lia).
  destruct tz; [destruct P as [-> _]; exact L|]. destruct P as [P|P]; destruct P as [-> _]; [rewrite app_length; lia|exact L].
Qed.

Definition is_freq (p : rpart) : bool := match p with RFreq _ => true | _ => false end.

Lemma isnil_iff {A} (l : list A) : isnil l = true <-> l = [].
Proof. destruct l; split; intros H; try discriminate; reflexivity. Qed.

Ltac keys := repeat match goal with |- context [beq (bs ?a) (bs ?b)] =>
  let v := eval vm_compute in (beq (bs a) (bs b)) in replace (beq (bs a) (bs b)) with v by (vm_compute; reflexivity) end; cbv iota.

(** A part that is read, from the text of its value. *)
Lemma rule_read m r fq p v : rvalue day_text (pmap_get m (bs "TZID")) v p -> after_parts r p -> 0 <= r_count r -> 0 <= r_interval r ->
  recur_rule m r fq (rname p) v = Ok (add_part r p, fq || is_freq p).
Proof.
  destruct r as [fr wk ut un co iv bse bmi bho bda bmd byd bwn bmo bsp]. intros V A C0 I0. cbn [r_count r_interval] in C0, I0.
  destruct p; cbn [rvalue after_parts r_count r_until r_interval r_bysecond r_byminute r_byhour r_byday r_bymonthday r_byyearday r_byweekno r_bymonth r_bysetpos r_wkst] in *;
    unfold recur_rule; cbn [rname is_freq]; rewrite ?orb_false_r, ?orb_true_r.
  - keys. apply freq_iff in V as (n & E & ->). rewrite E. reflexivity.
  - keys.
    destruct (Z.ltb_spec 0 co); [lia|]. destruct timed.
    + pose proof (datetime_length _ _ _ _ V) as L. destruct (Nat.ltb_spec 10 (length v)); [|lia]. rewrite (proj2 (datetime_iff 0 m v t) V). reflexivity.
    + pose proof (proj2 (date_iff v t) V) as DV. destruct V as (y & mo & d & V & _). apply date_length in V.
      destruct (Nat.ltb_spec 10 (length v)); [lia|]. rewrite DV. reflexivity.
  - keys.
    rewrite A. cbn [negb]. rewrite (proj2 (parse_uint_iff 64 v n) V). reflexivity.
  - keys. destruct (Z.ltb_spec 0 iv); [lia|]. rewrite (proj2 (parse_uint_iff 64 v n) V). reflexivity.
  - keys. subst bse. cbn [isnil negb]. rewrite (proj2 (ulist_iff 0 60 v l ltac:(lia) ltac:(lia)) V). reflexivity.
  - keys. subst bmi. cbn [isnil negb]. rewrite (proj2 (ulist_iff 0 59 v l ltac:(lia) ltac:(lia)) V). reflexivity.
  - keys. subst bho. cbn [isnil negb]. rewrite (proj2 (ulist_iff 0 23 v l ltac:(lia) ltac:(lia)) V). reflexivity.
  - keys. subst bda. cbn [isnil negb]. apply listed_split in V.
    rewrite (proj2 (mapM_iff parse_day (split ","%char v) l)) by (eapply F2_iff; [|exact V]; intros; apply parse_day_iff). reflexivity.
  - keys. subst bmd. cbn [isnil negb]. rewrite (proj2 (slist_iff 8 31 v l ltac:(lia) ltac:(lia)) V). reflexivity.
  - keys. subst byd. cbn [isnil negb]. rewrite (proj2 (slist_iff 16 366 v l ltac:(lia) ltac:(lia)) V). reflexivity.
  - keys. subst bwn. cbn [isnil negb]. rewrite (proj2 (slist_iff 8 53 v l ltac:(lia) ltac:(lia)) V). reflexivity.
  - keys. subst bmo. cbn [isnil negb]. rewrite (proj2 (ulist_iff 1 12 v l ltac:(lia) ltac:(lia)) V). reflexivity.
  - keys. subst bsp. cbn [isnil negb]. rewrite (proj2 (slist_iff 16 366 v l ltac:(lia) ltac:(lia)) V). reflexivity.
  - keys. subst wk. cbn [Z.eqb negb]. apply weekday_iff in V. rewrite V. reflexivity.
Qed.

Lemma rule_inv m r fq k v r' fq' : recur_rule m r fq k v = Ok (r', fq') -> 0 <= r_count r -> 0 <= r_interval r ->
  exists p, k = rname p /\ rvalue day_text (pmap_get m (bs "TZID")) v p /\ after_parts r p /\ r' = add_part r p /\ fq' = fq || is_freq p.
Proof.
  destruct r as [fr wk ut un co iv bse bmi bho bda bmd byd bwn bmo bsp]. cbn [r_count r_interval]. intros H C0 I0. unfold recur_rule in H.
  destruct (beq k (bs "FREQ")) eqn:E.
  { apply beq_eq in E. destruct (index_of v freq_words) as [n|] eqn:X; [|discriminate]. injection H as <- <-. exists (RFreq (Z.of_nat n)).
    split; [exact E|]. split; [apply freq_iff; eauto|]. cbn [is_freq]. rewrite orb_true_r. split; [exact Logic.I|auto]. }
  clear E. destruct (beq k (bs "UNTIL")) eqn:E.
  { apply beq_eq in E. destruct (Z.ltb_spec 0 co) as [L|L]; [discriminate|]. destruct (Nat.ltb 10 (length v)).
    - destruct (datetime_decode 0 m v) as [t| | |] eqn:X; try discriminate. injection H as <- <-. exists (RUntil true t). split; [exact E|].
      split; [apply datetime_iff; exact X|]. cbn [is_freq after_parts r_count]. rewrite orb_false_r. split; [lia|auto].
    - destruct (date_decode v) as [t| | |] eqn:X; try discriminate. injection H as <- <-. exists (RUntil false t). split; [exact E|].
      split; [apply date_iff; exact X|]. cbn [is_freq after_parts r_count]. rewrite orb_false_r. split; [lia|auto]. }
  clear E. destruct (beq k (bs "COUNT")) eqn:E.
  { apply beq_eq in E. destruct (is_zero un) eqn:U; [|discriminate]. cbn [negb] in H. destruct (parse_uint 64 v) as [n|] eqn:X; [|discriminate].
    injection H as <- <-. exists (RCount n). split; [exact E|]. split; [apply parse_uint_iff; exact X|]. cbn [is_freq]. rewrite orb_false_r. split; [exact U|auto]. }
  clear E. destruct (beq k (bs "INTERVAL")) eqn:E.
  { apply beq_eq in E. destruct (Z.ltb_spec 0 iv) as [L|L]; [discriminate|]. destruct (parse_uint 64 v) as [n|] eqn:X; [|discriminate].
    injection H as <- <-. exists (RInterval n). split; [exact E|]. split; [apply parse_uint_iff; exact X|]. cbn [is_freq after_parts r_interval]. rewrite orb_false_r. split; [lia|auto]. }
  clear E. destruct (beq k (bs "BYSECOND")) eqn:E.
  { apply beq_eq in E. destruct (isnil bse) eqn:U; [|discriminate]. cbn [negb] in H. apply isnil_iff in U. apply bind_ok in H as (l & X & H). injection H as <- <-.
    exists (RBySecond l). split; [exact E|]. split; [apply ulist_iff; [lia|lia|exact X]|]. cbn [is_freq]. rewrite orb_false_r. split; [exact U|auto]. }
  clear E. destruct (beq k (bs "BYMINUTE")) eqn:E.
  { apply beq_eq in E. destruct (isnil bmi) eqn:U; [|discriminate]. cbn [negb] in H. apply isnil_iff in U. apply bind_ok in H as (l & X & H). injection H as <- <-.
    exists (RByMinute l). split; [exact E|]. split; [apply ulist_iff; [lia|lia|exact X]|]. cbn [is_freq]. rewrite orb_false_r. split; [exact U|auto]. }
  clear E. destruct (beq k (bs "BYHOUR")) eqn:E.
  { apply beq_eq in E. destruct (isnil bho) eqn:U; [|discriminate]. cbn [negb] in H. apply isnil_iff in U. apply bind_ok in H as (l & X & H). injection H as <- <-.
    exists (RByHour l). split; [exact E|]. split; [apply ulist_iff; [lia|lia|exact X]|]. cbn [is_freq]. rewrite orb_false_r. split; [exact U|auto]. }
  clear E. destruct (beq k (bs "BYDAY")) eqn:E.
  { apply beq_eq in E. destruct (isnil bda) eqn:U; [|discriminate]. cbn [negb] in H. apply isnil_iff in U. apply bind_ok in H as (l & X & H). injection H as <- <-.
    exists (RByDay l). split; [exact E|]. split; [apply listed_split; apply mapM_iff in X; eapply F2_iff; [|exact X]; intros; symmetry; apply parse_day_iff|].
    cbn [is_freq]. rewrite orb_false_r. split; [exact U|auto]. }
  clear E. destruct (beq k (bs "BYMONTHDAY")) eqn:E.
  { apply beq_eq in E. destruct (isnil bmd) eqn:U; [|discriminate]. cbn [negb] in H. apply isnil_iff in U. apply bind_ok in H as (l & X & H). injection H as <- <-.
    exists (RByMonthDay l). split; [exact E|]. split; [apply (slist_iff 8); [lia|lia|exact X]|]. cbn [is_freq]. rewrite orb_false_r. split; [exact U|auto]. }
  clear E. destruct (beq k (bs "BYYEARDAY")) eqn:E.
  { apply beq_eq in E. destruct (isnil byd) eqn:U; [|discriminate]. cbn [negb] in H. apply isnil_iff in U. apply bind_ok in H as (l & X & H). injection H as <- <-.
    exists (RByYearDay l). split; [exact E|]. split; [apply (slist_iff 16); [lia|lia|exact X]|]. cbn [is_freq]. rewrite orb_false_r. split; [exact U|auto]. }
  clear E. destruct (beq k (bs "BYWEEKNO")) eqn:E.
  { apply beq_eq in E. destruct (isnil bwn) eqn:U; [|discriminate]. cbn [negb] in H. apply isnil_iff in U. apply bind_ok in H as (l & X & H). injection H as <- <-.
    exists (RByWeekNo l). split; [exact E|]. split; [apply (slist_iff 8); [lia|lia|exact X]|]. cbn [is_freq]. rewrite orb_false_r. split; [exact U|auto]. }
  clear E. destruct (beq k (bs "BYMONTH")) eqn:E.
  { apply beq_eq in E. destruct (isnil bmo) eqn:U; [|discriminate]. cbn [negb] in H. apply isnil_iff in U. apply bind_ok in H as (l & X & H). injection H as <- <-.
    exists (RByMonth l). split; [exact E|]. split; [apply ulist_iff; [lia|lia|exact X]|]. cbn [is_freq]. rewrite orb_false_r. split; [exact U|auto]. }
  clear E. destruct (beq k (bs "BYSETPOS")) eqn:E.
  { apply beq_eq in E. destruct (isnil bsp) eqn:U; [|discriminate]. cbn [negb] in H. apply isnil_iff in U. apply bind_ok in H as (l & X & H). injection H as <- <-.
    exists (RBySetPos l). split; [exact E|]. split; [apply (slist_iff 16); [lia|lia|exact X]|]. cbn [is_freq]. rewrite orb_false_r. split; [exact U|auto]. }
  clear E. destruct (beq k (bs "WKST")) eqn:E; [|discriminate].
  apply beq_eq in E. destruct (Z.eqb_spec wk 0) as [U|U]; [|discriminate]. cbn [negb] in H. destruct (day_of_word v) as [d|] eqn:X; [|discriminate]. injection H as <- <-.
  exists (RWkst d). split; [exact E|]. split; [apply weekday_iff; exact X|]. cbn [is_freq]. rewrite orb_false_r. split; [exact U|auto].
Qed.

(** ** All parts *)
Lemma add_nonneg r p days tz v : rvalue days tz v p -> 0 <= r_count r -> 0 <= r_interval r -> 0 <= r_count (add_part r p) /\ 0 <= r_interval (add_part r p).
Proof.
  destruct r as [fr wk ut un co iv bse bmi bho bda bmd byd bwn bmo bsp]. intros V C0 I0. cbn [r_count r_interval] in *.
  destruct p; cbn [add_part r_count r_interval]; auto; destruct V as [D _]; apply decimal_nonneg in D; auto.
Qed.

Fixpoint accepts (r : recur) (ps : list rpart) : Prop :=
  match ps with [] => True | p :: ps' => after_parts r p /\ accepts (add_part r p) ps' end.

Lemma rules_iff m : forall ws r fq r' fq', 0 <= r_count r -> 0 <= r_interval r ->
  recur_rules m r fq ws = Ok (r', fq') <-> exists ps, Forall2 (rpart_text day_text (pmap_get m (bs "TZID"))) ws ps /\ accepts r ps /\
    r' = fold_left add_part ps r /\ fq' = fq || existsb is_freq ps.
Proof.
  induction ws as [|w ws IH]; intros r fq r' fq' C0 I0; cbn [recur_rules].
  - split.
    + intros H. injection H as <- <-. exists []. cbn [existsb fold_left accepts]. rewrite orb_false_r. split; [constructor|auto].
    + intros (ps & F & _ & -> & ->). inversion F; subst. cbn [existsb fold_left]. rewrite orb_false_r. reflexivity.
  - split.
    + intros H. destruct (cut "="%char w) as [[k v]|] eqn:C; [|discriminate]. apply cut_some in C as [-> _].
      apply bind_ok in H as ([r1 fq1] & H1 & H). apply rule_inv in H1 as (p & EK & V & A & -> & ->); [|exact C0|exact I0].
      destruct (add_nonneg r p _ _ _ V C0 I0) as [C1 I1]. apply IH in H as (ps & F & AC & -> & ->); [|exact C1|exact I1].
      exists (p :: ps). split; [constructor; [exists v; subst k; auto|exact F]|]. cbn [accepts fold_left existsb]. rewrite orb_assoc. auto.
    + intros (ps & F & AC & -> & ->). inversion F as [|? p ? ps' PT F']; subst. destruct PT as (v & -> & V). cbn [accepts] in AC. destruct AC as [A AC].
      destruct (names_distinct p (rname p) v eq_refl) as [_ CT]. rewrite CT. rewrite (rule_read m r fq p v V A C0 I0). cbn [bind].
      destruct (add_nonneg r p _ _ _ V C0 I0) as [C1 I1]. apply IH; [exact C1|exact I1|]. exists ps'. cbn [fold_left existsb]. rewrite orb_assoc. auto.
Qed.

Lemma accepts_ordered ps : accepts zero_recur ps <-> parts_ordered ps.
Proof.
  unfold parts_ordered, rule_of.
  assert (G : forall ps r, accepts r ps <-> forall before p after, ps = before ++ p :: after -> after_parts (fold_left add_part before r) p).
  { clear ps. induction ps as [|q ps IH]; intros r; cbn [accepts].
    - split; [|auto]. intros _ before p after E. destruct before; discriminate.
    - rewrite IH. split.
      + intros [A B] before p after E. destruct before as [|x before]; injection E as <- E; [exact A|]. cbn [fold_left]. apply (B before p after). exact E.
      + intros H. split; [apply (H [] q ps eq_refl)|]. intros before p after E. apply (H (q :: before) p after). cbn [app]. f_equal. exact E. }
  apply G.
Qed.

Lemma freq_exists ps : existsb is_freq ps = true <-> Exists (named "FREQ") ps.
Proof.
  rewrite existsb_exists, Exists_exists. split; intros (p & I & H); exists p; (split; [exact I|]).
  - destruct p; try discriminate H. reflexivity.
  - destruct p; try discriminate H. reflexivity.
Qed.

Theorem recur_iff m s r : recur_decode m s = Ok r <-> recur_text (pmap_get m (bs "TZID")) s r.
Proof.
  unfold recur_decode, recur_text. split.
  - intros H. apply bind_ok in H as ([r1 fq] & H & E). destruct fq; [|discriminate]. apply Ok_inj in E. subst r1.
    apply rules_iff in H as (ps & F & AC & E & FQ); [|cbn; lia|cbn; lia]. exists ps. split; [apply listed_split; exact F|].
    split; [apply freq_exists; symmetry; exact FQ|]. split; [apply accepts_ordered; exact AC|exact E].
  - intros (ps & F & FQ & AC & ->). apply listed_split in F. apply freq_exists in FQ. apply accepts_ordered in AC.
    assert (H : recur_rules m zero_recur false (split ";"%char s) = Ok (rule_of ps, true)).
    { apply rules_iff; [cbn; lia|cbn; lia|]. exists ps. rewrite FQ. auto. }
    rewrite H. reflexivity.
Qed.

Theorem recur_lang m s v : value_decode KRecur m s = Ok v <-> exists r, recur_text (pmap_get m (bs "TZID")) s r /\ v = VRecur r.
Proof.
  unfold value_decode. rewrite rmap_ok. split; intros (r & H & E); exists r; (split; [|exact E]); apply recur_iff; exact H.
Qed.
End LangRule.
