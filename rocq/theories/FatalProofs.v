(** Exactly the recurrence rules on which Decode panics. *)
From Coq Require Import String Ascii ZArith Bool List Lia.
From Verif Require Import Base Lib GoStrings Tokeniser SpecContent GoTime Types Params PropTable Props SpecPanic SpecLine LineProofs DateProofs TotalProofs LangRuleProofs SpecUnreadable.
Import ListNotations.

Section Fatal.
Context {env : Env}.

(** ** Lists in a text *)
Lemma split_nonnil c s : split c s <> [].
Proof. destruct s as [|x s]; cbn [split]; [discriminate|]. destruct (beqc x c); [discriminate|]. destruct (split c s); discriminate. Qed.
Lemma split_at c : forall a b, split c (a ++ c :: b) = split c a ++ split c b.
Proof.
  induction a as [|x a IH]; intros b; cbn [app split]; [rewrite beqc_refl; reflexivity|]. destruct (beqc x c); [cbn [app]; f_equal; apply IH|].
  rewrite IH. destruct (split c a) as [|w ws] eqn:Q; [destruct (split_nonnil c a Q)|]. reflexivity.
Qed.
Lemma ended_split c a : all_ended c a -> exists A, forall s, split c (a ++ s) = A ++ split c s.
Proof. intros [->|(a' & ->)]; [exists []; reflexivity|]. exists (split c a'). intros s. rewrite <- app_assoc. apply split_at. Qed.
Lemma split_pre c w : ~ In c w -> forall s h t, split c s = h :: t -> split c (w ++ s) = (w ++ h) :: t.
Proof.
  induction w as [|x w IH]; intros N s h t Q; [exact Q|]. cbn [app split]. destruct (beqc x c) eqn:X; [apply beqc_eq in X; destruct N; left; exact X|].
  rewrite (IH (fun i => N (or_intror i)) s h t Q). reflexivity.
Qed.
Lemma split_find c x B : forall A s, split c s = A ++ x :: B -> exists a rest, s = a ++ x ++ rest /\ all_ended c a /\ (rest = [] \/ exists r, rest = c :: r) /\ ~ In c x /\
  forall s', split c (a ++ s') = A ++ split c s'.
Proof.
  assert (Z : forall s h t, split c s = h :: t -> exists rest, s = h ++ rest /\ (rest = [] \/ exists r, rest = c :: r /\ split c r = t) /\ ~ In c h /\ (rest = [] -> t = [])).
  { intros s h t Q. destruct (sep_first c s) as [N|(w & r & -> & N)].
    - rewrite split_one in Q by exact N. injection Q as <- <-. exists []. rewrite app_nil_r. auto.
    - rewrite split_more in Q by exact N. injection Q as <- <-. exists (c :: r). split; [reflexivity|]. split; [right; eauto|]. split; [exact N|discriminate]. }
  induction A as [|y A IH]; intros s Q; cbn [app] in Q.
  - destruct (Z _ _ _ Q) as (rest & -> & R & N & _). exists [], rest. split; [reflexivity|]. split; [left; reflexivity|]. split; [destruct R as [R|(r & R & _)]; eauto|]. split; [exact N|reflexivity].
  - destruct (Z _ _ _ Q) as (rest & -> & R & N & R0). destruct R as [R|(r & -> & R)]; [destruct A; discriminate (R0 R)|].
    destruct (IH r R) as (a & rest & -> & Ea & Er & Nx & F). exists (y ++ c :: a), rest. split; [rewrite <- !app_assoc; reflexivity|]. split.
    + right. destruct Ea as [->|(a' & ->)]; [exists y; reflexivity|]. exists (y ++ c :: a'). rewrite <- app_assoc. reflexivity.
    + split; [exact Er|]. split; [exact Nx|]. intros s'. rewrite <- app_assoc. cbn [app]. rewrite split_more by exact N. rewrite F. reflexivity.
Qed.

(** ** Days *)
Lemma mapM_app {A B} (f : A -> res B) l1 l2 : mapM f (l1 ++ l2) = bind (mapM f l1) (fun a => bind (mapM f l2) (fun b => Ok (a ++ b))).
Proof.
  induction l1 as [|a l1 IH]; cbn [app mapM bind]; [destruct (mapM f l2); reflexivity|]. destruct (f a); cbn [bind]; try reflexivity. rewrite IH.
  destruct (mapM f l1); cbn [bind]; try reflexivity. destruct (mapM f l2); reflexivity.
Qed.
Lemma mapM_first {A B} (f : A -> res B) l : mapM f l = Panic -> exists l1 x l2 ys, l = l1 ++ x :: l2 /\ mapM f l1 = Ok ys /\ f x = Panic.
Proof.
  induction l as [|a l IH]; cbn [mapM]; [discriminate|]. destruct (f a) as [b| | |] eqn:Q; cbn [bind]; try discriminate.
  - destruct (mapM f l); cbn [bind]; try discriminate. intros _. destruct (IH eq_refl) as (l1 & x & l2 & ys & -> & M & P). exists (a :: l1), x, l2, (b :: ys). split; [reflexivity|]. split; [|exact P].
    cbn [mapM]. rewrite Q, M. reflexivity.
  - intros _. exists [], a, l, []. auto.
Qed.
Lemma plus_digit d : is_digit d = true -> parse_day ["+"%char; d] = Panic.
Proof. intros D. unfold parse_day. change (beqc "+" "-") with false. change (beqc "+" "+") with true. cbn [orb andb]. rewrite D. reflexivity. Qed.
Definition monday : dayrecur := DayRecur 2 0.
Lemma mo_day : parse_day (bs "MO") = Ok monday. Proof. reflexivity. Qed.

(** ** Rules *)
Lemma rules_app m : forall l1 l2 r freq, recur_rules m r freq (l1 ++ l2) = bind (recur_rules m r freq l1) (fun p => recur_rules m (fst p) (snd p) l2).
Proof.
  induction l1 as [|x l1 IH]; intros l2 r freq; cbn [app recur_rules bind fst snd]; [reflexivity|]. destruct (cut "=" x) as [[k v]|]; [|reflexivity].
  destruct (recur_rule m r freq k v) as [[r' f']| | |]; cbn [bind]; try reflexivity. apply IH.
Qed.
Lemma rules_first m : forall l r freq, recur_rules m r freq l = Panic -> exists l1 v l2 r1 f1, l = l1 ++ (bs "BYDAY=" ++ v) :: l2 /\ recur_rules m r freq l1 = Ok (r1, f1) /\ recur_rule m r1 f1 (bs "BYDAY") v = Panic.
Proof.
  induction l as [|x l IH]; intros r freq; cbn [recur_rules]; [discriminate|]. destruct (cut "=" x) as [[k v]|] eqn:C; [|discriminate].
  destruct (recur_rule m r freq k v) as [[r' f']| | |] eqn:R; cbn [bind]; try discriminate.
  - intros P. destruct (IH _ _ P) as (l1 & v' & l2 & r1 & f1 & -> & R1 & P1). exists (x :: l1), v', l2, r1, f1. split; [reflexivity|]. split; [|exact P1]. cbn [recur_rules]. rewrite C, R. exact R1.
  - intros _. destruct (proj2 (recur_rule_total m r freq k v) R) as [-> _]. apply cut_some in C as [-> _]. exists [], v, l, r, freq. split; [reflexivity|]. split; [reflexivity|exact R].
Qed.
Definition days_free (r : recur) : bool := isnil (r_byday r).
Lemma byday_rule m r f v : recur_rule m r f (bs "BYDAY") v = if days_free r then bind (mapM parse_day (split "," v)) (fun l => Ok (Recur (r_freq r) (r_wkst r) (r_untiltime r) (r_until r) (r_count r) (r_interval r)
  (r_bysecond r) (r_byminute r) (r_byhour r) l (r_bymonthday r) (r_byyearday r) (r_byweekno r) (r_bymonth r) (r_bysetpos r), f)) else Err ErrInvalidRecur.
Proof. destruct r as [fr wk ut un co iv bse bmi bho bda bmd byd bwn bmo bsp]. unfold days_free. cbn. destruct bda; reflexivity. Qed.
Lemma daily m r f : exists r', recur_rules m r f [bs "FREQ=DAILY"] = Ok (r', true).
Proof. destruct r. eexists. cbn. reflexivity. Qed.
Lemma cut_byday v : cut "=" (bs "BYDAY=" ++ v) = Some (bs "BYDAY", v). Proof. reflexivity. Qed.
Lemma no_semi_days b w : ~ In ";"%char b -> ~ In ";"%char w -> ~ In ";"%char (bs "BYDAY=" ++ b ++ w).
Proof. intros N W I. apply in_app_iff in I as [I|I]; [cbn in I; intuition discriminate|]. apply in_app_iff in I as [I|I]; contradiction. Qed.

Theorem recur_panics m s : recur_decode m s = Panic <-> exists a b d rest,
  s = a ++ bs "BYDAY=" ++ b ++ ["+"%char; d] ++ rest /\ all_ended ";" a /\ all_ended "," b /\ ~ In ";"%char b /\ is_digit d = true /\
  (rest = [] \/ exists r, rest = bs "," ++ r \/ rest = bs ";" ++ r) /\ exists r, recur_decode m (a ++ bs "BYDAY=" ++ b ++ bs "MO;FREQ=DAILY") = Ok r.
Proof.
  unfold recur_decode. split.
  - intros H. assert (P : recur_rules m zero_recur false (split ";" s) = Panic).
    { destruct (recur_rules m zero_recur false (split ";" s)) as [[r f]| | |]; cbn [bind] in H; try discriminate H; [destruct f; discriminate H|reflexivity]. }
    clear H. destruct (rules_first _ _ _ _ P) as (l1 & v & l2 & r1 & f1 & Q & R1 & R2). rewrite byday_rule in R2. destruct (days_free r1) eqn:DF; [|discriminate R2].
    assert (M : mapM parse_day (split "," v) = Panic) by (destruct (mapM parse_day (split "," v)); cbn [bind] in R2; (discriminate R2 || reflexivity)).
    destruct (mapM_first _ _ M) as (w1 & w & w2 & ys & Qv & M1 & Pw). apply (proj2 (parse_day_total w)) in Pw as (d & D & ->).
    destruct (split_find ";" _ _ _ _ Q) as (a & rest & -> & Ea & Er & N & Fa). destruct (split_find "," _ _ _ _ Qv) as (b & rest2 & -> & Eb & Er2 & _ & Fb).
    assert (Nb : ~ In ";"%char b) by (intros I; apply N, in_app_iff; right; apply in_app_iff; left; exact I).
    exists a, b, d, (rest2 ++ rest). split; [rewrite <- !app_assoc; reflexivity|]. repeat (split; [assumption|]). split.
    { destruct Er2 as [->|(r & ->)]; [destruct Er as [->|(r & ->)]; [left; reflexivity|right; exists r; right; reflexivity]|right; exists (r ++ rest); left; reflexivity]. }
    rewrite Fa. change (bs "MO;FREQ=DAILY") with (bs "MO" ++ ";"%char :: bs "FREQ=DAILY"). rewrite (app_assoc b), (app_assoc (bs "BYDAY=")).
    rewrite split_more by (apply no_semi_days; [exact Nb|cbn; intuition discriminate]). rewrite (split_one ";" (bs "FREQ=DAILY")) by (cbn; intuition discriminate).
    rewrite rules_app, R1. cbn [bind fst snd recur_rules]. rewrite cut_byday, byday_rule, DF, Fb, (split_one "," (bs "MO")) by (cbn; intuition discriminate).
    rewrite mapM_app, M1. cbn [bind mapM]. rewrite mo_day. cbn [bind].
    match goal with |- context [cut "=" (bs "FREQ=DAILY")] => change (cut "=" (bs "FREQ=DAILY")) with (Some (bs "FREQ", bs "DAILY")) end. cbv iota beta.
    match goal with |- exists r, bind (bind (recur_rule m ?r0 ?f0 (bs "FREQ") (bs "DAILY")) _) _ = Ok r => destruct (daily m r0 f0) as [r' D'] end.
    cbn [recur_rules] in D'. change (cut "=" (bs "FREQ=DAILY")) with (Some (bs "FREQ", bs "DAILY")) in D'. cbv iota beta in D'. rewrite D'. cbn [bind]. eauto.
  - intros (a & b & d & rest & -> & Ea & Eb & Nb & D & Er & r & Ok1). destruct (ended_split _ _ Ea) as (A & Fa). destruct (ended_split _ _ Eb) as (B & Fb). rewrite Fa in Ok1 |- *.
    change (bs "MO;FREQ=DAILY") with (bs "MO" ++ ";"%char :: bs "FREQ=DAILY") in Ok1. rewrite (app_assoc b), (app_assoc (bs "BYDAY=")) in Ok1.
    rewrite split_more in Ok1 by (apply no_semi_days; [exact Nb|cbn; intuition discriminate]). rewrite rules_app in Ok1 |- *. destruct (recur_rules m zero_recur false A) as [[r1 f1]| | |]; cbn [bind fst snd] in Ok1 |- *; try discriminate Ok1.
    cbn [recur_rules] in Ok1. rewrite cut_byday, byday_rule in Ok1. destruct (days_free r1) eqn:DF; [|discriminate Ok1]. rewrite Fb, (split_one "," (bs "MO")) in Ok1 by (cbn; intuition discriminate). rewrite mapM_app in Ok1.
    destruct (mapM parse_day B) as [ys| | |] eqn:MB; cbn [bind] in Ok1; try discriminate Ok1. clear Ok1.
    assert (Q : exists h t, split ";" rest = h :: t /\ (h = [] \/ exists h', h = ","%char :: h')).
    { destruct Er as [->|(x & [-> | ->])]; [exists [], []; auto| |exists [], (split ";" x); split; [reflexivity|auto]].
      destruct (split ";" x) as [|h t] eqn:Qx; [destruct (split_nonnil _ _ Qx)|]. exists (","%char :: h), t. split; [change (bs "," ++ x) with (","%char :: x); cbn [split]; rewrite Qx; reflexivity|right; eauto]. }
    destruct Q as (h & t & Qh & Sh). assert (ND : ~ In ";"%char ["+"%char; d]) by (cbn; intros [X|[X|[]]]; [discriminate X|subst d; discriminate D]).
    replace (bs "BYDAY=" ++ b ++ ["+"%char; d] ++ rest) with ((bs "BYDAY=" ++ b ++ ["+"%char; d]) ++ rest) by (rewrite <- !app_assoc; reflexivity).
    rewrite (split_pre ";" (bs "BYDAY=" ++ b ++ ["+"%char; d]) (no_semi_days b _ Nb ND) rest h t Qh). cbn [recur_rules]. rewrite <- !app_assoc, cut_byday, byday_rule, DF, Fb, mapM_app, MB. cbn [bind].
    assert (Q2 : exists t2, split "," (["+"%char; d] ++ h) = ["+"%char; d] :: t2).
    { assert (ND2 : ~ In ","%char ["+"%char; d]) by (cbn; intros [X|[X|[]]]; [discriminate X|subst d; discriminate D]). destruct Sh as [->|(h' & ->)]; [rewrite app_nil_r, split_one by exact ND2; eauto|rewrite split_more by exact ND2; eauto]. }
    destruct Q2 as (t2 & ->). cbn [mapM]. rewrite (plus_digit d D). reflexivity.
Qed.

Theorem fatal_exact cps s : prop_decode PrRecurrenceRule (params_tokens cps) s = Panic <-> fatal_rule cps s.
Proof.
  unfold fatal_rule. set (m := fold_left (fun m g => (fst g, join_values (snd g)) :: m) (groups (params_tokens cps)) []).
  assert (Q : forall x, prop_decode PrRecurrenceRule (params_tokens cps) x = bind (recur_decode m x) (fun r => Ok (PNew (VRecur r)))).
  { intros x. unfold prop_decode. change (snd (prop_spec PrRecurrenceRule)) with (MNew KRecur). cbv iota zeta. fold m. unfold value_decode. destruct (recur_decode m x); reflexivity. }
  rewrite Q. assert (W : bind (recur_decode m s) (fun r => Ok (PNew (VRecur r))) = Panic <-> recur_decode m s = Panic) by (destruct (recur_decode m s); cbn [bind]; split; (discriminate || reflexivity)).
  rewrite W, recur_panics. split; intros (a & b & d & rest & H1 & H2 & H3 & H4 & H5 & H6 & H7); exists a, b, d, rest; repeat (split; [assumption|]).
  - destruct H7 as (r & H7). exists (PNew (VRecur r)). apply line_exact. rewrite Q, H7. reflexivity.
  - destruct H7 as (p & H7). apply line_exact in H7. rewrite Q in H7. destruct (recur_decode m (a ++ bs "BYDAY=" ++ b ++ bs "MO;FREQ=DAILY")) as [r| | |]; try discriminate H7. eauto.
Qed.
End Fatal.
