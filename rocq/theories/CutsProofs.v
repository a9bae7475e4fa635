(** Folded input in many reads. *)
From Coq Require Import List Bool Arith ZArith Lia.
From Verif Require Import Base Lib SpecLines Unfolder UnfolderProofs ReadersProofs DemandReadProofs SpecCuts.
Import ListNotations.

Lemma remove_folds_length fuel : forall front p k front' p' k', remove_folds fuel front p k = Ok (front', p', k') -> length front' + length p' = length front + length p.
Proof.
  induction fuel as [|fuel IH]; intros front p k front' p' k' H; [discriminate|]. cbn [remove_folds] in H. destruct (find_fold p) as [pos|] eqn:F; [|injection H as <- <- <-; reflexivity].
  apply find_fold_some in F as (_ & L & _). cbv zeta in H. apply IH in H. rewrite H. rewrite !app_length, !firstn_length, !skipn_length, !app_length, !firstn_length, !skipn_length. lia.
Qed.
Lemma good_or_stuck d : good_tail d \/ stuck d.
Proof.
  destruct (find_fold d) eqn:F; [|left; left; exact F]. assert (H : has_fold d) by (apply has_fold_find; congruence).
  destruct (le_lt_dec 3 (length d)) as [L|L].
  - destruct (last3 d L) as (o & x & y & z & ->). destruct (rot_dec [x; y; z]) eqn:R.
    + right. split; [exact H|]. exists o, [x; y; z]. split; [reflexivity|apply rot_dec_spec, R].
    + left. right. intros (o' & t & Q & R'). assert (T : length t = 3) by (destruct R' as [->|[->| ->]]; reflexivity).
      assert (t = [x; y; z]) as ->; [|apply rot_dec_spec in R'; congruence]. apply (f_equal (@rev Ascii.ascii)) in Q. rewrite !rev_app_distr in Q. cbn [rev app] in Q.
      destruct t as [|t1 [|t2 [|t3 [|]]]]; try discriminate T. cbn [rev app] in Q. injection Q as -> -> -> _. reflexivity.
  - left. right. intros (o & t & -> & R). rewrite app_length in L. assert (T : length t = 3) by (destruct R as [->|[->| ->]]; reflexivity). lia.
Qed.
Lemma good_not_stuck d : ~ stuck d -> good_tail d.
Proof. destruct (good_or_stuck d); [auto|contradiction]. Qed.

Lemma fills_rd n r ds en r' : fills n r ds en r' -> r_with r = false -> r_err r = REOF ->
  left_in r = concat ds ++ left_in r' /\ r_with r' = false /\ r_err r' = REOF /\ (en = true -> left_in r' = []) /\ (1 <= n -> en = false -> size r' + 3 <= size r).
Proof.
  induction 1 as [r|n r d e r' P R|n r d r' ds en r'' P R F IH]; intros W E.
  - repeat split; auto; try discriminate. lia.
  - pose proof (rd_spec r n W E) as S. rewrite R in S. destruct S as (A & _ & B & C & -> & -> & D). rewrite A in *. cbn [concat app] in *. repeat split; auto. discriminate.
  - pose proof (rd_spec r n W E) as S. rewrite R in S. destruct S as (A & _ & B & C & D). destruct (IH B C) as (A1 & B1 & C1 & D1 & E1).
    rewrite A, A1. cbn [concat]. rewrite <- app_assoc. repeat split; auto. intros _ En. specialize (D P). destruct (length d - length (unfold d)) eqn:K; [|specialize (E1 ltac:(lia) En); lia].
    inversion F; subst; lia.
Qed.

Lemma fill_run n r ds en r' : fills n r ds en r' -> r_with r = false -> r_err r = REOF -> Forall (fun d => ~ stuck d) ds ->
  exists N, forall fuel, N <= fuel -> forall out, fill fuel out n r = Ok (out ++ concat (map unfold ds), if en then Some REOF else None, r').
Proof.
  induction 1 as [r|n r d e r' P R|n r d r' ds en r'' P R F IH]; intros W E G.
  - exists 1. intros [|fuel] L out; [lia|]. cbn [fill map concat]. rewrite app_nil_r. reflexivity.
  - pose proof (rd_spec r n W E) as S. rewrite R in S. destruct S as (_ & _ & _ & _ & -> & -> & _). exists 1. intros [|fuel] L out; [lia|]. cbn [fill].
    replace (n =? 0) with false by (symmetry; apply Nat.eqb_neq; lia). rewrite R. rewrite remove_folds_none by reflexivity. cbn [bind length Nat.ltb Nat.leb Nat.sub firstn app map concat unfold]. reflexivity.
  - pose proof (rd_spec r n W E) as S. rewrite R in S. destruct S as (_ & _ & B & C & _). apply Forall_cons_iff in G as [Gd G]. destruct (IH B C G) as (N & H).
    exists (S (S (length d) + N)). intros [|fuel] L out; [lia|]. cbn [fill]. replace (n =? 0) with false by (symmetry; apply Nat.eqb_neq; lia). rewrite R.
    destruct (remove_folds_text (S fuel) d (good_not_stuck d Gd) ltac:(lia)) as (front & p & k & RF & Lk & U & _). rewrite RF. cbn [bind]. replace (length p <? k) with false by (symmetry; apply Nat.ltb_ge; exact Lk).
    cbv zeta. assert (K : k = length d - length (unfold d)).
    { apply remove_folds_length in RF. cbn [length] in RF. rewrite <- U, app_length, firstn_length. lia. }
    rewrite K at 2. rewrite H by lia. rewrite U. cbn [map concat]. rewrite <- app_assoc. reflexivity.
Qed.
Lemma fill_stuck n r ds en r' : fills n r ds en r' -> r_with r = false -> r_err r = REOF -> forall xs d ys, ds = xs ++ d :: ys -> Forall (fun d => ~ stuck d) xs -> stuck d ->
  forall fuel out, fill fuel out n r = NoFuel.
Proof.
  induction 1 as [r|n r d0 e r' P R|n r d0 r' ds en r'' P R F IH]; intros W E xs d ys Q G St fuel out.
  - destruct xs; discriminate.
  - pose proof (rd_spec r n W E) as S. rewrite R in S. destruct S as (_ & _ & _ & _ & -> & -> & _). destruct xs as [|? [|]]; try discriminate Q. cbn [app] in Q. injection Q as <- _. destruct St as [(a & b & Q) _]. destruct a; discriminate Q.
  - destruct fuel as [|fuel]; [reflexivity|]. pose proof (rd_spec r n W E) as S. rewrite R in S. destruct S as (_ & _ & B & C & _).
    cbn [fill]. replace (n =? 0) with false by (symmetry; apply Nat.eqb_neq; lia). rewrite R. destruct xs as [|x xs]; cbn [app] in Q; injection Q as -> Q.
    + rewrite remove_folds_hangs by apply St. reflexivity.
    + apply Forall_cons_iff in G as [Gd G]. destruct (remove_folds (S fuel) [] x 0) as [[[front p] k]| | |] eqn:RF; cbn [bind]; try reflexivity.
      * assert (RF' := RF). destruct (remove_folds_text (S fuel + S (length x)) x (good_not_stuck x Gd) ltac:(lia)) as (front' & p' & k' & RF2 & Lk & U & _).
        apply (remove_folds_mono _ (S fuel + S (length x))) in RF; [|lia]. rewrite RF in RF2. injection RF2 as -> -> ->. replace (length p' <? k') with false by (symmetry; apply Nat.ltb_ge; exact Lk).
        assert (K : k' = length x - length (unfold x)).
        { apply remove_folds_length in RF. cbn [length] in RF. rewrite <- U, app_length, firstn_length. lia. }
        rewrite K at 2. eapply IH; eauto.
      * exfalso. clear - RF. revert RF. generalize (@nil Ascii.ascii) as fr. generalize 0 as k. generalize (S fuel) as f. intros f. revert x. induction f as [|f IH]; intros x k fr RF; [discriminate|]. cbn [remove_folds] in RF.
        destruct (find_fold x); [eapply IH; exact RF|discriminate].
      * exfalso. clear - RF. revert RF. generalize (@nil Ascii.ascii) as fr. generalize 0 as k. generalize (S fuel) as f. intros f. revert x. induction f as [|f IH]; intros x k fr RF; [discriminate|]. cbn [remove_folds] in RF.
        destruct (find_fold x); [eapply IH; exact RF|discriminate].
Qed.

Lemma asks_spec q : match asks q with
  | 0 => ends_cr q = false /\ ends_crlf q = false
  | 1 => ends_cr q = false /\ ends_crlf q = true
  | _ => asks q = 2 /\ ends_cr q = true end.
Proof.
  unfold asks, ends_cr, ends_crlf. destruct (rev q) as [|c q']; [auto|]. destruct (beqc c CR) eqn:E; [auto|]. destruct q' as [|c' q']; [auto|]. destruct (beqc c LF && beqc c' CR); auto.
Qed.

(** One call of Read *)
Lemma read_run (sizes : nat -> nat) i held r ds en r' : length held <= 2 -> 2 <= sizes i -> fills (sizes i - length held) r ds en r' -> r_with r = false -> r_err r = REOF -> Forall (fun d => ~ stuck d) ds ->
  let q := held ++ concat (map unfold ds) in
  (en = true -> exists N, forall fuel, N <= fuel -> unf_read fuel held r (sizes i) = Ok (q, Some REOF, [], r')) /\
  (en = false -> asks q = 0 -> exists N, forall fuel, N <= fuel -> unf_read fuel held r (sizes i) = Ok (q, None, [], r')) /\
  (en = false -> forall k d e r'', asks q = S k -> rd r' (S k) = (d, e, r'') -> (k = 1 -> d <> [LF; SP]) -> (k = 0 -> d <> [SP]) ->
     exists N, forall fuel, N <= fuel -> unf_read fuel held r (sizes i) = Ok (q, e, d, r'')).
Proof.
  intros Lh Ls F W E G. destruct (fill_run _ _ _ _ _ F W E G) as (N & H). cbv zeta. set (q := held ++ concat (map unfold ds)).
  assert (U : forall fuel, N + 1 <= fuel -> unf_read fuel held r (sizes i) = match (if en then Some REOF else None) with Some e => Ok (q, Some e, [], r') | None => counted (look (pred fuel) q (Z.of_nat (length q)) [] r') end).
  { intros [|fuel] L; [lia|]. rewrite unf_read_step. cbn [pred]. rewrite Nat.min_r by lia. rewrite firstn_all, H by lia. cbn [bind]. rewrite skipn_all. destruct en; reflexivity. }
  split; [|split].
  - intros ->. exists (N + 1). intros fuel L. rewrite U by exact L. reflexivity.
  - intros -> A. exists (N + 2). intros fuel L. rewrite U by lia. destruct fuel as [|[|fuel]]; try lia. cbn [pred look]. pose proof (asks_spec q) as S. rewrite A in S. destruct S as [-> ->]. apply counted_all.
  - intros -> k d e r'' A R K1 K0. exists (N + 2). intros fuel L. rewrite U by lia. destruct fuel as [|[|fuel]]; try lia. cbn [pred look]. pose proof (asks_spec q) as S. rewrite A in S.
    destruct k as [|[|k]].
    + destruct S as [-> ->]. rewrite R. destruct (length d <? 1); [apply counted_all|]. destruct (beq d [SP]) eqn:B; [apply beq_eq in B; contradiction (K0 eq_refl)|apply counted_all].
    + destruct S as [_ ->]. rewrite R. destruct (length d <? 2); [apply counted_all|]. destruct (beq d [LF; SP]) eqn:B; [apply beq_eq in B; contradiction (K1 eq_refl)|apply counted_all].
    + destruct S as [S _]. discriminate S.
Qed.

Lemma asks_ends q : match asks q with 0 => True | 1 => exists a, q = a ++ CRLF | _ => exists a, q = a ++ [CR] end.
Proof.
  pose proof (asks_spec q) as S. destruct (asks q) as [|[|k]]; [exact I| |]; destruct S as [S1 S2]; [apply ends_crlf_spec in S2|apply ends_cr_spec in S2]; exact S2.
Qed.
Lemma short_no_fold d : length d <= 2 -> unfold d = d.
Proof. destruct d as [|a [|b [|c d]]]; cbn [length]; intros; try reflexivity; lia. Qed.

(** [pre] is what was given before. *)
Definition no_cut_after (pre : bytes) (ds : list bytes) : Prop := forall xs ys, ds = xs ++ ys ->
  (forall a b, pre ++ concat (map unfold xs) = a ++ [CR] -> concat ys <> LF :: SP :: b) /\
  (forall a b, pre ++ concat (map unfold xs) = a ++ CRLF -> concat ys <> SP :: b).
Lemma no_cut_app pre xs ys : no_cut_after pre (xs ++ ys) -> no_cut_after (pre ++ concat (map unfold xs)) ys.
Proof. intros H as_ bs_ ->. specialize (H (xs ++ as_) bs_). rewrite app_assoc in H. specialize (H eq_refl). rewrite map_app, concat_app, app_assoc in H. exact H. Qed.

Lemma ahead_run (sizes : nat -> nat) i held r ds r' k d e r'' more pre : length held <= 2 -> 2 <= sizes i -> fills (sizes i - length held) r ds false r' -> r_with r = false -> r_err r = REOF -> Forall (fun d => ~ stuck d) ds ->
  asks (held ++ concat (map unfold ds)) = S k -> rd r' (S k) = (d, e, r'') -> no_cut_after (pre ++ held) (ds ++ d :: more) ->
  exists N, forall fuel, N <= fuel -> unf_read fuel held r (sizes i) = Ok (held ++ concat (map unfold ds), e, d, r'').
Proof.
  intros Lh Ls F W E G A R NC. pose proof (NC ds (d :: more) eq_refl) as [NC1 NC2]. cbn [concat] in NC1, NC2. pose proof (asks_ends (held ++ concat (map unfold ds))) as AE. rewrite A in AE.
  apply (proj2 (proj2 (read_run sizes i held r ds false r' Lh Ls F W E G)) eq_refl k d e r'' A R).
  - intros -> ->. destruct AE as (a & AE). apply (NC1 (pre ++ a) (concat more)); [|reflexivity]. rewrite <- app_assoc, AE, app_assoc. reflexivity.
  - intros -> ->. destruct AE as (a & AE). apply (NC2 (pre ++ a) (concat more)); [|reflexivity]. rewrite <- app_assoc, AE, app_assoc. reflexivity.
Qed.

Lemma drain_run sizes : (forall i, 2 <= sizes i) -> forall i held r ds, reads sizes i held r ds -> length held <= 2 -> r_with r = false -> r_err r = REOF -> Forall (fun d => ~ stuck d) ds ->
  forall pre, no_cut_after (pre ++ held) ds -> exists N, forall fuel, N <= fuel -> forall acc, drain fuel sizes i held r acc = Ok (acc ++ held ++ concat (map unfold ds), REOF).
Proof.
  intros Ls i held r ds H. induction H as [i held r ds r' F|i held r ds r' more F A H IH|i held r ds r' k d r'' more F A R H IH|i held r ds r' k d e r'' F A R]; intros Lh W E G pre NC.
  - destruct (proj1 (read_run sizes i held r ds true r' Lh (Ls i) F W E G) eq_refl) as (N & U). exists (S N). intros [|fuel] L acc; [lia|]. rewrite drain_step, U by lia. reflexivity.
  - apply Forall_app in G as [G Gm]. destruct (proj1 (proj2 (read_run sizes i held r ds false r' Lh (Ls i) F W E G)) eq_refl A) as (N & U).
    destruct (fills_rd _ _ _ _ _ F W E) as (_ & W' & E' & _). destruct (IH ltac:(cbn [length]; lia) W' E' Gm (pre ++ held ++ concat (map unfold ds))) as (M & D).
    { rewrite app_nil_r. rewrite app_assoc. apply no_cut_app. exact NC. }
    exists (S (N + M)). intros [|fuel] L acc; [lia|]. rewrite drain_step, U by lia. cbn [bind]. rewrite D by lia. rewrite map_app, concat_app. cbn [app]. rewrite <- !app_assoc. reflexivity.
  - apply Forall_app in G as [G Gm]. apply Forall_cons_iff in Gm as [Gd Gm]. destruct (fills_rd _ _ _ _ _ F W E) as (_ & W' & E' & _).
    pose proof (rd_spec r' (S k) W' E') as S. rewrite R in S. destruct S as (_ & Ld & W2 & E2 & _).
    assert (K2 : k <= 1) by (pose proof (asks_spec (held ++ concat (map unfold ds))) as Q; rewrite A in Q; destruct k as [|[|k]]; [lia|lia|destruct Q as [Q _]; lia]).
    destruct (ahead_run sizes i held r ds r' k d None r'' more pre Lh (Ls i) F W E G A R NC) as (N & U).
    destruct (IH ltac:(lia) W2 E2 Gm (pre ++ held ++ concat (map unfold ds))) as (M & D).
    { pose proof (no_cut_app (pre ++ held) (ds ++ [d]) more) as X. rewrite <- (app_assoc ds [d] more) in X. cbn [app] in X. specialize (X NC). rewrite map_app, concat_app in X. cbn [map concat] in X.
      rewrite (short_no_fold d) in X by lia. rewrite app_nil_r, <- !app_assoc in X. rewrite <- !app_assoc. exact X. }
    exists (S (N + M)). intros [|fuel] L acc; [lia|]. rewrite drain_step, U by lia. cbn [bind]. rewrite D by lia. rewrite map_app, concat_app. cbn [map concat]. rewrite (short_no_fold d) by lia. rewrite <- !app_assoc. reflexivity.
  - apply Forall_app in G as [G _]. destruct (fills_rd _ _ _ _ _ F W E) as (_ & W' & E' & _). pose proof (rd_spec r' (S k) W' E') as S. rewrite R in S. destruct S as (_ & _ & _ & _ & -> & -> & _).
    destruct (proj2 (proj2 (read_run sizes i held r ds false r' Lh (Ls i) F W E G)) eq_refl k [] (Some REOF) r'' A R) as (N & U); [discriminate|discriminate|].
    exists (S N). intros [|fuel] L acc; [lia|]. rewrite drain_step, U by lia. cbn [bind]. rewrite map_app, concat_app. cbn [map concat unfold]. rewrite !app_nil_r. reflexivity.
Qed.

Lemma hang_later N sizes i held r : (forall fuel, N <= fuel -> forall acc, drain fuel sizes i held r acc = NoFuel) -> forall fuel acc, drain fuel sizes i held r acc = NoFuel.
Proof.
  intros H fuel acc. destruct (drain fuel sizes i held r acc) as [x|x| |] eqn:D; [|contradiction (drain_no_err sizes fuel i held r acc x D)|apply (drain_panic_mono sizes fuel (fuel + N)) in D; [|lia]; rewrite H in D by lia; discriminate D|reflexivity].
  apply (drain_mono fuel (fuel + N)) in D; [|lia]. rewrite H in D by lia. discriminate D.
Qed.
(** A piece with a fold that ends like one *)
Lemma drain_stuck sizes : (forall i, 2 <= sizes i) -> forall i held r ds, reads sizes i held r ds -> length held <= 2 -> r_with r = false -> r_err r = REOF ->
  forall xs d ys, ds = xs ++ d :: ys -> Forall (fun d => ~ stuck d) xs -> stuck d -> forall pre, no_cut_after (pre ++ held) ds -> forall fuel acc, drain fuel sizes i held r acc = NoFuel.
Proof.
  assert (SHORT : forall d, length d <= 2 -> ~ stuck d).
  { intros d L [(a & b & ->) _]. rewrite !app_length in L. cbn [fold3 length] in L. lia. }
  assert (SPLIT : forall (a b xs ys : list bytes) d, a ++ b = xs ++ d :: ys -> (exists k, a = xs ++ d :: k) \/ (exists k, xs = a ++ k /\ b = k ++ d :: ys)).
  { induction a as [|x a IHa]; intros b xs ys d Q; cbn [app] in *; [right; exists xs; auto|]. destruct xs as [|y xs]; cbn [app] in Q; injection Q as -> Q; [left; exists a; reflexivity|].
    destruct (IHa _ _ _ _ Q) as [(k & ->)|(k & -> & ->)]; [left; exists k; reflexivity|right; exists k; auto]. }
  intros Ls i held r ds H. induction H as [i held r ds r' F|i held r ds r' more F A H IH|i held r ds r' k d r'' more F A R H IH|i held r ds r' k d e r'' F A R]; intros Lh W E xs d0 ys Q G St pre NC.
  1: { intros [|fuel] acc; [reflexivity|]. rewrite drain_step, unf_read_step. rewrite Nat.min_r by (specialize (Ls i); lia). erewrite (fill_stuck _ _ _ _ _ F W E xs d0 ys Q G St). reflexivity. }
  all: assert (IN : forall k, ds = xs ++ d0 :: k -> forall fuel acc, drain fuel sizes i held r acc = NoFuel)
    by (intros k' Q' [|fuel] acc; [reflexivity|]; rewrite drain_step, unf_read_step; rewrite Nat.min_r by (specialize (Ls i); lia); erewrite (fill_stuck _ _ _ _ _ F W E xs d0 _ Q' G St); reflexivity).
  all: destruct (SPLIT _ _ _ _ _ Q) as [(k' & Q')|(k' & Q1 & Q2)]; [exact (IN _ Q')|]; destruct (fills_rd _ _ _ _ _ F W E) as (_ & W' & E' & _); subst xs; apply Forall_app in G as [G Gm].
  - destruct (proj1 (proj2 (read_run sizes i held r ds false r' Lh (Ls i) F W E G)) eq_refl A) as (N & U).
    apply (hang_later N). intros [|fuel] L acc; [reflexivity|]. rewrite drain_step, U by lia. cbn [bind].
    apply (IH ltac:(cbn [length]; lia) W' E' _ _ _ Q2 Gm St (pre ++ held ++ concat (map unfold ds))). rewrite app_nil_r, app_assoc. apply no_cut_app. exact NC.
  - pose proof (rd_spec r' (S k) W' E') as S. rewrite R in S. destruct S as (_ & Ld & W2 & E2 & _).
    assert (K2 : k <= 1) by (pose proof (asks_spec (held ++ concat (map unfold ds))) as X; rewrite A in X; destruct k as [|[|k]]; [lia|lia|destruct X as [X _]; lia]).
    destruct k' as [|d' k']; cbn [app] in Q2; injection Q2 as -> Q2; [contradiction (SHORT d0); lia|]. apply Forall_cons_iff in Gm as [Gd Gm].
    destruct (ahead_run sizes i held r ds r' k d' None r'' more pre Lh (Ls i) F W E G A R NC) as (N & U).
    apply (hang_later N). intros [|fuel] L acc; [reflexivity|]. rewrite drain_step, U by lia. cbn [bind].
    apply (IH ltac:(lia) W2 E2 _ _ _ Q2 Gm St (pre ++ held ++ concat (map unfold ds))).
    pose proof (no_cut_app (pre ++ held) (ds ++ [d']) more) as X. rewrite <- (app_assoc ds [d'] more) in X. cbn [app] in X. specialize (X NC). rewrite map_app, concat_app in X. cbn [map concat] in X.
    rewrite (short_no_fold d') in X by lia. rewrite app_nil_r, <- !app_assoc in X. rewrite <- !app_assoc. exact X.
  - pose proof (rd_spec r' (S k) W' E') as S. rewrite R in S. destruct S as (_ & _ & _ & _ & -> & -> & _).
    destruct k' as [|? [|]]; try discriminate Q2. cbn [app] in Q2. injection Q2 as <- _. contradiction (SHORT []). cbn [length]. lia.
Qed.

(** ** There is always such a run, and it reads everything *)
Lemma fills_exist : forall m n r, size r < m -> r_with r = false -> r_err r = REOF -> exists ds en r', fills n r ds en r'.
Proof.
  induction m as [|m IH]; intros n r L W E; [lia|]. destruct n as [|n]; [exists [], false, r; constructor|]. pose proof (rd_spec r (S n) W E) as SP. destruct (rd r (S n)) as [[d e] r'] eqn:R.
  destruct SP as (_ & _ & W' & E' & SP). destruct e as [e|]; [exists [d], true, r'; econstructor; [lia|exact R]|]. destruct (IH (length d - length (unfold d)) r' ltac:(lia) W' E') as (ds & en & r'' & F).
  exists (d :: ds), en, r''. econstructor; [lia|exact R|exact F].
Qed.
Lemma reads_exist sizes : (forall i, 2 <= sizes i) -> forall m i held r, size r + length held < m -> length held <= 2 -> r_with r = false -> r_err r = REOF -> exists ds, reads sizes i held r ds.
Proof.
  intros P. induction m as [|m IH]; intros i held r L Lh W E; [lia|]. destruct (fills_exist (S (size r)) (sizes i - length held) r ltac:(lia) W E) as (ds & en & r' & F).
  destruct (fills_rd _ _ _ _ _ F W E) as (_ & W' & E' & _ & SZ). specialize (P i) as Pi. destruct en; [exists ds; econstructor; exact F|].
  assert (SZ' : size r' <= size r /\ (length held < 2 -> size r' + 3 <= size r)).
  { destruct (sizes i - length held) eqn:K; [inversion F; subst; split; lia|specialize (SZ ltac:(lia) eq_refl); lia]. }
  destruct (asks (held ++ concat (map unfold ds))) as [|k] eqn:A.
  - destruct (IH (S i) [] r') as (more & R); cbn [length]; try assumption; try lia. exists (ds ++ more). eapply Reads_next; eauto.
  - assert (K2 : k <= 1) by (pose proof (asks_spec (held ++ concat (map unfold ds))) as X; rewrite A in X; destruct k as [|[|k]]; [lia|lia|destruct X as [X _]; lia]).
    pose proof (rd_spec r' (S k) W' E') as SP. destruct (rd r' (S k)) as [[d e] r''] eqn:R. destruct SP as (_ & Ld & W2 & E2 & SP). destruct e as [e|]; [exists (ds ++ [d]); eapply Reads_ahead_end; eauto|].
    specialize (SP ltac:(lia)). destruct (IH (S i) d r'') as (more & R'); try assumption; try lia. exists (ds ++ d :: more). eapply Reads_ahead; eauto.
Qed.
Lemma reads_all sizes i held r ds : reads sizes i held r ds -> r_with r = false -> r_err r = REOF -> concat ds = left_in r.
Proof.
  induction 1 as [i held r ds r' F|i held r ds r' more F A H IH|i held r ds r' k d r'' more F A R H IH|i held r ds r' k d e r'' F A R]; intros W E; destruct (fills_rd _ _ _ _ _ F W E) as (Q & W' & E' & En & _); rewrite Q.
  - rewrite (En eq_refl), app_nil_r. reflexivity.
  - rewrite concat_app, (IH W' E'). reflexivity.
  - pose proof (rd_spec r' (S k) W' E') as SP. rewrite R in SP. destruct SP as (Q' & _ & W2 & E2 & _). rewrite concat_app. cbn [concat]. rewrite (IH W2 E2), Q'. reflexivity.
  - pose proof (rd_spec r' (S k) W' E') as SP. rewrite R in SP. destruct SP as (_ & _ & _ & _ & _ & -> & SP). rewrite SP, concat_app. reflexivity.
Qed.

(** ** Unfolding piece by piece *)
Lemma unfold_app : forall n d z, length d <= n -> (forall a b, d = a ++ [CR] -> z <> LF :: SP :: b) -> (forall a b, d = a ++ CRLF -> z <> SP :: b) -> unfold (d ++ z) = unfold d ++ unfold z.
Proof.
  induction n as [|n IH]; intros d z L N1 N2; [destruct d; [reflexivity|cbn [length] in L; lia]|]. destruct d as [|x d]; [reflexivity|]. cbn [length] in L.
  assert (IHd : unfold (d ++ z) = unfold d ++ unfold z).
  { apply IH; [lia| |]; intros a b ->; [apply (N1 (x :: a))|apply (N2 (x :: a))]; reflexivity. }
  destruct d as [|y [|w d]].
  - cbn [app] in *. destruct z as [|y z]; [reflexivity|]. destruct z as [|w z]; [reflexivity|]. rewrite unfold_cons3. destruct (beqc x CR && beqc y LF && beqc w SP) eqn:Q; [|reflexivity].
    apply andb_true_iff in Q as [Q Q3]. apply andb_true_iff in Q as [Q1 Q2]. apply beqc_eq in Q1, Q2, Q3. subst. exfalso. apply (N1 [] z eq_refl). reflexivity.
  - cbn [app] in *. destruct z as [|w z]; [reflexivity|]. rewrite unfold_cons3. destruct (beqc x CR && beqc y LF && beqc w SP) eqn:Q; [|cbn [unfold app] in *; rewrite IHd; reflexivity].
    apply andb_true_iff in Q as [Q Q3]. apply andb_true_iff in Q as [Q1 Q2]. apply beqc_eq in Q1, Q2, Q3. subst. exfalso. apply (N2 [] z eq_refl). reflexivity.
  - change ((x :: y :: w :: d) ++ z) with (x :: y :: w :: d ++ z). rewrite !unfold_cons3. destruct (beqc x CR && beqc y LF && beqc w SP); [|cbn [app]; f_equal; exact IHd].
    cbn [length] in L. apply IH; [lia| |]; intros a b ->; [apply (N1 (x :: y :: w :: a))|apply (N2 (x :: y :: w :: a))]; reflexivity.
Qed.
Lemma unfold_pieces : forall ds pre, no_cut_after pre ds -> concat (map unfold ds) = unfold (concat ds).
Proof.
  induction ds as [|d ds IH]; intros pre NC; [reflexivity|]. cbn [map concat]. rewrite (IH (pre ++ unfold d)).
  - symmetry. destruct (NC [d] ds eq_refl) as [N1 N2]. cbn [map concat] in N1, N2. rewrite app_nil_r in N1, N2. apply (unfold_app (length d)); [lia| |].
    + intros a b ->. apply (N1 (pre ++ unfold a)). rewrite <- app_assoc. f_equal. apply (unfold_app (length a)); [lia|discriminate|discriminate].
    + intros a b ->. apply (N2 (pre ++ unfold a)). rewrite <- app_assoc. f_equal. apply (unfold_app (length a)); [lia|discriminate|discriminate].
  - pose proof (no_cut_app pre [d] ds NC) as X. cbn [map concat] in X. rewrite app_nil_r in X. exact X.
Qed.

Theorem drain_clean sizes chunks ds : (forall i, 2 <= sizes i) -> reads sizes 0 [] (Rdr chunks false REOF) ds -> no_cut ds -> Forall (fun d => ~ stuck d) ds ->
  exists N, forall fuel, N <= fuel -> drain fuel sizes 0 [] (Rdr chunks false REOF) [] = Ok (unfold (concat chunks), REOF).
Proof.
  intros P R NC G. destruct (drain_run sizes P 0 [] _ ds R ltac:(cbn [length]; lia) eq_refl eq_refl G [] NC) as (N & H). exists N. intros fuel L. rewrite H by exact L. cbn [app].
  rewrite (unfold_pieces ds [] NC), (reads_all _ _ _ _ _ R eq_refl eq_refl). reflexivity.
Qed.
Theorem drain_unclean sizes chunks ds : (forall i, 2 <= sizes i) -> reads sizes 0 [] (Rdr chunks false REOF) ds -> no_cut ds -> Exists stuck ds ->
  forall fuel, drain fuel sizes 0 [] (Rdr chunks false REOF) [] = NoFuel.
Proof.
  intros P R NC X fuel. assert (Y : exists xs d ys, ds = xs ++ d :: ys /\ Forall (fun d => ~ stuck d) xs /\ stuck d).
  { clear - X. induction ds as [|d ds IH]; [inversion X|]. destruct (good_or_stuck d) as [G|G].
    - assert (N : ~ stuck d) by (intros [A B]; destruct G as [G|G]; [apply has_fold_find in A; contradiction|contradiction]).
      destruct IH as (xs & d' & ys & -> & F & St); [inversion X; subst; [contradiction|assumption]|]. exists (d :: xs), d', ys. split; [reflexivity|]. split; [constructor; assumption|exact St].
    - exists [], d, ds. auto. }
  destruct Y as (xs & d & ys & Q & G & St). exact (drain_stuck sizes P 0 [] _ ds R ltac:(cbn [length]; lia) eq_refl eq_refl xs d ys Q G St [] NC fuel []).
Qed.
Theorem reads_total sizes chunks : (forall i, 2 <= sizes i) -> exists ds, reads sizes 0 [] (Rdr chunks false REOF) ds /\ concat ds = concat chunks.
Proof.
  intros P. destruct (reads_exist sizes P (S (size (Rdr chunks false REOF) + 0)) 0 [] (Rdr chunks false REOF)) as (ds & R); cbn [length]; try reflexivity; try lia.
  exists ds. split; [exact R|]. exact (reads_all _ _ _ _ _ R eq_refl eq_refl).
Qed.

(** ** There is only one such run *)
Lemma fills_one n r ds en r' : fills n r ds en r' -> forall ds2 en2 r2, fills n r ds2 en2 r2 -> ds2 = ds /\ en2 = en /\ r2 = r'.
Proof.
  induction 1 as [r|n r d e r' P R|n r d r' ds en r'' P R F IH]; intros ds2 en2 r2 H; inversion H; subst; try lia; try (rewrite R in *; congruence); auto.
  - split; [|split]; congruence.
  - match goal with X : rd r n = _ |- _ => rewrite R in X; injection X as <- <- end. match goal with X : fills _ r' _ _ _ |- _ => destruct (IH _ _ _ X) as (-> & -> & ->) end. auto.
Qed.
Lemma reads_one sizes i held r ds : reads sizes i held r ds -> forall ds2, reads sizes i held r ds2 -> ds2 = ds.
Proof.
  induction 1 as [i held r ds r' F|i held r ds r' more F A H IH|i held r ds r' k d r'' more F A R H IH|i held r ds r' k d e r'' F A R]; intros ds2 H2;
    inversion H2 as [? ? ? ? ? F2|? ? ? ? ? ? F2 A2 K2|? ? ? ? ? ? ? ? ? F2 A2 R2 K2|? ? ? ? ? ? ? ? ? F2 A2 R2]; subst; destruct (fills_one _ _ _ _ _ F _ _ _ F2) as (Q & B & Q'); subst; try discriminate B; try reflexivity;
    rewrite A in A2; try discriminate A2.
  - rewrite (IH _ K2). reflexivity.
  - injection A2 as <-. rewrite R in R2. injection R2 as <- <-. rewrite (IH _ K2). reflexivity.
  - injection A2 as <-. rewrite R in R2. discriminate R2.
  - injection A2 as <-. rewrite R in R2. discriminate R2.
  - injection A2 as <-. rewrite R in R2. injection R2 as <- _ _. reflexivity.
Qed.
Theorem reads_known sizes chunks : (forall i, 2 <= sizes i) -> exists ds, reads sizes 0 [] (Rdr chunks false REOF) ds /\ concat ds = concat chunks /\
  forall ds2, reads sizes 0 [] (Rdr chunks false REOF) ds2 -> ds2 = ds.
Proof. intros P. destruct (reads_total sizes chunks P) as (ds & R & Q). exists ds. split; [exact R|]. split; [exact Q|]. exact (reads_one _ _ _ _ _ R). Qed.
