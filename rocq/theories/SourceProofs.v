(** The unfolder makes up no bytes. *)
From Coq Require Import List Arith ZArith Bool Lia.
From Verif Require Import Base Lib SpecLines Unfolder UnfolderProofs ReadersProofs SpecSource SpecDemand.
Import ListNotations.

Lemma part_refl s : part s s.
Proof. induction s; constructor; assumption. Qed.
Lemma part_none s : part [] s.
Proof. induction s; constructor; assumption. Qed.
Lemma part_app a b c d : part a b -> part c d -> part (a ++ c) (b ++ d).
Proof. intros H K. induction H; cbn [app]; [exact K|constructor; assumption|constructor; assumption]. Qed.
Lemma part_trans a b c : part a b -> part b c -> part a c.
Proof.
  intros H K. revert a H. induction K as [|x d s K IH|x d s K IH]; intros a H; [exact H| |constructor; auto].
  inversion H as [|? ? ? H'|? ? ? H']; subst; constructor; auto.
Qed.
Lemma part_right a b c : part (a ++ c) (a ++ b ++ c).
Proof. apply part_app; [apply part_refl|]. change c with ([] ++ c) at 1. apply part_app; [apply part_none|apply part_refl]. Qed.
Lemma part_firstn n s : part (firstn n s) s.
Proof. revert n. induction s as [|c s IH]; intros [|n]; cbn [firstn]; constructor; auto using part_none. Qed.
Lemma part_cut n s t : part (firstn n s ++ t) (s ++ t).
Proof. apply part_app; [apply part_firstn|apply part_refl]. Qed.
Lemma part_unfold : forall n s, length s <= n -> part (unfold s) s.
Proof.
  induction n as [|n IH]; intros s L; [destruct s; [constructor|cbn in L; lia]|]. destruct s as [|a [|b [|c s]]]; [constructor|apply part_refl|apply part_refl|].
  rewrite unfold_cons3. cbn [length] in L. destruct (_ && _ && _); [do 3 constructor; apply IH; lia|]. constructor. apply IH. cbn [length]. lia.
Qed.
Definition rest (r : rdr) : bytes := concat (r_chunks r).
Lemma rd_rest r k d e r' : rd r k = (d, e, r') -> rest r = d ++ rest r'.
Proof.
  unfold rd, rest. destruct (r_chunks r) as [|c cs] eqn:C.
  - intros H. injection H as <- <- <-. rewrite C. reflexivity.
  - destruct (length c <=? k); intros H; injection H as <- <- <-; cbn [r_chunks concat]; [reflexivity|]. rewrite app_assoc, firstn_skipn. reflexivity.
Qed.
Lemma rd_length r k d e r' : rd r k = (d, e, r') -> length d <= k.
Proof.
  unfold rd. destruct (r_chunks r) as [|c cs].
  - intros H. injection H as <- _ _. apply Nat.le_0_l.
  - destruct (length c <=? k) eqn:Q; intros H; injection H as <- _ _; [apply Nat.leb_le, Q|]. rewrite firstn_length. lia.
Qed.
Lemma remove_part fuel d front p k : remove_folds fuel [] d 0 = Ok (front, p, k) -> part (front ++ firstn (length p - k) p) d.
Proof.
  intros H. destruct (find_fold d) as [i|] eqn:F.
  - assert (N : ~ bad_tail d). { intros B. rewrite remove_folds_hangs in H; [discriminate| |exact B]. apply has_fold_find. congruence. }
    destruct (remove_folds_text (S (fuel + length d)) d (or_intror N) ltac:(lia)) as (f' & p' & k' & R & _ & U & _).
    rewrite (remove_folds_mono fuel (S (fuel + length d)) [] d 0 _ ltac:(lia) H) in R. injection R as -> -> ->. rewrite U. eapply part_unfold, le_n.
  - destruct fuel as [|fuel]; [discriminate|]. rewrite remove_folds_none in H by exact F. injection H as <- <- <-. rewrite Nat.sub_0_r, firstn_all. apply part_refl.
Qed.
Lemma fill_part : forall fuel out free r q e r', fill fuel out free r = Ok (q, e, r') -> part (q ++ rest r') (out ++ rest r).
Proof.
  induction fuel as [|fuel IH]; intros out free r q e r' H; [discriminate|]. cbn [fill] in H. destruct (free =? 0); [injection H as <- <- <-; apply part_refl|].
  destruct (rd r free) as [[d e1] r1] eqn:R. pose proof (rd_rest _ _ _ _ _ R) as Q. destruct (remove_folds (S fuel) [] d 0) as [[[front p] k]| | |] eqn:RF; try discriminate. cbn [bind] in H.
  destruct (length p <? k); [discriminate|]. apply remove_part in RF. cbv zeta in H.
  assert (X : part ((out ++ front ++ firstn (length p - k) p) ++ rest r1) (out ++ rest r)). { rewrite Q, <- !app_assoc. apply part_app; [apply part_refl|]. rewrite app_assoc. apply part_app; [exact RF|apply part_refl]. }
  destruct e1; [injection H as <- <- <-; exact X|]. apply IH in H. eapply part_trans; eassumption.
Qed.

Lemma firstn_zeros (m : Z) (q : bytes) : (Z.of_nat (length q) <= m)%Z -> firstn (Z.to_nat m) q = q.
Proof. intros H. apply firstn_all2. lia. Qed.
Lemma ends_cr_put q d : ends_cr q = true -> length d <= 1 -> put q (length q - 1) d = match d with [] => q | _ => firstn (length q - 1) q ++ d end.
Proof.
  intros C L. apply ends_cr_spec in C as (a & ->). unfold put. rewrite app_length. cbn [length]. replace (length a + 1 - 1) with (length a) by lia. destruct d as [|x [|y d]]; [| |cbn in L; lia].
  - cbn [length app]. rewrite Nat.add_0_r, firstn_skipn. reflexivity.
  - cbn [length]. rewrite skipn_all2 by (rewrite app_length; cbn [length]; lia). rewrite app_nil_r. reflexivity.
Qed.
Lemma put_length q i d : i + length d <= length q -> length (put q i d) = length q.
Proof. intros L. unfold put. rewrite !app_length, firstn_length, skipn_length. lia. Qed.
Lemma part_last q x t y : length q > 0 -> part (q ++ x ++ t) y -> part ((firstn (length q - 1) q ++ x) ++ t) y.
Proof. intros _ H. rewrite <- app_assoc. eapply part_trans; [apply part_cut|exact H]. Qed.

(** One place of the buffer, and what follows it. *)
Lemma look_short : forall fuel c q m buf r q2 m2 e2 buf2 r2, length q <= 1 -> c <> CR -> c <> LF -> (m <= Z.of_nat (length (c :: q)))%Z ->
  look fuel (c :: q) m buf r = Ok (q2, m2, e2, buf2, r2) ->
  length q2 = length (c :: q) /\ (m2 <= Z.of_nat (length q2))%Z /\ (exists q3, q2 = c :: q3) /\ part (q2 ++ rest r2) ((c :: q) ++ buf ++ rest r).
Proof.
  induction fuel as [|fuel IH]; intros c q m buf r q2 m2 e2 buf2 r2 L NC NL M H; [discriminate|]. cbn [look] in H.
  assert (DROP : forall a x t : bytes, part (a ++ t) (a ++ x ++ t)) by (intros a x t; apply part_right).
  assert (EC : ends_crlf (c :: q) = false). { destruct (ends_crlf (c :: q)) eqn:Q; [|reflexivity]. apply ends_crlf_spec in Q as (a & Q). destruct q as [|x [|y q]]; [apply (f_equal (@length _)) in Q; rewrite app_length in Q; cbn in Q; lia| |cbn in L; lia].
    destruct a as [|a1 a]; [injection Q as -> ->; congruence|]. apply (f_equal (@length _)) in Q. rewrite app_length in Q. cbn in Q. lia. }
  rewrite EC in H. destruct (ends_cr (c :: q)) eqn:C.
  2:{ injection H as <- <- <- <- <-. repeat split; [exact M|exists q; reflexivity|apply DROP]. }
  destruct (rd r 2) as [[d e] r1] eqn:R. apply rd_rest in R. rewrite R.
  assert (STOP : forall m', (m' <= m)%Z -> length (c :: q) = length (c :: q) /\ (m' <= Z.of_nat (length (c :: q)))%Z /\ (exists q3, c :: q = c :: q3) /\ part ((c :: q) ++ rest r1) ((c :: q) ++ buf ++ d ++ rest r1)).
  { intros m' K. repeat split; [lia|exists q; reflexivity|]. rewrite (app_assoc buf). apply DROP. }
  destruct (length d <? 2); [injection H as <- <- <- <- <-; apply STOP; lia|]. destruct (beq d [LF; SP]); [|injection H as <- <- <- <- <-; apply STOP; lia].
  destruct e; [injection H as <- <- <- <- <-; apply STOP; lia|].
  destruct (rd r1 1) as [[d2 e3] r3] eqn:R2. pose proof (rd_length _ _ _ _ _ R2) as L2. apply rd_rest in R2. rewrite R2.
  destruct q as [|x [|y q]]; [apply ends_cr_spec in C as (a & C); destruct a as [|? ?]; [injection C as ->; congruence|apply (f_equal (@length _)) in C; rewrite app_length in C; cbn in C; lia]| |cbn in L; lia].
  rewrite ends_cr_put in H by assumption. cbv zeta in H.
  assert (X : exists y, match d2 with [] => [c; x] | _ => firstn (length [c; x] - 1) [c; x] ++ d2 end = [c; y] /\ part ([c; y] ++ rest r3) ([c; x] ++ buf ++ d ++ d2 ++ rest r3)).
  { destruct d2 as [|y [|? ?]]; [exists x|exists y|cbn in L2; lia]; (split; [reflexivity|]).
    - cbn [app]. rewrite (app_assoc buf). apply (DROP [c; x] (buf ++ d)).
    - cbn [app]. do 2 constructor. rewrite app_assoc. change (y :: rest r3) with ([] ++ [y] ++ rest r3). apply part_app; [apply part_none|apply part_refl]. }
  destruct X as (y & Y & P). rewrite Y in H. cbn [length] in M.
  assert (M3 : (m - 1 + Z.of_nat (length d2) <= 2)%Z) by lia.
  destruct e3; [injection H as <- <- <- <- <-; repeat split; [exact M3|exists [y]; reflexivity|exact P]|].
  apply IH in H as (A1 & A2 & A3 & A4); [|cbn; lia|exact NC|exact NL|exact M3]. repeat split; [exact A1|exact A2|exact A3|]. eapply part_trans; [exact A4|exact P].
Qed.
Lemma short_fill fuel out r q e r' : fill fuel out 1 r = Ok (q, e, r') -> exists d, q = out ++ d /\ length d <= 1 /\ rest r = d ++ rest r'.
Proof.
  destruct fuel as [|fuel]; [discriminate|]. cbn [fill Nat.eqb]. destruct (rd r 1) as [[d e1] r1] eqn:R. pose proof (rd_length _ _ _ _ _ R) as L. apply rd_rest in R.
  assert (F : find_fold d = None) by (destruct d as [|a [|b d]]; [reflexivity|reflexivity|cbn in L; lia]).
  rewrite remove_folds_none by exact F. cbn [bind]. replace (length d <? 0) with false by (symmetry; apply Nat.ltb_ge; lia). rewrite Nat.sub_0_r, firstn_all. cbn [app]. intros H. exists d.
  destruct e1; [injection H as <- <- <-; auto|]. destruct fuel as [|fuel]; [discriminate|]. cbn [fill Nat.eqb] in H. injection H as <- <- <-. auto.
Qed.
Lemma call_short fuel r q2 m2 e2 buf2 r2 : unf_call fuel [SP] r 2 = Ok (q2, m2, e2, buf2, r2) ->
  (length q2 = 1 \/ length q2 = 2) /\ (m2 <= Z.of_nat (length q2))%Z /\ (exists q3, q2 = SP :: q3) /\ part (q2 ++ rest r2) (SP :: rest r).
Proof.
  destruct fuel as [|fuel]; [discriminate|]. cbn [unf_call]. change (min 2 (length [SP])) with 1. cbn [firstn skipn Nat.sub]. intros H. apply bind_ok in H as ([[q e] r'] & H1 & H2).
  apply short_fill in H1 as (d & -> & L & Q). cbn [app] in *. rewrite Q. destruct e.
  - injection H2 as <- <- <- <- <-. cbn [length]. repeat split; [lia|lia|exists d; reflexivity|apply part_refl].
  - apply look_short in H2 as (A1 & A2 & A3 & A4); [|exact L|discriminate|discriminate|apply Z.le_refl]. rewrite A1 at 1 2. cbn [length]. repeat split; [lia|exact A2|exact A3|exact A4].
Qed.

Lemma look_part : forall fuel q m buf r q2 m2 e2 buf2 r2, (m <= Z.of_nat (length q))%Z -> look fuel q m buf r = Ok (q2, m2, e2, buf2, r2) ->
  part (firstn (Z.to_nat m2) q2 ++ buf2 ++ rest r2) (q ++ buf ++ rest r).
Proof.
  induction fuel as [|fuel IH]; intros q m buf r q2 m2 e2 buf2 r2 M H; [discriminate|]. cbn [look] in H.
  assert (SKIP : forall a b t : bytes, part (a ++ t) (a ++ b ++ t)) by (intros; apply part_right).
  assert (ONE : forall d r1 m', rest r = d ++ rest r1 -> part (firstn (Z.to_nat m') q ++ d ++ rest r1) (q ++ buf ++ rest r)).
  { intros d r1 m' Q. rewrite Q. eapply part_trans; [apply part_cut|]. apply SKIP. }
  destruct (ends_cr q) eqn:C.
  - destruct (rd r 2) as [[d e] r1] eqn:R. apply rd_rest in R.
    destruct (length d <? 2); [injection H as <- <- <- <- <-; apply ONE; exact R|]. destruct (beq d [LF; SP]); [|injection H as <- <- <- <- <-; apply ONE; exact R].
    destruct e; [injection H as <- <- <- <- <-; apply ONE; exact R|].
    destruct (rd r1 1) as [[d2 e3] r3] eqn:R2. pose proof (rd_length _ _ _ _ _ R2) as L2. apply rd_rest in R2. cbv zeta in H.
    assert (LQ : 1 <= length q). { apply ends_cr_spec in C as (a & ->). rewrite app_length. cbn. lia. }
    assert (X : part (put q (length q - 1) d2 ++ rest r3) (q ++ buf ++ rest r)).
    { rewrite ends_cr_put, R, R2 by assumption. destruct d2 as [|x d2]; [rewrite (app_assoc buf); apply SKIP|]. apply part_last; [lia|]. rewrite (app_assoc buf). apply SKIP. }
    assert (M3 : (m - 1 + Z.of_nat (length d2) <= Z.of_nat (length (put q (length q - 1) d2)))%Z) by (rewrite put_length by lia; lia).
    destruct e3; [injection H as <- <- <- <- <-; eapply part_trans; [apply part_cut|exact X]|].
    apply IH in H; [|exact M3]. eapply part_trans; [exact H|exact X].
  - destruct (ends_crlf q) eqn:C2; [|injection H as <- <- <- <- <-; apply part_cut].
    destruct (rd r 1) as [[d e] r1] eqn:R. apply rd_rest in R.
    destruct (length d <? 1); [injection H as <- <- <- <- <-; apply ONE; exact R|]. destruct (beq d [SP]) eqn:B; [|injection H as <- <- <- <- <-; apply ONE; exact R].
    destruct e; [injection H as <- <- <- <- <-; apply ONE; exact R|]. apply beq_eq in B as ->.
    apply bind_ok in H as ([[[[q' n'] e3] b3] r3] & H1 & H2). apply call_short in H1 as (A1 & A2 & (q3 & A3) & A4). cbv zeta in H2.
    assert (LQ : exists a, q = a ++ [CR; LF]) by (apply ends_crlf_spec; exact C2). destruct LQ as (a & ->). clear C C2.
    assert (LL : length (a ++ [CR; LF]) = length a + 2) by (rewrite app_length; reflexivity). rewrite LL in *. replace (length a + 2 - 2) with (length a) in * by lia.
    assert (Y : part (a ++ q' ++ rest r3) ((a ++ [CR; LF]) ++ buf ++ rest r)).
    { rewrite <- app_assoc. apply part_app; [apply part_refl|]. eapply part_trans; [exact A4|]. rewrite R. do 2 apply Part_drop. change (SP :: rest r1) with ([] ++ [SP] ++ rest r1). apply part_app; [apply part_none|apply part_refl]. }
    assert (PA : firstn (length a) (a ++ [CR; LF]) = a) by (rewrite firstn_app, firstn_all, Nat.sub_diag; cbn [firstn]; apply app_nil_r).
    destruct A1 as [A1|A1].
    + assert (PU : put (a ++ [CR; LF]) (length a) q' = a ++ q' ++ [LF]). { unfold put. rewrite PA, A1. f_equal. f_equal. rewrite skipn_app, skipn_all2 by lia. replace (length a + 1 - length a) with 1 by lia. reflexivity. }
      rewrite PU in H2. destruct q3; [|subst q'; discriminate A1]. subst q'. cbn [length] in A2.
      assert (Z2 : part (firstn (Z.to_nat (m - 2 + n')) (a ++ [SP] ++ [LF]) ++ [] ++ rest r3) ((a ++ [CR; LF]) ++ buf ++ rest r)).
      { eapply part_trans; [|exact Y]. assert (FN : firstn (Z.to_nat (m - 2 + n')) (a ++ [SP] ++ [LF]) = firstn (Z.to_nat (m - 2 + n')) (a ++ [SP])).
        { replace (a ++ [SP] ++ [LF]) with ((a ++ [SP]) ++ [LF]) by (rewrite <- app_assoc; reflexivity). rewrite firstn_app. replace (Z.to_nat (m - 2 + n') - length (a ++ [SP])) with 0 by (rewrite app_length; cbn [length]; lia). apply app_nil_r. }
        rewrite FN. replace (a ++ [SP] ++ rest r3) with ((a ++ [SP]) ++ [] ++ rest r3) by (rewrite <- app_assoc; reflexivity). apply part_cut. }
      destruct e3; [injection H2 as <- <- <- <- <-; exact Z2|].
      destruct fuel as [|fuel]; [discriminate|]. cbn [look] in H2.
      assert (E1 : ends_cr (a ++ [SP] ++ [LF]) = false) by (unfold ends_cr; rewrite !rev_app_distr; reflexivity).
      assert (E2 : ends_crlf (a ++ [SP] ++ [LF]) = false) by (unfold ends_crlf; rewrite !rev_app_distr; reflexivity).
      rewrite E1, E2 in H2. injection H2 as <- <- <- <- <-. exact Z2.
    + assert (PU : put (a ++ [CR; LF]) (length a) q' = a ++ q'). { unfold put. rewrite PA, A1. f_equal. rewrite skipn_all2 by (rewrite LL; lia). apply app_nil_r. }
      rewrite PU in H2. destruct e3; [injection H2 as <- <- <- <- <-; eapply part_trans; [apply part_cut|rewrite <- app_assoc; exact Y]|].
      apply IH in H2; [|rewrite app_length; lia]. eapply part_trans; [exact H2|]. cbn [app]. rewrite <- app_assoc. exact Y.
Qed.
Lemma read_part fuel buf r n d e buf' r' : unf_read fuel buf r n = Ok (d, e, buf', r') -> part (d ++ buf' ++ rest r') (buf ++ rest r).
Proof.
  intros H. unfold unf_read in H. destruct fuel as [|fuel]; [discriminate|]. cbn [unf_call] in H. cbv zeta in H.
  destruct (fill (S fuel) (firstn (min n (length buf)) buf) (n - min n (length buf)) r) as [[[q e1] r1]| | |] eqn:F; try discriminate. pose proof (fill_part _ _ _ _ _ _ _ F) as P. cbn [bind] in H.
  assert (K : part (q ++ skipn (min n (length buf)) buf ++ rest r1) (buf ++ rest r)).
  { destruct (Nat.le_gt_cases (length buf) n) as [L|L].
    - rewrite Nat.min_r in * by exact L. rewrite skipn_all. rewrite firstn_all in P. exact P.
    - rewrite Nat.min_l, Nat.sub_diag in * by lia. cbn [fill Nat.eqb] in F. injection F as <- <- <-. rewrite app_assoc, firstn_skipn. apply part_refl. }
  destruct e1 as [e1|].
  - cbn [counted bind] in H. destruct (_ <? 0)%Z; [discriminate|]. injection H as <- <- <- <-. rewrite firstn_zeros by lia. exact K.
  - destruct (look fuel q (Z.of_nat (length q)) (skipn (min n (length buf)) buf) r1) as [[[[[q2 m2] e2] b2] r2]| | |] eqn:LK; try discriminate. apply look_part in LK; [|lia].
    cbn [counted bind] in H. destruct (_ <? 0)%Z; [discriminate|]. injection H as <- <- <- <-. eapply part_trans; eassumption.
Qed.
Lemma gives_part sizes i buf r d : gives sizes i buf r d -> part d (buf ++ rest r).
Proof.
  induction 1 as [i buf r|fuel i buf r d buf' r' d' H G IH|fuel i buf r d e buf' r' H].
  - apply part_none.
  - apply read_part in H. eapply part_trans; [|exact H]. apply part_app; [apply part_refl|exact IH].
  - apply read_part in H. eapply part_trans; [|exact H]. rewrite <- (app_nil_r d) at 1. apply part_app; [apply part_refl|apply part_none].
Qed.

Lemma drain_part fuel sizes : forall i buf r acc d e, drain fuel sizes i buf r acc = Ok (d, e) -> exists d', d = acc ++ d' /\ part d' (buf ++ rest r).
Proof.
  induction fuel as [|fuel IH]; intros i buf r acc d e H; [discriminate|]. rewrite drain_step in H. apply bind_ok in H as ([[[d1 e1] b1] r1] & H1 & H2). apply read_part in H1. destruct e1.
  - apply Ok_inj in H2. injection H2 as <- _. exists d1. split; [reflexivity|]. eapply part_trans; [|exact H1]. rewrite <- (app_nil_r d1) at 1. apply part_app; [apply part_refl|apply part_none].
  - apply IH in H2 as (d2 & -> & P). exists (d1 ++ d2). split; [rewrite app_assoc; reflexivity|]. eapply part_trans; [|exact H1]. apply part_app; [apply part_refl|exact P].
Qed.

(** ** A fold before the end of a line, and the end of the buffer in it *)
Lemma drain_split_cr sizes a x y t : (forall i, 2 <= sizes i) -> length a + 2 = sizes 0 -> find_fold (a ++ CRLF) = None -> find_fold (a ++ [SP; CR] ++ t) = None ->
  [x; y] <> [LF; SP] -> t <> [] -> exists n, forall fuel, n <= fuel ->
  drain fuel sizes 0 [] (Rdr [a ++ fold3 ++ CR :: x :: y :: t] false REOF) [] = Ok (a ++ [SP; CR] ++ t, REOF).
Proof.
  intros P L N1 N2 XY T. destruct t as [|z t]; [contradiction|].
  exists (size (Rdr [z :: t] false REOF) + 20). intros fuel F. do 2 (destruct fuel as [|fuel]; [lia|]).
  rewrite drain_step. rewrite unf_read_step. cbn [length]. rewrite Nat.min_0_r, Nat.sub_0_r. cbn [firstn].
  assert (FC : forall f, fill (S (S f)) [] (sizes 0) (Rdr [a ++ fold3 ++ CR :: x :: y :: z :: t] false REOF) = Ok (a ++ CRLF, None, Rdr [SP :: CR :: x :: y :: z :: t] false REOF)).
  { intros f. cbn [fill]. pose proof (P 0). replace (sizes 0 =? 0) with false by (symmetry; apply Nat.eqb_neq; lia). cbn [rd r_chunks].
    replace (length (a ++ fold3 ++ CR :: x :: y :: z :: t) <=? sizes 0) with false by (symmetry; apply Nat.leb_gt; rewrite !app_length; cbn [fold3 length]; lia). cbn [r_with r_err].
    change (a ++ fold3 ++ CR :: x :: y :: z :: t) with (a ++ CRLF ++ SP :: CR :: x :: y :: z :: t). rewrite (app_assoc a).
    rewrite firstn_app_exact, skipn_app_exact by (rewrite app_length; cbn [CRLF length]; lia). rewrite remove_folds_none by exact N1. cbn [bind Nat.ltb Nat.leb]. rewrite Nat.sub_0_r, firstn_all. reflexivity. }
  rewrite FC. cbn [bind]. cbn [look]. destruct (line_ends a) as [E1 E2]. rewrite E1, E2.
  cbn [rd r_chunks length Nat.leb firstn skipn r_with r_err Nat.ltb]. change (beq [SP] [SP]) with true. cbv iota.
  destruct fuel as [|fuel]; [lia|]. cbn [unf_call]. change (min 2 (length [SP])) with 1. change (2 - 1) with 1. cbn [firstn skipn].
  assert (FB : forall f, fill (S (S f)) [SP] 1 (Rdr [CR :: x :: y :: z :: t] false REOF) = Ok ([SP; CR], None, Rdr [x :: y :: z :: t] false REOF)).
  { intros f. cbn [fill Nat.eqb rd r_chunks length Nat.leb firstn skipn r_with r_err]. rewrite remove_folds_none by reflexivity. reflexivity. }
  destruct fuel as [|fuel]; [lia|]. rewrite FB. cbn [bind]. cbn [look]. change (ends_cr [SP; CR]) with true. cbv iota.
  cbn [rd r_chunks length Nat.leb firstn skipn r_with r_err Nat.ltb]. replace (beq [x; y] [LF; SP]) with false by (symmetry; apply beq_neq; exact XY). cbn [bind].
  change (a ++ CRLF) with (a ++ [CR; LF]). rewrite put_end.
  change (a ++ [SP; CR]) with (a ++ [SP] ++ [CR]). rewrite (app_assoc a [SP] [CR]). cbn [look]. rewrite ends_cr_snoc. change (beqc CR CR) with true. cbv iota.
  set (q := (a ++ [SP]) ++ [CR]). assert (LQ : (Z.of_nat (length (a ++ [CR; LF])) - 2 + Z.of_nat (length [SP; CR]))%Z = Z.of_nat (length q)) by (unfold q; rewrite !app_length; cbn [length]; lia).
  cbn [length] in LQ |- *. rewrite LQ.
  assert (QA : a ++ [SP; CR] ++ z :: t = q ++ z :: t) by (unfold q; rewrite <- !app_assoc; reflexivity). rewrite QA in *.
  cbn [rd r_chunks]. destruct (length (z :: t) <=? 2) eqn:L2.
  - cbn [r_with r_err]. destruct t as [|z2 [|? ?]]; [| |discriminate L2].
    + cbn [length Nat.ltb Nat.leb]. rewrite counted_all. cbn [bind]. rewrite (drain_plain sizes P); auto; try (cbn; lia).
    + cbn [length Nat.ltb Nat.leb]. assert (NB : beq [z; z2] [LF; SP] = false). { apply beq_neq. intros Q. injection Q as -> ->. apply (proj1 (has_fold_find (q ++ [LF; SP]))); [|exact N2]. exists (a ++ [SP]), []. unfold q. rewrite <- app_assoc. reflexivity. }
      rewrite NB, counted_all. cbn [bind]. rewrite (drain_plain sizes P); auto; cbn; lia.
  - destruct t as [|z2 [|z3 t]]; try discriminate L2. cbn [firstn skipn r_with r_err length Nat.ltb Nat.leb].
    assert (NB : beq [z; z2] [LF; SP] = false). { apply beq_neq. intros Q. injection Q as -> ->. apply (proj1 (has_fold_find (q ++ LF :: SP :: z3 :: t))); [|exact N2]. exists (a ++ [SP]), (z3 :: t). unfold q. rewrite <- !app_assoc. reflexivity. }
    rewrite NB, counted_all. cbn [bind]. rewrite (drain_plain sizes P); auto.
    + unfold left_in. cbn [r_chunks concat]. rewrite app_nil_r. reflexivity.
    + unfold left_in. cbn [r_chunks concat]. rewrite app_nil_r. exact N2.
    + revert F. unfold size. cbn [r_chunks fold_right length]. lia.
Qed.
