(** Which readers keep the unfolder from returning. *)
From Coq Require Import List Bool Arith ZArith Lia.
From Verif Require Import Base Lib SpecLines Unfolder UnfolderProofs ReadersProofs DemandReadProofs SpecCuts CutsProofs SpecStick.
Import ListNotations.

Lemma rd_size r k d e r' : rd r k = (d, e, r') -> length d <= k /\ length d + size r' <= size r /\ (e = None -> 1 <= k -> length d + size r' + 1 <= size r /\ size r' + 3 <= size r).
Proof.
  destruct r as [[|c cs] w x]; unfold rd, size; cbn [r_chunks r_with r_err]; intros Q.
  - injection Q as <- <- <-. cbn. repeat split; try lia; discriminate.
  - destruct (Nat.leb_spec (length c) k); injection Q as <- <- <-; cbn [r_chunks fold_right]; [repeat split; lia|].
    rewrite firstn_length, skipn_length. repeat split; lia.
Qed.

Lemma sticks_fill n r : sticks n r -> forall fuel out, fill fuel out n r = NoFuel.
Proof.
  induction 1 as [n r d e r' P R St|n r d r' P R H IH]; intros [|fuel] out; try reflexivity; cbn [fill]; replace (n =? 0) with false by (symmetry; apply Nat.eqb_neq; lia); rewrite R.
  - rewrite remove_folds_hangs by apply St. reflexivity.
  - destruct (good_or_stuck d) as [G|St]; [|rewrite remove_folds_hangs by apply St; reflexivity].
    destruct (remove_folds (S fuel) [] d 0) as [[[front p] k]|x| |] eqn:RF; cbn [bind]; try reflexivity.
    + destruct (remove_folds_text (S fuel + S (length d)) d G ltac:(lia)) as (front' & p' & k' & RF2 & Lk & U & _).
      apply (remove_folds_mono _ (S fuel + S (length d))) in RF; [|lia]. rewrite RF in RF2. injection RF2 as -> -> ->. replace (length p' <? k') with false by (symmetry; apply Nat.ltb_ge; exact Lk).
      assert (K : k' = length d - length (unfold d)).
      { apply remove_folds_length in RF. cbn [length] in RF. rewrite <- U, app_length, firstn_length. lia. }
      replace k' with (length d - length (unfold d)) by (symmetry; exact K). apply IH.
    + exfalso. clear - RF. revert RF. generalize (@nil Ascii.ascii) as fr. generalize 0 as k. generalize (S fuel) as f. intros f. revert d. induction f as [|f IH]; intros d k fr RF; [discriminate|]. cbn [remove_folds] in RF.
      destruct (find_fold d); [eapply IH; exact RF|discriminate].
    + contradiction (remove_folds_no_panic _ _ _ _ RF).
Qed.

Lemma fill_ends : forall s n r, size r <= s -> sticks n r \/ exists N out e r', (forall fuel, N <= fuel -> forall o, fill fuel o n r = Ok (o ++ out, e, r')) /\
  size r' <= size r /\ (e = None -> 1 <= n -> size r' + 3 <= size r).
Proof.
  induction s as [s IH] using lt_wf_ind. intros n r S. destruct n as [|n'].
  { right. exists 1, [], None, r. split; [|split; lia]. intros [|fuel] L o; [lia|]. cbn [fill Nat.eqb]. rewrite app_nil_r. reflexivity. }
  set (n := Datatypes.S n') in *. destruct (rd r n) as [[d e] r'] eqn:R. destruct (rd_size _ _ _ _ _ R) as (Ld & S1 & S2).
  destruct (good_or_stuck d) as [G|St]; [|left; exact (Sticks_now n r d e r' ltac:(lia) R St)].
  assert (F : forall fuel o, length d < fuel -> fill (Datatypes.S fuel) o n r = match e with None => fill fuel (o ++ unfold d) (length d - length (unfold d)) r' | Some _ => Ok (o ++ unfold d, e, r') end).
  { intros fuel o L. cbn [fill]. replace (n =? 0) with false by (symmetry; apply Nat.eqb_neq; lia). rewrite R.
    destruct (remove_folds_text (Datatypes.S fuel) d G ltac:(lia)) as (front & p & k & RF & Lk & U & _). rewrite RF. cbn [bind]. replace (length p <? k) with false by (symmetry; apply Nat.ltb_ge; exact Lk).
    assert (K : k = length d - length (unfold d)).
    { apply remove_folds_length in RF. cbn [length] in RF. rewrite <- U, app_length, firstn_length. lia. }
    rewrite U. destruct e; [reflexivity|]. rewrite <- K. reflexivity. }
  destruct e as [e|].
  - right. exists (2 + length d), (unfold d), (Some e), r'. split; [|split; [lia|discriminate]]. intros [|fuel] L o; [lia|]. rewrite F by lia. reflexivity.
  - specialize (S2 eq_refl ltac:(lia)). destruct (IH (size r') ltac:(lia) (length d - length (unfold d)) r' ltac:(lia)) as [St|(N & out & e & r2 & H & Z1 & Z2)].
    + left. exact (Sticks_later n r d r' ltac:(lia) R St).
    + right. exists (2 + length d + N), (unfold d ++ out), e, r2. split; [|split; [lia|]].
      * intros [|fuel] L o; [lia|]. rewrite F by lia. rewrite H by lia. rewrite app_assoc. reflexivity.
      * intros _ _. lia.
Qed.
Lemma short_unfold d : length d <= 2 -> length d - length (unfold d) = 0.
Proof. intros L. rewrite short_no_fold by exact L. lia. Qed.
Lemma short_sticks n r : n <= 2 -> ~ sticks n r.
Proof.
  intros L H. destruct H as [n r d e r' P R [(a & b & ->) _]|n r d r' P R H].
  - apply rd_size in R as (R & _). rewrite !app_length in R. cbn [fold3 length] in R. lia.
  - apply rd_size in R as (R & _). rewrite short_unfold in H by lia. inversion H; lia.
Qed.

Definition left_size (x : bytes * Z * option rerr * bytes * rdr) : nat := size (snd x).
Definition held_of (x : bytes * Z * option rerr * bytes * rdr) : bytes := snd (fst x).
Definition err_of (x : bytes * Z * option rerr * bytes * rdr) : option rerr := snd (fst (fst x)).

Lemma look_ends : forall s r, size r <= s -> forall q m buf, exists N x, (forall fuel, N <= fuel -> look fuel q m buf r = Ok x) /\
  left_size x <= size r /\ length (held_of x) + left_size x <= length buf + size r.
Proof.
  induction s as [s IH] using lt_wf_ind. intros r S q m buf.
  assert (FIN : forall N x, (forall fuel, N <= fuel -> look fuel q m buf r = Ok x) -> length (held_of x) + left_size x <= size r ->
    exists N x, (forall fuel, N <= fuel -> look fuel q m buf r = Ok x) /\ left_size x <= size r /\ length (held_of x) + left_size x <= length buf + size r).
  { intros N x H L. exists N, x. split; [exact H|lia]. }
  destruct (ends_cr q) eqn:C.
  - destruct (rd r 2) as [[d e] r1] eqn:R. destruct (rd_size _ _ _ _ _ R) as (L1 & S1 & S2).
    assert (END : length d <? 2 = true \/ beq d [LF; SP] = false -> forall fuel, 1 <= fuel -> look fuel q m buf r = Ok (q, m, e, d, r1)).
    { intros K [|fuel] F; [lia|]. cbn [look]. rewrite C, R. destruct (length d <? 2); [reflexivity|]. destruct K as [K|K]; [discriminate K|]. rewrite K. reflexivity. }
    destruct (length d <? 2) eqn:D2; [apply (FIN 1 _ (END (or_introl eq_refl))); exact S1|]. destruct (beq d [LF; SP]) eqn:DF; [|apply (FIN 1 _ (END (or_intror eq_refl))); exact S1]. clear END.
    destruct e as [e|].
    { apply (FIN 1 (q, m - 1, Some e, d, r1)%Z); [|exact S1]. intros [|fuel] F; [lia|]. cbn [look]. rewrite C, R, D2, DF. reflexivity. }
    specialize (S2 eq_refl ltac:(lia)). destruct (rd r1 1) as [[d2 e2] r2] eqn:R2. destruct (rd_size _ _ _ _ _ R2) as (L3 & S3 & S4). destruct e2 as [e2|].
    { apply (FIN 1 (put q (length q - 1) d2, m - 1 + Z.of_nat (length d2), Some e2, [], r2)%Z); [|unfold held_of, left_size; cbn [fst snd length]; lia]. intros [|fuel] F; [lia|]. cbn [look]. rewrite C, R, D2, DF, R2. reflexivity. }
    destruct (IH (size r2) ltac:(lia) r2 ltac:(lia) (put q (length q - 1) d2) (m - 1 + Z.of_nat (length d2))%Z []) as (N & x & H & Z1 & Z2).
    apply (FIN (Datatypes.S N) x); [|cbn [length] in Z2; lia]. intros [|fuel] F; [lia|]. cbn [look]. rewrite C, R, D2, DF, R2. apply H. lia.
  - destruct (ends_crlf q) eqn:C2.
    2: { exists 1, (q, m, None, buf, r). split; [|unfold held_of, left_size; cbn [fst snd]; lia]. intros [|fuel] F; [lia|]. cbn [look]. rewrite C, C2. reflexivity. }
    destruct (rd r 1) as [[d e] r1] eqn:R. destruct (rd_size _ _ _ _ _ R) as (L1 & S1 & S2).
    assert (END : length d <? 1 = true \/ beq d [SP] = false -> forall fuel, 1 <= fuel -> look fuel q m buf r = Ok (q, m, e, d, r1)).
    { intros K [|fuel] F; [lia|]. cbn [look]. rewrite C, C2, R. destruct (length d <? 1); [reflexivity|]. destruct K as [K|K]; [discriminate K|]. rewrite K. reflexivity. }
    destruct (length d <? 1) eqn:D1; [apply (FIN 1 _ (END (or_introl eq_refl))); exact S1|]. destruct (beq d [SP]) eqn:DF; [|apply (FIN 1 _ (END (or_intror eq_refl))); exact S1]. clear END.
    destruct e as [e|].
    { apply (FIN 1 (q, m - 2, Some e, d, r1)%Z); [|exact S1]. intros [|fuel] F; [lia|]. cbn [look]. rewrite C, C2, R, D1, DF. reflexivity. }
    specialize (S2 eq_refl ltac:(lia)). apply beq_eq in DF. subst d.
    assert (CALL : exists N y, (forall fuel, N <= fuel -> unf_call fuel [SP] r1 2 = Ok y) /\ left_size y <= size r1).
    { destruct (fill_ends (size r1) 1 r1 (Nat.le_refl _)) as [St|(N & out & e & r2 & H & Z1 & Z2)]; [contradiction (short_sticks 1 r1 ltac:(lia) St)|]. destruct e as [e|].
      - exists (N + 1), ([SP] ++ out, Z.of_nat (length ([SP] ++ out)), Some e, [], r2). split; [|exact Z1]. intros [|fuel] F; [lia|]. cbn [unf_call]. change (min 2 (length [SP])) with 1. change (2 - 1) with 1. cbn [firstn skipn]. rewrite H by lia. reflexivity.
      - destruct (IH (size r2) ltac:(lia) r2 ltac:(lia) ([SP] ++ out) (Z.of_nat (length ([SP] ++ out))) []) as (N' & y & H' & Z3 & Z4).
        exists (Datatypes.S (N + N')), y. split; [|lia]. intros [|fuel] F; [lia|]. cbn [unf_call]. change (min 2 (length [SP])) with 1. change (2 - 1) with 1. cbn [firstn skipn]. rewrite H by lia. apply H'. lia. }
    destruct CALL as (N & [[[[q' n'] e2] b2] r2] & H & Z). unfold left_size in Z. cbn [snd] in Z. destruct e2 as [e2|].
    { apply (FIN (Datatypes.S N) (put q (length q - 2) q', m - 2 + n', Some e2, [], r2)%Z); [|unfold held_of, left_size; cbn [fst snd length]; lia]. intros [|fuel] F; [lia|]. cbn [look]. rewrite C, C2, R, D1. change (beq [SP] [SP]) with true. cbv iota. rewrite H by lia. reflexivity. }
    destruct (IH (size r2) ltac:(lia) r2 ltac:(lia) (put q (length q - 2) q') (m - 2 + n')%Z []) as (N' & x & H' & Z1 & Z2).
    apply (FIN (Datatypes.S (N + N')) x); [|cbn [length] in Z2; lia]. intros [|fuel] F; [lia|]. cbn [look]. rewrite C, C2, R, D1. change (beq [SP] [SP]) with true. cbv iota. rewrite H by lia. cbn [bind]. apply H'. lia.
Qed.

Lemma call_sticks L held r : sticks (L - length held) r -> forall fuel, unf_read fuel held r L = NoFuel.
Proof.
  intros H [|fuel]; [reflexivity|]. rewrite unf_read_step. replace (L - min L (length held)) with (L - length held) by lia. rewrite sticks_fill by exact H. reflexivity.
Qed.
Lemma call_ends L held r : 1 <= L -> sticks (L - length held) r \/ exists N x, (forall fuel, N <= fuel -> unf_call fuel held r L = Ok x) /\
  (err_of x = None -> length (held_of x) + left_size x + 1 <= length held + size r).
Proof.
  intros P. destruct (fill_ends (size r) (L - length held) r (Nat.le_refl _)) as [St|(N & out & e & r2 & H & Z1 & Z2)]; [left; exact St|]. right.
  set (n := min L (length held)). assert (LE : L - n = L - length held) by lia. destruct e as [e|].
  - eexists (N + 1), (_, _, Some e, _, r2). split; [|discriminate]. intros [|fuel] F; [lia|]. cbn [unf_call]. fold n. rewrite LE, H by lia. reflexivity.
  - destruct (look_ends (size r2) r2 (Nat.le_refl _) (firstn n held ++ out) (Z.of_nat (length (firstn n held ++ out))) (skipn n held)) as (N' & x & H' & Z3 & Z4).
    exists (Datatypes.S (N + N')), x. split.
    + intros [|fuel] F; [lia|]. cbn [unf_call]. fold n. rewrite LE, H by lia. apply H'. lia.
    + intros _. rewrite skipn_length in Z4. destruct (Nat.eq_dec (L - length held) 0) as [E|E]; [|specialize (Z2 eq_refl ltac:(lia))]; lia.
Qed.

Lemma drain_comes sizes i held r j held' r' : comes_to sizes i held r j held' r' -> sticks (sizes j - length held') r' -> forall fuel acc, drain fuel sizes i held r acc = NoFuel.
Proof.
  induction 1 as [i held r|fuel0 i held r d held1 r1 j held' r' U C IH]; intros St [|fuel] acc; try reflexivity; rewrite drain_step.
  - rewrite call_sticks by exact St. reflexivity.
  - destruct (unf_read (S fuel) held r (sizes i)) as [x|x| |] eqn:Q; cbn [bind]; try reflexivity.
    + apply (proj1 (unf_read_look_mono _) (S fuel + fuel0)) in Q; [|lia]. apply (proj1 (unf_read_look_mono _) (S fuel + fuel0)) in U; [|lia]. rewrite U in Q. apply Ok_inj in Q. subst x. apply IH, St.
    + exfalso. assert (D : drain (S fuel) (fun _ => sizes i) 0 held r [] = Err x) by (rewrite drain_step, Q; reflexivity). exact (drain_no_err _ _ _ _ _ _ _ D).
    + apply (unf_read_panic_mono _ (S fuel + fuel0)) in Q; [|lia]. apply (proj1 (unf_read_look_mono _) (S fuel + fuel0)) in U; [|lia]. congruence.
Qed.
Lemma drain_settles sizes : (forall i, 1 <= sizes i) -> forall s i held r, length held + size r <= s ->
  (exists j held' r', comes_to sizes i held r j held' r' /\ sticks (sizes j - length held') r') \/ exists N, forall fuel, N <= fuel -> forall acc, drain fuel sizes i held r acc <> NoFuel.
Proof.
  intros P. induction s as [s IH] using lt_wf_ind. intros i held r SZ.
  destruct (call_ends (sizes i) held r (P i)) as [St|(N & x & H & Z)]; [left; exists i, held, r; split; [constructor|exact St]|].
  destruct (counted (Ok x)) as [[[[d e] b] r1]|y| |] eqn:CO.
  - destruct e as [e|].
    + right. exists (Datatypes.S N). intros [|fuel] F acc; [lia|]. rewrite drain_step. unfold unf_read. rewrite H, CO by lia. discriminate.
    + assert (XE : held_of x = b /\ err_of x = None /\ left_size x = size r1).
      { destruct x as [[[[q m] e1] b1] r2]. unfold counted in CO. cbn [bind] in CO. destruct (m <? 0)%Z; [discriminate CO|]. injection CO as _ <- <- <-. auto. }
      destruct XE as (X1 & X2 & X3). specialize (Z X2). rewrite X1, X3 in Z.
      destruct (IH (length b + size r1) ltac:(lia) (Datatypes.S i) b r1 (Nat.le_refl _)) as [(j & held' & r' & C & St)|(N' & H')].
      * left. exists j, held', r'. split; [|exact St]. apply (Comes_next sizes N i held r d b r1); [|exact C]. unfold unf_read. rewrite H, CO by lia. reflexivity.
      * right. exists (Datatypes.S (N + N')). intros [|fuel] F acc; [lia|]. rewrite drain_step. unfold unf_read. rewrite H, CO by lia. cbn [bind]. apply H'. lia.
  - destruct x as [[[[q m] e1] b1] r2]. unfold counted in CO. cbn [bind] in CO. destruct (m <? 0)%Z; discriminate CO.
  - right. exists (Datatypes.S N). intros [|fuel] F acc; [lia|]. rewrite drain_step. unfold unf_read. rewrite H, CO by lia. discriminate.
  - destruct x as [[[[q m] e1] b1] r2]. unfold counted in CO. cbn [bind] in CO. destruct (m <? 0)%Z; discriminate CO.
Qed.
