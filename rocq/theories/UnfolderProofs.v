(** The unfolder: fold-free input, input in one read, and the inputs on which it never returns. *)
From Coq Require Import List Arith ZArith Bool Lia.
From Verif Require Import Base Lib SpecLines Unfolder.
Import ListNotations.

(** ** Folds in a text *)


Lemma find_fold_some s n : find_fold s = Some n ->
  s = firstn n s ++ fold3 ++ skipn (n + 3) s /\ n + 3 <= length s /\ find_fold (firstn n s) = None.
Proof.
  revert n. induction s as [|a s IH]; intros n H; [discriminate|].
  destruct s as [|b [|c s]]; [discriminate|discriminate|].
  change (find_fold (a :: b :: c :: s)) with
    (if beqc a CR && beqc b LF && beqc c SP then Some 0
     else match find_fold (b :: c :: s) with Some n => Some (S n) | None => None end) in H.
  destruct (beqc a CR && beqc b LF && beqc c SP) eqn:E.
  - injection H as <-. apply andb_true_iff in E as [E E3]. apply andb_true_iff in E as [E1 E2].
    apply beqc_eq in E1, E2, E3. subst. cbn [length]. split; [reflexivity|]. split; [lia|reflexivity].
  - destruct (find_fold (b :: c :: s)) as [m|] eqn:F; [|discriminate]. injection H as <-.
    destruct (IH m eq_refl) as (H1 & H2 & H3). split; [|split].
    + change (firstn (S m) (a :: b :: c :: s)) with (a :: firstn m (b :: c :: s)).
      change (skipn (S m + 3) (a :: b :: c :: s)) with (skipn (m + 3) (b :: c :: s)).
      change (a :: (b :: c :: s) = a :: (firstn m (b :: c :: s) ++ fold3 ++ skipn (m + 3) (b :: c :: s))).
      f_equal. exact H1.
    + cbn [length] in *. lia.
    + destruct m as [|[|m]]; [reflexivity|reflexivity|].
      change (firstn (S (S (S m))) (a :: b :: c :: s)) with (a :: b :: c :: firstn m s).
      change (firstn (S (S m)) (b :: c :: s)) with (b :: c :: firstn m s) in H3.
      change (find_fold (a :: b :: c :: firstn m s)) with
        (if beqc a CR && beqc b LF && beqc c SP then Some 0
         else match find_fold (b :: c :: firstn m s) with Some n => Some (S n) | None => None end).
      rewrite E, H3. reflexivity.
Qed.

Lemma find_fold_has s : has_fold s -> find_fold s <> None.
Proof.
  intros (a & b & ->). induction a as [|x a IH].
  - cbn [app fold3]. change (find_fold (CR :: LF :: SP :: b)) with (Some 0). discriminate.
  - cbn [app]. destruct (a ++ fold3 ++ b) as [|y [|z s]] eqn:E.
    + destruct a; discriminate.
    + destruct a as [|? [|]]; discriminate.
    + change (find_fold (x :: y :: z :: s)) with
        (if beqc x CR && beqc y LF && beqc z SP then Some 0
         else match find_fold (y :: z :: s) with Some n => Some (S n) | None => None end).
      destruct (_ && _); [discriminate|]. destruct (find_fold (y :: z :: s)); [discriminate|contradiction].
Qed.

Lemma has_fold_find s : has_fold s <-> find_fold s <> None.
Proof.
  split; [apply find_fold_has|]. destruct (find_fold s) as [n|] eqn:E; [|contradiction]. intros _.
  apply find_fold_some in E as (-> & _). eexists. eexists. reflexivity.
Qed.

Lemma no_fold_sub a b c : find_fold (a ++ b ++ c) = None -> find_fold b = None.
Proof.
  intros H. destruct (find_fold b) eqn:E; [|reflexivity]. exfalso.
  assert (F : has_fold b) by (apply has_fold_find; rewrite E; discriminate).
  destruct F as (x & y & ->). apply (find_fold_has (a ++ (x ++ fold3 ++ y) ++ c)); [|exact H].
  exists (a ++ x), (y ++ c). rewrite <- !app_assoc. reflexivity.
Qed.

Lemma find_fold_app_some s t n : find_fold s = Some n -> find_fold (s ++ t) = Some n.
Proof.
  revert n. induction s as [|a s IH]; intros n H; [discriminate|].
  destruct s as [|b [|c s]]; [discriminate|discriminate|].
  change ((a :: b :: c :: s) ++ t) with (a :: b :: c :: (s ++ t)).
  change (find_fold (a :: b :: c :: s)) with
    (if beqc a CR && beqc b LF && beqc c SP then Some 0
     else match find_fold (b :: c :: s) with Some n => Some (S n) | None => None end) in H.
  change (find_fold (a :: b :: c :: (s ++ t))) with
    (if beqc a CR && beqc b LF && beqc c SP then Some 0
     else match find_fold (b :: c :: (s ++ t)) with Some n => Some (S n) | None => None end).
  destruct (_ && _); [exact H|].
  destruct (find_fold (b :: c :: s)) as [m|] eqn:F; [|discriminate].
  change (b :: c :: (s ++ t)) with ((b :: c :: s) ++ t). rewrite (IH m eq_refl). exact H.
Qed.

Lemma unfold_cons3 a b c s : unfold (a :: b :: c :: s) =
  if beqc a CR && beqc b LF && beqc c SP then unfold s else a :: unfold (b :: c :: s).
Proof. reflexivity. Qed.

Lemma unfold_none s : find_fold s = None -> unfold s = s.
Proof.
  induction s as [|a s IH]; intros H; [reflexivity|].
  destruct s as [|b [|c s]]; [reflexivity|reflexivity|].
  change (find_fold (a :: b :: c :: s)) with
    (if beqc a CR && beqc b LF && beqc c SP then Some 0
     else match find_fold (b :: c :: s) with Some n => Some (S n) | None => None end) in H.
  rewrite unfold_cons3. destruct (_ && _); [discriminate|].
  rewrite IH; [reflexivity|]. destruct (find_fold (b :: c :: s)); [discriminate|reflexivity].
Qed.

Lemma unfold_some s n : find_fold s = Some n -> unfold s = firstn n s ++ unfold (skipn (n + 3) s).
Proof.
  revert n. induction s as [|a s IH]; intros n H; [discriminate|].
  destruct s as [|b [|c s]]; [discriminate|discriminate|].
  change (find_fold (a :: b :: c :: s)) with
    (if beqc a CR && beqc b LF && beqc c SP then Some 0
     else match find_fold (b :: c :: s) with Some n => Some (S n) | None => None end) in H.
  rewrite unfold_cons3. destruct (_ && _); [injection H as <-; reflexivity|].
  destruct (find_fold (b :: c :: s)) as [m|] eqn:F; [|discriminate]. injection H as <-.
  rewrite (IH m eq_refl). reflexivity.
Qed.

(** ** Fold removal in one piece *)

(** The last three bytes are a rotation of CR LF SP. *)

Definition rot_dec (s : bytes) : bool := beq s [CR; LF; SP] || beq s [LF; SP; CR] || beq s [SP; CR; LF].
Lemma rot_dec_spec s : rot_dec s = true <-> rot s.
Proof. unfold rot_dec, rot. rewrite !orb_true_iff, !beq_eq. tauto. Qed.

Definition stale (t : bytes) (k : nat) : bytes := concat (repeat t k).

Lemma stale_length t k : length t = 3 -> length (stale t k) = 3 * k.
Proof.
  intros H. induction k as [|k IH]; [reflexivity|]. unfold stale in *. cbn [repeat concat].
  rewrite app_length, IH, H. lia.
Qed.
Lemma stale_snoc t k : stale t (S k) = stale t k ++ t.
Proof.
  induction k as [|k IH]; [unfold stale; cbn; rewrite app_nil_r; reflexivity|].
  change (stale t (S (S k))) with (t ++ stale t (S k)). rewrite IH at 1.
  change (stale t (S k)) with (t ++ stale t k). rewrite app_assoc. reflexivity.
Qed.

Lemma window_no x y z : ~ rot [x; y; z] ->
  beqc x CR && beqc y LF && beqc z SP = false /\ beqc y CR && beqc z LF && beqc x SP = false /\
  beqc z CR && beqc x LF && beqc y SP = false.
Proof.
  intros H. repeat split; apply not_true_iff_false; intros E; apply H; unfold rot;
    apply andb_true_iff in E as [E E3]; apply andb_true_iff in E as [E1 E2];
    apply beqc_eq in E1, E2, E3; subst; auto.
Qed.

Lemma find_fold_3 a b c s : beqc a CR && beqc b LF && beqc c SP = false ->
  find_fold (b :: c :: s) = None -> find_fold (a :: b :: c :: s) = None.
Proof.
  intros H F. change (find_fold (a :: b :: c :: s)) with
    (if beqc a CR && beqc b LF && beqc c SP then Some 0
     else match find_fold (b :: c :: s) with Some n => Some (S n) | None => None end).
  rewrite H, F. reflexivity.
Qed.

Lemma find_fold_tail a b c s : find_fold (a :: b :: c :: s) = None ->
  beqc a CR && beqc b LF && beqc c SP = false /\ find_fold (b :: c :: s) = None.
Proof.
  change (find_fold (a :: b :: c :: s)) with
    (if beqc a CR && beqc b LF && beqc c SP then Some 0
     else match find_fold (b :: c :: s) with Some n => Some (S n) | None => None end).
  destruct (_ && _); [discriminate|]. destruct (find_fold (b :: c :: s)); [discriminate|auto].
Qed.

Lemma stale_no_fold x y z k : ~ rot [x; y; z] -> find_fold (stale [x; y; z] k) = None.
Proof.
  intros H. destruct (window_no x y z H) as (H1 & H2 & H3).
  induction k as [|k IH]; [reflexivity|].
  change (stale [x; y; z] (S k)) with (x :: y :: z :: stale [x; y; z] k).
  destruct k as [|k].
  - apply find_fold_3; [exact H1|reflexivity].
  - change (stale [x; y; z] (S k)) with (x :: y :: z :: stale [x; y; z] k) in *.
    apply find_fold_3; [exact H1|]. apply find_fold_3; [exact H2|]. apply find_fold_3; [exact H3|]. exact IH.
Qed.

(** What is left of a text [o ++ [x;y;z]] has a fold of its own, or none even with stale bytes. *)
Lemma live_no_fold x y z k : ~ rot [x; y; z] -> forall live,
  (exists pre o, pre ++ live = o ++ [x; y; z]) -> find_fold live = None ->
  find_fold (live ++ stale [x; y; z] k) = None.
Proof.
  intros H. destruct (window_no x y z H) as (H1 & H2 & H3).
  induction live as [|a live IH]; intros (pre & o & E) F.
  - apply stale_no_fold, H.
  - assert (IH' : find_fold live = None -> find_fold (live ++ stale [x; y; z] k) = None).
    { apply IH. exists (pre ++ [a]), o. rewrite <- app_assoc. exact E. }
    destruct live as [|b [|c live]].
    + assert (a = z).
      { assert (L : last (pre ++ [a]) a = last (o ++ [x; y; z]) a) by (rewrite E; reflexivity).
        rewrite last_last in L. rewrite (app_assoc o [x; y] [z] : o ++ [x; y; z] = _) in L.
        rewrite last_last in L. exact L. }
      subst. cbn [app] in *. destruct k as [|k]; [reflexivity|].
      change (stale [x; y; z] (S k)) with (x :: y :: z :: stale [x; y; z] k) in *.
      apply find_fold_3; [exact H3|]. apply IH'. reflexivity.
    + assert (a = y /\ b = z) as [-> ->].
      { apply (f_equal (@rev _)) in E. rewrite !rev_app_distr in E. cbn [rev app] in E. injection E as -> -> _. auto. }
      cbn [app] in *. destruct k as [|k]; [reflexivity|].
      change (stale [x; y; z] (S k)) with (x :: y :: z :: stale [x; y; z] k) in *.
      apply find_fold_3; [exact H2|]. apply IH'. reflexivity.
    + apply find_fold_tail in F as [F1 F2]. cbn [app] in *. apply find_fold_3; [exact F1|]. apply IH', F2.
Qed.

Lemma firstn_app_exact {A} (a b : list A) n : n = length a -> firstn n (a ++ b) = a.
Proof. intros ->. rewrite firstn_app, Nat.sub_diag, firstn_O, app_nil_r, firstn_all. reflexivity. Qed.
Lemma skipn_app_exact {A} (a b : list A) n : n = length a -> skipn n (a ++ b) = b.
Proof. intros ->. rewrite skipn_app, Nat.sub_diag, skipn_all. reflexivity. Qed.

Lemma skipn_fold n s : s = firstn n s ++ fold3 ++ skipn (n + 3) s -> exists pre, pre ++ skipn (n + 3) s = s.
Proof. intros H. exists (firstn n s ++ fold3). rewrite <- app_assoc. symmetry. exact H. Qed.

Lemma remove_folds_ok x y z : ~ rot [x; y; z] -> forall fuel live k front,
  (exists pre o, pre ++ live = o ++ [x; y; z]) -> length live < fuel ->
  exists front' live' k', remove_folds fuel front (live ++ stale [x; y; z] k) (3 * k)
      = Ok (front', live' ++ stale [x; y; z] k', 3 * k') /\ front' ++ live' = front ++ unfold live.
Proof.
  intros H. induction fuel as [|fuel IH]; intros live k front SF L; [lia|]. cbn [remove_folds].
  destruct (find_fold live) as [n|] eqn:F.
  - rewrite (find_fold_app_some _ _ _ F).
    pose proof (find_fold_some _ _ F) as (E & LE & _).
    assert (EQ : skipn n (firstn n (live ++ stale [x; y; z] k) ++ skipn (n + 3) (live ++ stale [x; y; z] k)
        ++ skipn (length (live ++ stale [x; y; z] k) - 3) (live ++ stale [x; y; z] k))
        = skipn (n + 3) live ++ stale [x; y; z] (S k)).
    { rewrite (skipn_app_exact (firstn n (live ++ stale [x; y; z] k))).
      2:{ rewrite firstn_length, app_length. lia. }
      rewrite (skipn_app (n + 3) live). replace (n + 3 - length live) with 0 by lia. cbn [skipn].
      rewrite <- app_assoc. f_equal. rewrite stale_snoc. f_equal.
      rewrite app_length, stale_length by reflexivity. destruct k as [|k].
      - change (stale [x; y; z] 0) with (@nil Ascii.ascii). rewrite app_nil_r.
        destruct SF as (pre & o & SF). assert (L3 : 3 <= length live) by lia.
        replace (length live + 3 * 0 - 3) with (length live - 3) by lia.
        assert (Q : skipn (length (pre ++ live) - 3) (pre ++ live) = [x; y; z]).
        { rewrite SF. apply skipn_app_exact. rewrite app_length. cbn [length]. lia. }
        rewrite app_length, skipn_app in Q.
        rewrite skipn_all2 in Q by lia. cbn [app] in Q.
        replace (length pre + length live - 3 - length pre) with (length live - 3) in Q by lia. exact Q.
      - rewrite stale_snoc, app_assoc. apply skipn_app_exact.
        rewrite app_length, stale_length by reflexivity. lia. }
    assert (EF : firstn n (firstn n (live ++ stale [x; y; z] k) ++ skipn (n + 3) (live ++ stale [x; y; z] k)
        ++ skipn (length (live ++ stale [x; y; z] k) - 3) (live ++ stale [x; y; z] k)) = firstn n live).
    { rewrite firstn_app_exact by (rewrite firstn_length, app_length; lia).
      rewrite firstn_app. replace (n - length live) with 0 by lia. cbn [firstn]. apply app_nil_r. }
    cbv zeta. rewrite EQ, EF. replace (3 * k + 3) with (3 * S k) by lia.
    destruct (IH (skipn (n + 3) live) (S k) (front ++ firstn n live)) as (f' & l' & k' & R1 & R2).
    + destruct SF as (pre & o & SF). destruct (skipn_fold n live E) as (p2 & Ep).
      exists (pre ++ p2), o. rewrite <- app_assoc, Ep. exact SF.
    + rewrite skipn_length. lia.
    + exists f', l', k'. split; [exact R1|]. rewrite R2, (unfold_some _ _ F), <- app_assoc. reflexivity.
  - rewrite (live_no_fold x y z k H live SF F). exists front, live, k. split; [reflexivity|].
    rewrite (unfold_none _ F). reflexivity.
Qed.

Lemma remove_folds_none fuel front p k : find_fold p = None -> remove_folds (S fuel) front p k = Ok (front, p, k).
Proof. intros H. cbn [remove_folds]. rewrite H. reflexivity. Qed.

(** A text that has no fold, or does not end in a rotation of one. *)
Definition good_tail (s : bytes) : Prop := find_fold s = None \/ ~ bad_tail s.

Lemma last3 (s : bytes) : 3 <= length s -> exists o x y z, s = o ++ [x; y; z].
Proof.
  intros H. exists (firstn (length s - 3) s).
  assert (L : length (skipn (length s - 3) s) = 3) by (rewrite skipn_length; lia).
  destruct (skipn (length s - 3) s) as [|x [|y [|z [|]]]] eqn:E; cbn in L; try lia.
  exists x, y, z. rewrite <- E. symmetry. apply firstn_skipn.
Qed.

Lemma remove_folds_text fuel s : good_tail s -> length s < fuel ->
  exists front p k, remove_folds fuel [] s 0 = Ok (front, p, k) /\ k <= length p /\
    front ++ firstn (length p - k) p = unfold s /\ (k = 0 -> unfold s = s).
Proof.
  intros [N|B] L.
  - destruct fuel as [|fuel]; [lia|]. rewrite remove_folds_none by exact N.
    exists [], s, 0. split; [reflexivity|]. split; [lia|]. rewrite Nat.sub_0_r, firstn_all, (unfold_none _ N). auto.
  - destruct (find_fold s) as [n|] eqn:F.
    + destruct (find_fold_some _ _ F) as (_ & L3 & _).
      destruct (last3 s ltac:(lia)) as (o & x & y & z & E).
      assert (R : ~ rot [x; y; z]) by (intros R; apply B; exists o, [x; y; z]; auto).
      destruct (remove_folds_ok x y z R fuel s 0 [] (ex_intro _ [] (ex_intro _ o E)) L) as (f' & l' & k' & E1 & E2).
      change (stale [x; y; z] 0) with (@nil Ascii.ascii) in E1. rewrite app_nil_r in E1.
      exists f', (l' ++ stale [x; y; z] k'), (3 * k'). split; [exact E1|].
      assert (LL : length (l' ++ stale [x; y; z] k') = length l' + 3 * k')
        by (rewrite app_length, stale_length by reflexivity; reflexivity).
      split; [lia|]. split.
      * rewrite LL, firstn_app_exact by lia. exact E2.
      * intros K. destruct k' as [|k']; [|lia].
        (* no fold was removed although there is one: impossible, but the weaker fact is not needed *)
        exfalso. destruct fuel as [|fuel]; [lia|]. cbn [remove_folds] in E1. rewrite F in E1. cbv zeta in E1.
        assert (M : forall fuel front p t f p' t', remove_folds fuel front p t = Ok (f, p', t') -> t <= t').
        { clear. induction fuel as [|fuel IH]; intros front p t f p' t' H; [discriminate|].
          cbn [remove_folds] in H. destruct (find_fold p); [apply IH in H; lia|injection H as <- <- <-; lia]. }
        apply M in E1. lia.
    + destruct fuel as [|fuel]; [lia|]. rewrite remove_folds_none by exact F.
      exists [], s, 0. split; [reflexivity|]. split; [lia|]. rewrite Nat.sub_0_r, firstn_all, (unfold_none _ F). auto.
Qed.

(** ** What [Read] returns *)

Lemma counted_all q e b r : counted (Ok (q, Z.of_nat (length q), e, b, r)) = Ok (q, e, b, r).
Proof. unfold counted. cbn [bind]. rewrite (proj2 (Z.ltb_ge _ _)) by lia. rewrite Nat2Z.id, firstn_all. reflexivity. Qed.
Lemma unf_read_step f buf r L : unf_read (S f) buf r L =
  let! (q, e, r') := fill (S f) (firstn (min L (length buf)) buf) (L - min L (length buf)) r in
  match e with Some _ => Ok (q, e, skipn (min L (length buf)) buf, r') | None => counted (look f q (Z.of_nat (length q)) (skipn (min L (length buf)) buf) r') end.
Proof.
  unfold unf_read. cbn [unf_call]. cbv zeta. destruct (fill _ _ _ _) as [[[q e] r']| | |]; cbn [bind]; try reflexivity.
  destruct e; [apply counted_all|reflexivity].
Qed.

(** ** Input in one read (C09) *)

Lemma drain_eof fuel sizes i acc w : 1 <= sizes i ->
  drain (S (S fuel)) sizes i [] (Rdr [] w REOF) acc = Ok (acc, REOF).
Proof.
  intros H. cbn [drain]. rewrite unf_read_step. cbn [fill length]. rewrite Nat.min_0_r, Nat.sub_0_r. cbn [firstn].
  destruct (sizes i =? 0) eqn:E; [apply Nat.eqb_eq in E; lia|].
  cbn [rd r_chunks r_with r_err]. rewrite remove_folds_none by reflexivity. cbn [bind length Nat.ltb Nat.leb firstn app Nat.sub].
  rewrite !app_nil_r. reflexivity.
Qed.

Theorem drain_one_read s w sizes fuel : good_tail s -> (forall i, 1 <= sizes i) -> length s <= sizes 0 ->
  length s + 4 <= fuel -> drain fuel sizes 0 [] (Rdr [s] w REOF) [] = Ok (unfold s, REOF).
Proof.
  intros G P L F. destruct fuel as [|fuel]; [lia|]. destruct fuel as [|fuel]; [lia|].
  destruct fuel as [|fuel]; [lia|]. destruct fuel as [|fuel]; [lia|].
  remember (S (S fuel)) as f2 eqn:Ef2.
  cbn [drain]. rewrite unf_read_step. cbn [fill length]. rewrite Nat.min_0_r, Nat.sub_0_r. cbn [firstn].
  pose proof (P 0) as P0. destruct (sizes 0 =? 0) eqn:E0; [apply Nat.eqb_eq in E0; lia|].
  cbn [rd r_chunks]. replace (length s <=? sizes 0) with true by (symmetry; apply Nat.leb_le; lia).
  cbn [r_with r_err].
  destruct (remove_folds_text (S (S f2)) s G ltac:(lia)) as (front & p & k & R & K & U & Z). rewrite R.
  cbn [bind]. replace (length p <? k) with false by (symmetry; apply Nat.ltb_ge; lia).
  cbn [app]. rewrite U. destruct w.
  - cbn [bind skipn app]. reflexivity.
  - cbn [fill]. destruct (k =? 0) eqn:EK.
    + apply Nat.eqb_eq in EK. specialize (Z EK). cbn [bind]. rewrite Ef2. cbn [look].
      assert (E2 : forall n, rd (Rdr [] false REOF) n = ([], Some REOF, Rdr [] false REOF)) by reflexivity.
      rewrite !E2. destruct (ends_cr (unfold s)).
      * cbn [length Nat.ltb Nat.leb]. rewrite counted_all. reflexivity.
      * destruct (ends_crlf (unfold s)).
        -- cbn [length Nat.ltb Nat.leb]. rewrite counted_all. reflexivity.
        -- rewrite counted_all. cbn [bind app skipn]. apply drain_eof, P.
    + cbn [rd r_chunks r_err r_with]. rewrite Ef2, remove_folds_none by reflexivity.
      cbn [bind length Nat.ltb Nat.leb firstn app Nat.sub]. rewrite !app_nil_r. reflexivity.
Qed.

(** ** The inputs on which one read never ends (C10) *)

Lemma rot_double x y z a b : rot [x; y; z] -> has_fold (a ++ [x; y; z] ++ [x; y; z] ++ b).
Proof.
  intros [[= -> -> ->]|[[= -> -> ->]|[= -> -> ->]]].
  - exists a, ([CR; LF; SP] ++ b). reflexivity.
  - exists (a ++ [LF; SP]), ([CR] ++ b). rewrite <- !app_assoc. reflexivity.
  - exists (a ++ [SP]), ([CR; LF] ++ b). rewrite <- !app_assoc. reflexivity.
Qed.

Lemma remove_folds_hangs fuel : forall front p k, has_fold p -> bad_tail p -> remove_folds fuel front p k = NoFuel.
Proof.
  induction fuel as [|fuel IH]; intros front p k F B; [reflexivity|]. cbn [remove_folds].
  apply has_fold_find in F. destruct (find_fold p) as [n|] eqn:E; [|contradiction]. clear F.
  destruct (find_fold_some _ _ E) as (SS & L & _). destruct B as (o & t & EP & R).
  assert (T3 : length t = 3) by (destruct R as [R | [R | R]]; subst t; reflexivity).
  assert (LP : length p = length o + 3) by (rewrite EP, app_length; lia).
  assert (TL : skipn (length p - 3) p = t).
  { replace (length p - 3) with (length o) by lia. rewrite EP at 1. apply skipn_app_exact. reflexivity. }
  cbv zeta. rewrite TL, (skipn_app_exact (firstn n p)) by (rewrite firstn_length; lia).
  apply IH; [|exists (skipn (n + 3) p), t; auto].
  destruct t as [|x [|y [|z [|]]]]; cbn in T3; try lia. clear T3.
  destruct (skipn (n + 3) p) as [|c0 [|c1 [|c2 r]]] eqn:ES.
  - (* the fold is the tail *)
    assert (Q : o ++ [x; y; z] = firstn n p ++ [CR; LF; SP]) by (rewrite <- EP, SS at 1; reflexivity).
    assert (Q' : rev (o ++ [x; y; z]) = rev (firstn n p ++ [CR; LF; SP])) by (rewrite Q; reflexivity).
    rewrite !rev_app_distr in Q'. cbn [rev app] in Q'. injection Q' as -> -> -> _. exists [], []. reflexivity.
  - assert (Q' : rev (o ++ [x; y; z]) = rev (firstn n p ++ [CR; LF; SP; c0])).
    { f_equal. rewrite <- EP, SS at 1. reflexivity. }
    rewrite !rev_app_distr in Q'. cbn [rev app] in Q'. injection Q' as -> -> -> _.
    destruct R as [R|[R|R]]; try discriminate R. injection R as ->. exists [], [CR]. reflexivity.
  - assert (Q' : rev (o ++ [x; y; z]) = rev (firstn n p ++ [CR; LF; SP; c0; c1])).
    { f_equal. rewrite <- EP, SS at 1. reflexivity. }
    rewrite !rev_app_distr in Q'. cbn [rev app] in Q'. injection Q' as -> -> -> _.
    destruct R as [R|[R|R]]; try discriminate R. injection R as -> ->. exists [], [CR; LF]. reflexivity.
  - (* the tail is kept, and doubled *)
    assert (L3 : 3 <= length (skipn (n + 3) p)) by (rewrite ES; cbn [length]; lia).
    destruct (last3 _ L3) as (o' & x' & y' & z' & E3).
    assert (Q' : rev (o ++ [x; y; z]) = rev ((firstn n p ++ fold3 ++ o') ++ [x'; y'; z'])).
    { f_equal. rewrite <- EP, <- !app_assoc, <- E3, ES. exact SS. }
    rewrite !rev_app_distr in Q'. cbn [rev app] in Q'. injection Q' as -> -> -> _.
    rewrite <- ES, E3, <- app_assoc. rewrite <- (app_nil_r [x'; y'; z']) at 2. apply rot_double, R.
Qed.

Theorem drain_hangs s w sizes fuel : has_fold s -> bad_tail s -> length s <= sizes 0 ->
  drain fuel sizes 0 [] (Rdr [s] w REOF) [] = NoFuel.
Proof.
  intros F B L. destruct fuel as [|fuel]; [reflexivity|].
  cbn [drain]. rewrite unf_read_step. cbn [length fill]. rewrite Nat.min_0_r, Nat.sub_0_r. cbn [firstn].
  assert (NZ : s <> []) by (destruct F as ([|] & b & ->); discriminate).
  destruct (sizes 0 =? 0) eqn:E0; [apply Nat.eqb_eq in E0; destruct s; [contradiction|cbn in L; lia]|].
  cbn [rd r_chunks]. replace (length s <=? sizes 0) with true by (symmetry; apply Nat.leb_le; lia).
  rewrite remove_folds_hangs by assumption. reflexivity.
Qed.

(** ** Fold-free input in any number of reads (C08) *)

Definition size (r : rdr) : nat := fold_right (fun c n => 3 + length c * 3 + n) 0 (r_chunks r).
Definition left_in (r : rdr) : bytes := concat (r_chunks r).

Lemma rd_spec r k : r_with r = false -> r_err r = REOF ->
  let '(d, e, r') := rd r k in
  left_in r = d ++ left_in r' /\ length d <= k /\ r_with r' = false /\ r_err r' = REOF /\
  match e with
  | Some x => x = REOF /\ d = [] /\ left_in r = []
  | None => 1 <= k -> size r' + 3 <= size r
  end.
Proof.
  intros W E. destruct r as [[|c cs] w e]; cbn [r_with r_err] in *; subst; unfold rd; cbn [r_chunks r_with r_err].
  - cbn. repeat split; lia.
  - destruct (length c <=? k) eqn:L.
    + apply Nat.leb_le in L. destruct cs as [|c' cs]; cbn [r_with r_err].
      * unfold left_in, size. cbn. repeat split; lia.
      * unfold left_in, size. cbn [r_chunks concat fold_right]. repeat split; [lia|]. intros _. lia.
    + apply Nat.leb_gt in L. unfold left_in, size. cbn [r_chunks r_with r_err concat fold_right].
      rewrite app_assoc, firstn_skipn, firstn_length, skipn_length. repeat split; lia.
Qed.

Lemma ends_cr_spec q : ends_cr q = true -> exists q', q = q' ++ [CR].
Proof.
  unfold ends_cr. destruct (rev q) as [|c r] eqn:E; [discriminate|]. intros H. apply beqc_eq in H. subst.
  exists (rev r). rewrite <- (rev_involutive q), E. reflexivity.
Qed.
Lemma ends_crlf_spec q : ends_crlf q = true -> exists q', q = q' ++ [CR; LF].
Proof.
  unfold ends_crlf. destruct (rev q) as [|c [|d r]] eqn:E; try discriminate. intros H.
  apply andb_true_iff in H as [H1 H2]. apply beqc_eq in H1, H2. subst.
  exists (rev r). rewrite <- (rev_involutive q), E. cbn [rev]. rewrite <- app_assoc. reflexivity.
Qed.

Lemma unf_read_plain fuel buf r L pre : r_with r = false -> r_err r = REOF -> length buf <= 2 -> 2 <= L ->
  find_fold (pre ++ buf ++ left_in r) = None ->
  exists d e buf' r', unf_read (S (S fuel)) buf r L = Ok (d, e, buf', r') /\
    r_with r' = false /\ r_err r' = REOF /\ length buf' <= 2 /\
    buf ++ left_in r = d ++ buf' ++ left_in r' /\
    match e with
    | Some x => x = REOF /\ buf' ++ left_in r' = []
    | None => length buf' + size r' + 1 <= length buf + size r \/ buf = [] /\ size r = 0
    end.
Proof.
  intros W E B LL NF. rewrite unf_read_step. rewrite Nat.min_r by lia. rewrite firstn_all, skipn_all.
  set (FILL := fill (S (S fuel)) buf (L - length buf) r).
  assert (HF : exists q e r1, FILL = Ok (q, e, r1) /\ r_with r1 = false /\ r_err r1 = REOF /\
     buf ++ left_in r = q ++ left_in r1 /\
     match e with
     | Some x => x = REOF /\ left_in r1 = []
     | None => size r1 + 3 <= size r \/ (buf = q /\ r1 = r /\ length buf = L)
     end).
  { unfold FILL. cbn [fill]. destruct (L - length buf =? 0) eqn:Z.
    - apply Nat.eqb_eq in Z. exists buf, None, r. repeat split; auto. right. repeat split; lia.
    - apply Nat.eqb_neq in Z. pose proof (rd_spec r (L - length buf) W E) as R.
      destruct (rd r (L - length buf)) as [[d e] r1]. destruct R as (R1 & R2 & R3 & R4 & R5).
      assert (ND : find_fold d = None).
      { apply (no_fold_sub (pre ++ buf) d (left_in r1)). rewrite <- app_assoc, <- R1. exact NF. }
      rewrite remove_folds_none by exact ND. cbn [bind]. cbn [Nat.ltb Nat.leb]. rewrite Nat.sub_0_r, firstn_all.
      cbn [app]. destruct e as [x|].
      + destruct R5 as (-> & -> & R6). exists (buf ++ []), (Some REOF), r1. rewrite app_nil_r, R1.
        repeat split; auto. rewrite R1 in R6. cbn [app] in R6. exact R6.
      + cbn [fill Nat.eqb]. exists (buf ++ d), None, r1. rewrite R1, app_assoc. repeat split; auto.
        left. apply R5. lia. }
  destruct HF as (q & e & r1 & -> & W1 & E1 & C1 & P1). cbn [bind].
  destruct e as [x|].
  { destruct P1 as [-> P1]. exists q, (Some REOF), [], r1. repeat split; auto; try (cbn; lia).
    }
  assert (DONE : exists d e buf' r', (Ok (q, None, [], r1) : res (bytes * option rerr * bytes * rdr))
     = Ok (d, e, buf', r') /\
    r_with r' = false /\ r_err r' = REOF /\ length buf' <= 2 /\
    buf ++ left_in r = d ++ buf' ++ left_in r' /\
    match e with
    | Some x => x = REOF /\ buf' ++ left_in r' = []
    | None => length buf' + size r' + 1 <= length buf + size r \/ buf = [] /\ size r = 0
    end).
  { exists q, None, [], r1. repeat split; auto.
    left. cbn [length]. destruct P1 as [P1|(-> & -> & P1)]; lia. }
  cbn [look].
  destruct (ends_cr q) eqn:C.
  - apply ends_cr_spec in C as (q' & ->). pose proof (rd_spec r1 2 W1 E1) as R.
    destruct (rd r1 2) as [[d e] r2]. destruct R as (R1 & R2 & R3 & R4 & R5).
    assert (NX : beq d [LF; SP] = false).
    { apply beq_neq. intros ->. apply (find_fold_has (pre ++ buf ++ left_in r)); [|exact NF].
      rewrite C1, R1. exists (pre ++ q'), (left_in r2). rewrite <- !app_assoc. reflexivity. }
    rewrite NX.
    assert (G : exists d0 e0 buf' r', (Ok (q' ++ [CR], e, d, r2) : res (bytes * option rerr * bytes * rdr)) = Ok (d0, e0, buf', r') /\
      r_with r' = false /\ r_err r' = REOF /\ length buf' <= 2 /\
      buf ++ left_in r = d0 ++ buf' ++ left_in r' /\
      match e0 with
      | Some x => x = REOF /\ buf' ++ left_in r' = []
      | None => length buf' + size r' + 1 <= length buf + size r \/ buf = [] /\ size r = 0
      end).
    { exists (q' ++ [CR]), e, d, r2. rewrite C1, R1. repeat split; auto. destruct e as [x|].
      - destruct R5 as (-> & -> & R6). split; [reflexivity|]. rewrite <- R1. exact R6.
      - left. specialize (R5 ltac:(lia)). destruct P1 as [P1|(-> & -> & P1)]; lia. }
    destruct (length d <? 2); rewrite counted_all; exact G.
  - destruct (ends_crlf q) eqn:C2; [|rewrite counted_all; exact DONE].
    apply ends_crlf_spec in C2 as (q' & ->). pose proof (rd_spec r1 1 W1 E1) as R.
    destruct (rd r1 1) as [[d e] r2]. destruct R as (R1 & R2 & R3 & R4 & R5).
    assert (NX : beq d [SP] = false).
    { apply beq_neq. intros ->. apply (find_fold_has (pre ++ buf ++ left_in r)); [|exact NF].
      rewrite C1, R1. exists (pre ++ q'), (left_in r2). rewrite <- !app_assoc. reflexivity. }
    rewrite NX.
    assert (G : exists d0 e0 buf' r', (Ok (q' ++ [CR; LF], e, d, r2) : res (bytes * option rerr * bytes * rdr)) = Ok (d0, e0, buf', r') /\
      r_with r' = false /\ r_err r' = REOF /\ length buf' <= 2 /\
      buf ++ left_in r = d0 ++ buf' ++ left_in r' /\
      match e0 with
      | Some x => x = REOF /\ buf' ++ left_in r' = []
      | None => length buf' + size r' + 1 <= length buf + size r \/ buf = [] /\ size r = 0
      end).
    { exists (q' ++ [CR; LF]), e, d, r2. rewrite C1, R1. repeat split; auto; try lia. destruct e as [x|].
      - destruct R5 as (-> & -> & R6). split; [reflexivity|]. rewrite <- R1. exact R6.
      - left. specialize (R5 ltac:(lia)). destruct P1 as [P1|(-> & -> & P1)]; lia. }
    destruct (length d <? 1); rewrite counted_all; exact G.
Qed.

Lemma size_0 r L : size r = 0 -> r_with r = false -> r_err r = REOF -> 1 <= L -> rd r L = ([], Some REOF, r).
Proof. destruct r as [[|c cs] w e]; cbn; [intros _ _ -> _; reflexivity|unfold size; cbn; lia]. Qed.

Lemma drain_plain sizes : (forall i, 2 <= sizes i) -> forall fuel i buf r acc,
  r_with r = false -> r_err r = REOF -> length buf <= 2 ->
  find_fold (acc ++ buf ++ left_in r) = None -> length buf + size r + 2 <= fuel ->
  drain fuel sizes i buf r acc = Ok (acc ++ buf ++ left_in r, REOF).
Proof.
  intros P. induction fuel as [|fuel IH]; intros i buf r acc W E B NF F; [lia|].
  destruct fuel as [|fuel]; [lia|].
  destruct (unf_read_plain fuel buf r (sizes i) acc W E B (P i) NF) as (d & e & buf' & r' & R & W' & E' & B' & C & M).
  change (drain (S (S fuel)) sizes i buf r acc) with
    (let! (d, e, buf', r') := unf_read (S (S fuel)) buf r (sizes i) in
     match e with Some e => Ok (acc ++ d, e) | None => drain (S fuel) sizes (S i) buf' r' (acc ++ d) end).
  rewrite R. cbn [bind]. destruct e as [x|].
  - destruct M as [-> M]. rewrite C, M, app_nil_r. reflexivity.
  - assert (M' : length buf' + size r' + 1 <= length buf + size r).
    { destruct M as [M|[-> M]]; [exact M|]. exfalso. pose proof (P i) as Pi.
      rewrite unf_read_step in R. cbn [length] in R. rewrite Nat.min_0_r, Nat.sub_0_r in R. cbn [firstn fill] in R.
      replace (sizes i =? 0) with false in R by (symmetry; apply Nat.eqb_neq; lia).
      rewrite (size_0 r (sizes i) M W E ltac:(lia)) in R. rewrite remove_folds_none in R by reflexivity.
      cbn [bind length Nat.ltb Nat.leb] in R. discriminate R. }
    rewrite IH; auto.
    + rewrite <- app_assoc, C. reflexivity.
    + rewrite <- app_assoc, <- C. exact NF.
    + lia.
Qed.

Theorem drain_fold_free chunks sizes : (forall i, 2 <= sizes i) -> find_fold (concat chunks) = None ->
  exists n, forall fuel, n <= fuel ->
    drain fuel sizes 0 [] (Rdr chunks false REOF) [] = Ok (concat chunks, REOF).
Proof.
  intros P NF. exists (size (Rdr chunks false REOF) + 2). intros fuel F.
  rewrite (drain_plain sizes P fuel 0 [] (Rdr chunks false REOF) []); auto; cbn [length]; lia.
Qed.

(** ** More fuel gives the same result *)

Lemma remove_folds_mono fuel : forall fuel' front p k x, fuel <= fuel' ->
  remove_folds fuel front p k = Ok x -> remove_folds fuel' front p k = Ok x.
Proof.
  induction fuel as [|fuel IH]; intros fuel' front p k x L H; [discriminate|].
  destruct fuel' as [|fuel']; [lia|]. cbn [remove_folds] in *.
  destruct (find_fold p); [|exact H]. apply IH; [lia|exact H].
Qed.

Lemma fill_mono fuel : forall fuel' out free r x, fuel <= fuel' ->
  fill fuel out free r = Ok x -> fill fuel' out free r = Ok x.
Proof.
  induction fuel as [|fuel IH]; intros fuel' out free r x L H; [discriminate|].
  destruct fuel' as [|fuel']; [lia|]. cbn [fill] in *.
  destruct (free =? 0); [exact H|]. destruct (rd r free) as [[d e] r'].
  apply bind_ok in H as ([[front p] k] & H1 & H2).
  rewrite (remove_folds_mono (S fuel) (S fuel') [] d 0 _ ltac:(lia) H1). cbn [bind].
  destruct (length p <? k); [exact H2|]. destruct e; [exact H2|]. apply IH; [lia|exact H2].
Qed.

Lemma unf_call_look_mono fuel :
  (forall fuel' buf r L x, fuel <= fuel' -> unf_call fuel buf r L = Ok x -> unf_call fuel' buf r L = Ok x) /\
  (forall fuel' q m buf r x, fuel <= fuel' -> look fuel q m buf r = Ok x -> look fuel' q m buf r = Ok x).
Proof.
  induction fuel as [|fuel [IH1 IH2]]; split; intros fuel'; try discriminate.
  - intros buf r L x LE H. destruct fuel' as [|fuel']; [lia|]. cbn [unf_call] in *.
    apply bind_ok in H as ([[q e] r'] & H1 & H2).
    rewrite (fill_mono (S fuel) (S fuel') _ _ _ _ ltac:(lia) H1). cbn [bind].
    destruct e; [exact H2|]. apply IH2; [lia|exact H2].
  - intros q m buf r x LE H. destruct fuel' as [|fuel']; [lia|]. cbn [look] in *.
    destruct (ends_cr q).
    + destruct (rd r 2) as [[d e] r1]. destruct (length d <? 2); [exact H|].
      destruct (beq d [LF; SP]); [|exact H]. destruct e; [exact H|].
      destruct (rd r1 1) as [[d2 e2] r2]. destruct e2; [exact H|]. apply IH2; [lia|exact H].
    + destruct (ends_crlf q); [|exact H]. destruct (rd r 1) as [[d e] r1]. destruct (length d <? 1); [exact H|].
      destruct (beq d [SP]); [|exact H]. destruct e; [exact H|].
      apply bind_ok in H as ([[[[d2 n2] e2] b2] r2] & H1 & H2).
      rewrite (IH1 fuel' _ _ _ _ ltac:(lia) H1). cbn [bind].
      destruct e2; [exact H2|]. apply IH2; [lia|exact H2].
Qed.

Lemma counted_ok x y : counted x = Ok y -> exists z, x = Ok z /\ counted (Ok z) = Ok y.
Proof. destruct x as [z| | |]; cbn [counted bind]; try discriminate. intros H. exists z. auto. Qed.
Lemma unf_read_look_mono fuel :
  (forall fuel' buf r L x, fuel <= fuel' -> unf_read fuel buf r L = Ok x -> unf_read fuel' buf r L = Ok x) /\
  (forall fuel' q m buf r x, fuel <= fuel' -> look fuel q m buf r = Ok x -> look fuel' q m buf r = Ok x).
Proof.
  split; [|apply unf_call_look_mono]. unfold unf_read. intros fuel' buf r L x LE H. apply counted_ok in H as (z & H & C).
  rewrite (proj1 (unf_call_look_mono fuel) fuel' _ _ _ _ LE H). exact C.
Qed.

Lemma drain_mono fuel : forall fuel' sizes i buf r acc x, fuel <= fuel' ->
  drain fuel sizes i buf r acc = Ok x -> drain fuel' sizes i buf r acc = Ok x.
Proof.
  induction fuel as [|fuel IH]; intros fuel' sizes i buf r acc x L H; [discriminate|].
  destruct fuel' as [|fuel']; [lia|].
  change (drain (S fuel) sizes i buf r acc) with
    (let! (d, e, buf', r') := unf_read (S fuel) buf r (sizes i) in
     match e with Some e => Ok (acc ++ d, e) | None => drain fuel sizes (S i) buf' r' (acc ++ d) end) in H.
  change (drain (S fuel') sizes i buf r acc) with
    (let! (d, e, buf', r') := unf_read (S fuel') buf r (sizes i) in
     match e with Some e => Ok (acc ++ d, e) | None => drain fuel' sizes (S i) buf' r' (acc ++ d) end).
  apply bind_ok in H as ([[[d e] b] r'] & H1 & H2).
  rewrite (proj1 (unf_read_look_mono (S fuel)) (S fuel') _ _ _ _ L H1). cbn [bind].
  destruct e; [exact H2|]. apply IH; [lia|exact H2].
Qed.

(** ** Reading ends when no single piece has a fold in it *)

Definition clean (r : rdr) : Prop := Forall (fun c => find_fold c = None) (r_chunks r).

Lemma rd_clean r k : clean r ->
  let '(d, e, r') := rd r k in
  clean r' /\ find_fold d = None /\ length d + size r' <= size r /\ length d <= k /\
  (e = None -> 1 <= k -> length d + size r' + 1 <= size r /\ size r' + 3 <= size r).
Proof.
  destruct r as [[|c cs] w e]; unfold rd, clean, size; cbn [r_chunks r_with r_err]; intros C.
  - cbn. repeat split; auto; discriminate || lia.
  - inversion C as [|? ? C1 C2]; subst. destruct (length c <=? k) eqn:L.
    + apply Nat.leb_le in L. cbn [r_chunks fold_right]. repeat split; auto; lia.
    + apply Nat.leb_gt in L. cbn [r_chunks fold_right].
      assert (N1 : find_fold (firstn k c) = None).
      { apply (no_fold_sub [] (firstn k c) (skipn k c)). cbn [app]. rewrite firstn_skipn. exact C1. }
      assert (N2 : find_fold (skipn k c) = None).
      { apply (no_fold_sub (firstn k c) (skipn k c) []). rewrite app_nil_r, firstn_skipn. exact C1. }
      rewrite firstn_length, skipn_length. repeat split; auto; lia.
Qed.

Lemma reads_end fuel :
  (forall buf r L, clean r -> 1 <= L -> size r + 3 <= fuel ->
     exists d n e buf' r', unf_call fuel buf r L = Ok (d, n, e, buf', r') /\ clean r' /\ size r' <= size r /\
       (e = None -> length buf' + size r' + 1 <= length buf + size r)) /\
  (forall q m buf r, clean r -> size r + 2 <= fuel ->
     exists d n e buf' r', look fuel q m buf r = Ok (d, n, e, buf', r') /\ clean r' /\ size r' <= size r /\
       length buf' + size r' <= length buf + size r).
Proof.
  induction fuel as [|fuel [IH1 IH2]]; split; intros; try lia.
  - cbn [unf_call]. set (n := min L (length buf)).
    assert (HF : exists q e r1, fill (S fuel) (firstn n buf) (L - n) r = Ok (q, e, r1) /\ clean r1 /\
       size r1 <= size r /\ (e = None -> length (skipn n buf) + size r1 + 1 <= length buf + size r)).
    { cbn [fill]. destruct (L - n =? 0) eqn:Z.
      - apply Nat.eqb_eq in Z. exists (firstn n buf), None, r. repeat split; auto.
        intros _. rewrite skipn_length. lia.
      - apply Nat.eqb_neq in Z. pose proof (rd_clean r (L - n) H) as R.
        destruct (rd r (L - n)) as [[d e] r1]. destruct R as (R1 & R2 & R3 & R4 & R5).
        rewrite remove_folds_none by exact R2. cbn [bind]. cbn [Nat.ltb Nat.leb]. rewrite Nat.sub_0_r, firstn_all.
        destruct e as [x|].
        + eexists _, _, _. split; [reflexivity|]. repeat split; auto; [lia|discriminate].
        + destruct fuel as [|fuel]; [lia|]. cbn [fill Nat.eqb]. eexists _, _, _. split; [reflexivity|].
          specialize (R5 eq_refl ltac:(lia)). repeat split; auto; [lia|]. intros _. rewrite skipn_length. lia. }
    destruct HF as (q & e & r1 & -> & C1 & S1 & P1). cbn [bind]. destruct e as [x|].
    + eexists _, _, _, _, _. split; [reflexivity|]. repeat split; auto; discriminate.
    + destruct (IH2 q (Z.of_nat (length q)) (skipn n buf) r1 C1 ltac:(lia)) as (d & k & e & b & r2 & E & C2 & S2 & P2).
      exists d, k, e, b, r2. split; [exact E|]. specialize (P1 eq_refl). repeat split; auto; [lia|]. intros _. lia.
  - cbn [look].
    assert (FIN : forall d e r1, clean r1 -> length d + size r1 <= size r ->
       forall x k, exists d0 n0 e0 buf' r', (Ok (x, k, e, d, r1) : res (bytes * Z * option rerr * bytes * rdr)) = Ok (d0, n0, e0, buf', r') /\
        clean r' /\ size r' <= size r /\ length buf' + size r' <= length buf + size r).
    { intros d e r1 C1 S1 x k. exists x, k, e, d, r1. repeat split; auto; lia. }
    destruct (ends_cr q).
    + pose proof (rd_clean r 2 H) as R. destruct (rd r 2) as [[d e] r1]. destruct R as (R1 & R2 & R3 & R4 & R5).
      destruct (length d <? 2); [apply FIN; auto|]. destruct (beq d [LF; SP]); [|apply FIN; auto].
      destruct e as [x|]; [apply FIN; auto|]. specialize (R5 eq_refl ltac:(lia)).
      pose proof (rd_clean r1 1 R1) as Q. destruct (rd r1 1) as [[d2 e2] r2]. destruct Q as (Q1 & Q2 & Q3 & Q4 & Q5).
      destruct e2 as [x|]; [apply FIN; auto; cbn [length]; lia|].
      destruct (IH2 (put q (length q - 1) d2) (m - 1 + Z.of_nat (length d2))%Z [] r2 Q1 ltac:(lia)) as (d0 & k0 & e0 & b0 & r0 & E & C0 & S0 & P0).
      exists d0, k0, e0, b0, r0. cbn [length] in P0. repeat split; auto; lia.
    + destruct (ends_crlf q).
      * pose proof (rd_clean r 1 H) as R. destruct (rd r 1) as [[d e] r1]. destruct R as (R1 & R2 & R3 & R4 & R5).
        destruct (length d <? 1); [apply FIN; auto|]. destruct (beq d [SP]); [|apply FIN; auto].
        destruct e as [x|]; [apply FIN; auto|]. specialize (R5 eq_refl ltac:(lia)).
        destruct (IH1 d r1 2 R1 ltac:(lia) ltac:(lia)) as (d2 & n2 & e2 & b2 & r2 & E & C2 & S2 & P2).
        rewrite E. cbn [bind]. destruct e2 as [x|]; [apply FIN; auto; cbn [length]; lia|].
        destruct (IH2 (put q (length q - 2) d2) (m - 2 + n2)%Z [] r2 C2 ltac:(lia)) as (d0 & k0 & e0 & b0 & r0 & E0 & C0 & S0 & P0).
        exists d0, k0, e0, b0, r0. cbn [length] in P0. repeat split; auto; lia.
      * eexists _, _, _, _, _. split; [reflexivity|]. repeat split; auto; lia.
Qed.

Lemma drain_ends sizes : (forall i, 1 <= sizes i) -> forall fuel i buf r acc,
  clean r -> length buf + size r + 3 <= fuel ->
  drain fuel sizes i buf r acc <> NoFuel.
Proof.
  intros P. induction fuel as [|fuel IH]; intros i buf r acc C F; [lia|].
  change (drain (S fuel) sizes i buf r acc) with
    (let! (d, e, buf', r') := unf_read (S fuel) buf r (sizes i) in
     match e with Some e => Ok (acc ++ d, e) | None => drain fuel sizes (S i) buf' r' (acc ++ d) end).
  destruct (proj1 (reads_end (S fuel)) buf r (sizes i) C (P i) ltac:(lia)) as (d & m & e & b & r' & E & C' & S' & P').
  unfold unf_read. rewrite E. unfold counted. cbn [bind]. destruct (m <? 0)%Z; [discriminate|]. cbn [bind]. destruct e as [x|]; [discriminate|].
  specialize (P' eq_refl). apply IH; [exact C'|lia].
Qed.

Theorem drain_terminates chunks w sizes e : (forall i, 1 <= sizes i) -> Forall (fun c => find_fold c = None) chunks ->
  exists n, forall fuel, n <= fuel -> drain fuel sizes 0 [] (Rdr chunks w e) [] <> NoFuel.
Proof.
  intros P C. set (r := Rdr chunks w e). exists (size r + 3). intros fuel F. apply drain_ends; cbn [length]; auto.
Qed.
