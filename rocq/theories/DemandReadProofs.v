(** The unfolder does not panic, and looks one byte ahead. *)
From Coq Require Import String Ascii ZArith Bool List Arith Lia.
From Verif Require Import Base Lib Utf8 Strtok Tokeniser SpecLines SpecContent TokeniserProofs GoTime Sections Codec Unfolder UnfolderProofs ReadersProofs StartProofs TotalProofs OnDemand DemandProofs DemandEndProofs SpecDemand.
Import ListNotations.

Lemma remove_folds_safe fuel d front p k : remove_folds fuel [] d 0 = Ok (front, p, k) -> k <= length p.
Proof.
  intros Q. assert (G : good_tail d).
  { destruct (find_fold d) eqn:F; [|left; exact F]. right. intros B. rewrite remove_folds_hangs in Q; [discriminate Q|apply has_fold_find; congruence|exact B]. }
  destruct (remove_folds_text (S (max fuel (length d))) d G ltac:(lia)) as (f' & p' & k' & Q' & L & _).
  rewrite (remove_folds_mono fuel (S (max fuel (length d))) _ _ _ _ ltac:(lia) Q) in Q'. apply Ok_inj in Q'. injection Q' as -> -> ->. exact L.
Qed.
Lemma remove_folds_no_panic fuel : forall front p k, remove_folds fuel front p k <> Panic.
Proof. induction fuel as [|fuel IH]; intros front p k; [discriminate|]. cbn [remove_folds]. destruct (find_fold p); [apply IH|discriminate]. Qed.
Lemma fill_no_panic fuel : forall out free r, fill fuel out free r <> Panic.
Proof.
  induction fuel as [|fuel IH]; intros out free r; [discriminate|]. cbn [fill]. destruct (free =? 0); [discriminate|]. destruct (rd r free) as [[d e] r'].
  destruct (remove_folds (S fuel) [] d 0) as [[[front p] k]| | |] eqn:Q; cbn [bind]; try discriminate; [|exfalso; exact (remove_folds_no_panic _ _ _ _ Q)].
  apply remove_folds_safe in Q. destruct (Nat.ltb_spec (length p) k); [lia|]. destruct e; [discriminate|apply IH].
Qed.
Lemma read_look_no_panic fuel : (forall buf r L, unf_call fuel buf r L <> Panic) /\ (forall q m buf r, look fuel q m buf r <> Panic).
Proof.
  induction fuel as [|fuel [IH1 IH2]]; split; intros; try discriminate.
  - cbn [unf_call]. pose proof (fill_no_panic (S fuel) (firstn (min L (length buf)) buf) (L - min L (length buf)) r) as F. destruct (fill _ _ _ _) as [[[q e] r']| | |]; cbn [bind]; try discriminate; [|congruence].
    destruct e; [discriminate|apply IH2].
  - cbn [look]. destruct (ends_cr q).
    + destruct (rd r 2) as [[d e] r1]. destruct (length d <? 2); [discriminate|]. destruct (beq d [LF; SP]); [|discriminate]. destruct e; [discriminate|]. destruct (rd r1 1) as [[d2 e2] r2]. destruct e2; [discriminate|apply IH2].
    + destruct (ends_crlf q); [|discriminate]. destruct (rd r 1) as [[d e] r1]. destruct (length d <? 1); [discriminate|]. destruct (beq d [SP]); [|discriminate]. destruct e; [discriminate|].
      pose proof (IH1 d r1 2) as U. destruct (unf_call fuel d r1 2) as [[[[[d2 n2] e2] b2] r2]| | |]; cbn [bind]; try discriminate; [|congruence]. destruct e2; [discriminate|apply IH2].
Qed.
Lemma unf_read_panic_mono fuel fuel' buf r L : fuel <= fuel' -> unf_read fuel buf r L = Panic -> unf_read fuel' buf r L = Panic.
Proof.
  intros LE. unfold unf_read. destruct (unf_call fuel buf r L) as [z| | |] eqn:U; cbn [counted bind]; try discriminate; [|contradiction (proj1 (read_look_no_panic fuel) _ _ _ U)].
  rewrite (proj1 (unf_call_look_mono fuel) fuel' _ _ _ _ LE U). trivial.
Qed.
Lemma drain_panic_mono sizes : forall fuel fuel' i buf r acc, fuel <= fuel' -> drain fuel sizes i buf r acc = Panic -> drain fuel' sizes i buf r acc = Panic.
Proof.
  induction fuel as [|fuel IH]; intros fuel' i buf r acc LE H; [discriminate|]. destruct fuel' as [|fuel']; [lia|]. rewrite drain_step in H |- *.
  destruct (unf_read (S fuel) buf r (sizes i)) as [[[[d e] b] r']| | |] eqn:U; cbn [bind] in H; try discriminate.
  - rewrite (proj1 (unf_read_look_mono (S fuel)) (S fuel') _ _ _ _ LE U). cbn [bind]. destruct e; [discriminate|]. apply IH; [lia|exact H].
  - rewrite (unf_read_panic_mono (S fuel) (S fuel') _ _ _ LE U). reflexivity.
Qed.

(** A reader that always gives something or an error never makes the count too small. *)
Definition full (r : rdr) : Prop := never_empty (r_chunks r).
Lemma rd_full r k d e r' : full r -> rd r k = (d, e, r') -> 1 <= k -> full r' /\ length d <= k /\ (e = None -> 1 <= length d).
Proof.
  destruct r as [[|c cs] w x]; unfold rd, full, never_empty; cbn [r_chunks r_with r_err]; intros F Q K.
  - injection Q as <- <- <-. cbn. repeat split; auto; [lia|discriminate].
  - apply Forall_cons_iff in F as [Fc Fs]. destruct (Nat.leb_spec (length c) k); injection Q as <- <- <-; cbn [r_chunks].
    + repeat split; auto. intros _. destruct c; [contradiction|cbn [length]; lia].
    + rewrite firstn_length. repeat split; [|lia|lia]. constructor; [|exact Fs]. intros Z. apply (f_equal (@length _)) in Z. rewrite skipn_length in Z. cbn [length] in Z. lia.
Qed.
Lemma fill_full fuel : forall out free r q e r', full r -> fill fuel out free r = Ok (q, e, r') -> full r'.
Proof.
  induction fuel as [|fuel IH]; intros out free r q e r' F H; [discriminate|]. cbn [fill] in H. destruct (Nat.eqb_spec free 0); [injection H as _ _ <-; exact F|].
  destruct (rd r free) as [[d e1] r1] eqn:R. destruct (rd_full _ _ _ _ _ F R ltac:(lia)) as (F1 & _ & _). apply bind_ok in H as ([[front p] k] & _ & H). destruct (length p <? k); [discriminate|].
  destruct e1; [injection H as _ _ <-; exact F1|]. exact (IH _ _ _ _ _ _ F1 H).
Qed.
Lemma put_length q i d : i + length d = length q -> length (put q i d) = length q.
Proof. intros H. unfold put. rewrite !app_length, firstn_length, skipn_length. lia. Qed.
Lemma counts_full fuel :
  (forall buf r L q m e b r', full r -> unf_call fuel buf r L = Ok (q, m, e, b, r') ->
     full r' /\ (0 <= m)%Z /\ (e = None -> m = Z.of_nat (length q) /\ (length buf = 1 -> L = 2 -> length q = 2))) /\
  (forall q m buf r q' m' e b r', full r -> m = Z.of_nat (length q) -> look fuel q m buf r = Ok (q', m', e, b, r') ->
     full r' /\ (0 <= m')%Z /\ (e = None -> m' = Z.of_nat (length q') /\ length q' = length q)).
Proof.
  induction fuel as [|fuel [IH1 IH2]]; split; try discriminate.
  - intros buf r L q m e b r' F H. cbn [unf_call] in H. apply bind_ok in H as ([[q1 e1] r1] & H1 & H2). pose proof (fill_full _ _ _ _ _ _ _ F H1) as F1. destruct e1.
    + injection H2 as <- <- <- _ <-. repeat split; auto; try lia; discriminate.
    + destruct (IH2 _ _ _ _ _ _ _ _ _ F1 eq_refl H2) as (F2 & P & N). repeat split; auto. { destruct (N H) as [N1 _]. exact N1. }
      intros B L2. destruct (N H) as [_ ->]. clear - F H1 B L2. subst L. rewrite B in H1. change (min 2 1) with 1 in H1. change (2 - 1) with 1 in H1. cbn [fill Nat.eqb] in H1.
      destruct (rd r 1) as [[d e] r2] eqn:R. destruct (rd_full _ _ _ _ _ F R ltac:(lia)) as (_ & L1 & LN).
      rewrite remove_folds_none in H1 by (destruct d as [|x [|y d]]; cbn [length] in L1; try reflexivity; lia). cbn [bind] in H1. cbn [Nat.ltb Nat.leb] in H1. destruct e; [discriminate|]. destruct fuel as [|fuel]; [discriminate|]. cbn [fill Nat.eqb] in H1.
      injection H1 as <- _. specialize (LN eq_refl). destruct buf as [|x [|y buf]]; try discriminate B. rewrite Nat.sub_0_r, firstn_all. cbn [firstn app length]. lia.
  - intros q m buf r q' m' e b r' F M H. cbn [look] in H. destruct (ends_cr q) eqn:C.
    + apply ends_cr_spec in C as (q0 & C). assert (LQ : 1 <= length q) by (rewrite C, app_length; cbn [length]; lia). clear C.
      destruct (rd r 2) as [[d e1] r1] eqn:R. destruct (rd_full _ _ _ _ _ F R ltac:(lia)) as (F1 & L1 & N1).
      destruct (length d <? 2); [injection H as <- <- <- _ <-; repeat split; auto; lia|]. destruct (beq d [LF; SP]); [|injection H as <- <- <- _ <-; repeat split; auto; lia].
      destruct e1; [injection H as <- <- <- _ <-; repeat split; auto; try lia; discriminate|].
      destruct (rd r1 1) as [[d2 e2] r2] eqn:R2. destruct (rd_full _ _ _ _ _ F1 R2 ltac:(lia)) as (F2 & L2 & N2).
      destruct e2; [injection H as <- <- <- _ <-; repeat split; auto; try lia; discriminate|]. specialize (N2 eq_refl).
      assert (LP : length (put q (length q - 1) d2) = length q) by (apply put_length; lia).
      assert (MM : (m - 1 + Z.of_nat (length d2) = Z.of_nat (length (put q (length q - 1) d2)))%Z) by (rewrite LP; lia). destruct (IH2 _ _ _ _ _ _ _ _ _ F2 MM H) as (F3 & P3 & N3). rewrite LP in N3. auto.
    + destruct (ends_crlf q) eqn:C2; [|injection H as <- <- <- _ <-; repeat split; auto; lia].
      apply ends_crlf_spec in C2 as (q0 & C2). assert (LQ : 2 <= length q) by (rewrite C2, app_length; cbn [length]; lia). clear C C2.
      destruct (rd r 1) as [[d e1] r1] eqn:R. destruct (rd_full _ _ _ _ _ F R ltac:(lia)) as (F1 & L1 & N1).
      destruct (Nat.ltb_spec (length d) 1); [injection H as <- <- <- _ <-; repeat split; auto; lia|]. destruct (beq d [SP]); [|injection H as <- <- <- _ <-; repeat split; auto; lia].
      destruct e1; [injection H as <- <- <- _ <-; repeat split; auto; try lia; discriminate|].
      apply bind_ok in H as ([[[[q1 n1] e2] b2] r2] & H1 & H2). destruct (IH1 _ _ _ _ _ _ _ _ F1 H1) as (F2 & P2 & N2).
      destruct e2; [injection H2 as <- <- <- _ <-; repeat split; auto; try lia; discriminate|]. destruct (N2 eq_refl) as [E2 N3]. specialize (N3 ltac:(lia) eq_refl).
      assert (LP : length (put q (length q - 2) q1) = length q) by (apply put_length; lia).
      assert (MM : (m - 2 + n1 = Z.of_nat (length (put q (length q - 2) q1)))%Z) by (rewrite LP; lia). destruct (IH2 _ _ _ _ _ _ _ _ _ F2 MM H2) as (F4 & P4 & N4). rewrite LP in N4. auto.
Qed.
Lemma drain_no_panic sizes : forall fuel i buf r acc, full r -> drain fuel sizes i buf r acc <> Panic.
Proof.
  induction fuel as [|fuel IH]; intros i buf r acc F; [discriminate|]. rewrite drain_step. pose proof (proj1 (read_look_no_panic (S fuel)) buf r (sizes i)) as U. unfold unf_read.
  destruct (unf_call (S fuel) buf r (sizes i)) as [[[[[d m] e] b] r']| | |] eqn:Q; cbn [counted bind]; try discriminate; [|congruence].
  destruct (proj1 (counts_full (S fuel)) _ _ _ _ _ _ _ _ F Q) as (F' & P & _). rewrite (proj2 (Z.ltb_ge _ _)) by exact P. cbn [bind]. destruct e; [discriminate|apply IH; exact F'].
Qed.
(** ** Nothing and no error, again and again *)
Lemma look_stutters x y cs w e : [x; y] <> [LF; SP] -> forall n fuel q m, n < fuel -> ends_cr q = true ->
  exists e' b r', look fuel q m [] (Rdr (stutters n ++ [x; y] :: cs) w e) = Ok (q, m - Z.of_nat n, e', b, r')%Z.
Proof.
  intros X. induction n as [|n IH]; intros fuel q m L C; (destruct fuel as [|fuel]; [lia|]); cbn [look stutters app]; rewrite C.
  - cbn [rd r_chunks length Nat.leb r_with r_err Nat.ltb]. rewrite (proj2 (beq_neq _ _) X). rewrite Z.sub_0_r. eauto.
  - cbn [rd r_chunks length Nat.leb r_with r_err Nat.ltb]. change (beq [LF; SP] [LF; SP]) with true. cbv iota.
    assert (N : stutters n ++ [x; y] :: cs <> []) by (destruct n; discriminate). destruct (stutters n ++ [x; y] :: cs) eqn:Q; [contradiction|]. cbv iota beta.
    assert (P : put q (length q - 1) [] = q) by (unfold put; cbn [length app]; rewrite Nat.add_0_r; apply firstn_skipn). rewrite P.
    destruct (IH fuel q (m - 1 + Z.of_nat 0)%Z ltac:(lia) C) as (e' & b & r' & R). rewrite R. exists e', b, r'. replace (m - 1 + Z.of_nat 0 - Z.of_nat n)%Z with (m - Z.of_nat (S n))%Z by lia. reflexivity.
Qed.
Lemma read_stutters a x y cs w e L : find_fold (a ++ [CR]) = None -> [x; y] <> [LF; SP] -> length a + 1 = L -> forall fuel, L + 4 <= fuel ->
  unf_read fuel [] (Rdr ((a ++ [CR]) :: stutters (S L) ++ [x; y] :: cs) w e) L = Panic.
Proof.
  intros N X LA fuel F. do 3 (destruct fuel as [|fuel]; [lia|]). rewrite unf_read_step. cbn [length]. rewrite Nat.min_0_r, Nat.sub_0_r. cbn [firstn skipn].
  assert (LQ : length (a ++ [CR]) = L) by (rewrite app_length; cbn [length]; lia).
  cbn [fill]. destruct (Nat.eqb_spec L 0); [lia|]. unfold rd at 1. cbn [r_chunks r_with r_err]. destruct (Nat.leb_spec (length (a ++ [CR])) L); [|lia]. cbn [stutters app].
  rewrite remove_folds_none by exact N. cbn [bind]. cbn [Nat.ltb Nat.leb]. rewrite Nat.sub_0_r, firstn_all. cbn [app Nat.eqb bind].
  destruct (look_stutters x y cs w e X (S L) (S (S fuel)) (a ++ [CR]) (Z.of_nat (length (a ++ [CR]))) ltac:(lia) (ends_cr_snoc a CR)) as (e' & b & r' & R). cbn [stutters app] in R. rewrite R.
  unfold counted. cbn [bind]. rewrite (proj2 (Z.ltb_lt _ _)) by lia. reflexivity.
Qed.

Lemma drain_no_err sizes : forall fuel i buf r acc x, drain fuel sizes i buf r acc <> Err x.
Proof.
  assert (RF : forall fuel front p k x, remove_folds fuel front p k <> Err x) by (induction fuel as [|fuel IH]; intros; [discriminate|]; cbn [remove_folds]; destruct (find_fold p); [apply IH|discriminate]).
  assert (FI : forall fuel out free r x, fill fuel out free r <> Err x).
  { induction fuel as [|fuel IH]; intros out free r x; [discriminate|]. cbn [fill]. destruct (free =? 0); [discriminate|]. destruct (rd r free) as [[d e] r'].
    destruct (remove_folds (S fuel) [] d 0) as [[[front p] k]| | |] eqn:Q; cbn [bind]; try discriminate; [|exfalso; exact (RF _ _ _ _ _ Q)]. destruct (length p <? k); [discriminate|]. destruct e; [discriminate|apply IH]. }
  assert (RL : forall fuel, (forall buf r L x, unf_call fuel buf r L <> Err x) /\ (forall q m buf r x, look fuel q m buf r <> Err x)).
  { induction fuel as [|fuel [IH1 IH2]]; split; intros; try discriminate.
    - cbn [unf_call]. pose proof (FI (S fuel) (firstn (min L (length buf)) buf) (L - min L (length buf)) r) as F. destruct (fill _ _ _ _) as [[[q e] r']| | |]; cbn [bind]; try discriminate; [|exfalso; exact (F _ eq_refl)].
      destruct e; [discriminate|apply IH2].
    - cbn [look]. destruct (ends_cr q).
      + destruct (rd r 2) as [[d e] r1]. destruct (length d <? 2); [discriminate|]. destruct (beq d [LF; SP]); [|discriminate]. destruct e; [discriminate|]. destruct (rd r1 1) as [[d2 e2] r2]. destruct e2; [discriminate|apply IH2].
      + destruct (ends_crlf q); [|discriminate]. destruct (rd r 1) as [[d e] r1]. destruct (length d <? 1); [discriminate|]. destruct (beq d [SP]); [|discriminate]. destruct e; [discriminate|].
        pose proof (IH1 d r1 2) as U. destruct (unf_call fuel d r1 2) as [[[[[d2 n2] e2] b2] r2]| | |]; cbn [bind]; try discriminate; [|exfalso; exact (U _ eq_refl)]. destruct e2; [discriminate|apply IH2]. }
  induction fuel as [|fuel IH]; intros i buf r acc x; [discriminate|]. rewrite drain_step. pose proof (proj1 (RL (S fuel)) buf r (sizes i)) as U. unfold unf_read.
  destruct (unf_call (S fuel) buf r (sizes i)) as [[[[[d m] e] b] r']|y| |]; cbn [counted bind]; try discriminate; [|exfalso; exact (U _ eq_refl)]. destruct (m <? 0)%Z; cbn [bind]; [discriminate|]. destruct e; [discriminate|apply IH].
Qed.

(** ** One byte ahead *)
Lemma first_read t x c cs w e L : find_fold t = None -> 1 <= length t <= L -> (exists a, t = a ++ CRLF) -> x <> SP -> forall fuel,
  exists e1, unf_read (S (S (S fuel))) [] (Rdr (t :: (x :: c) :: cs) w e) L = Ok (t, e1, [x], snd (rd (Rdr ((x :: c) :: cs) w e) 1)).
Proof.
  intros N LT [a ->] X fuel. rewrite unf_read_step. cbn [length]. rewrite Nat.min_0_r, Nat.sub_0_r. cbn [firstn skipn].
  pose proof (line_ends a) as [EC EL]. set (t := a ++ CRLF) in *. cbn [fill]. destruct (Nat.eqb_spec L 0); [lia|].
  assert (RD : rd (Rdr (t :: (x :: c) :: cs) w e) L = (t, None, Rdr ((x :: c) :: cs) w e)).
  { unfold rd at 1. cbn [r_chunks r_with r_err]. destruct (Nat.leb_spec (length t) L); [reflexivity|lia]. }
  rewrite RD, remove_folds_none by exact N. cbn [bind]. cbn [Nat.ltb Nat.leb]. rewrite Nat.sub_0_r, firstn_all. cbn [app Nat.eqb bind].
  cbn [look]. rewrite EC, EL.
  assert (R1 : fst (fst (rd (Rdr ((x :: c) :: cs) w e) 1)) = [x]).
  { unfold rd. cbn [r_chunks r_with r_err length]. destruct c; reflexivity. }
  destruct (rd (Rdr ((x :: c) :: cs) w e) 1) as [[d1 e1] r1]. cbn [fst snd] in *. subst d1. cbn [length Nat.ltb Nat.leb]. replace (beq [x] [SP]) with false by (symmetry; apply beq_neq; congruence). rewrite counted_all. eauto.
Qed.

Section Main.
Context {env : Env}.
Definition there (r1 : rdr) (z : tkz) (o : ostate) : Prop := line_start z /\ o_z o = z /\ o_r o = r1.

Lemma decode_line f z : (exists c, decode_src f (SrcTok z) = Ok c) -> exists d z', get_phrase z = Ok (PhraseLine d, z').
Proof.
  intros [c Q]. unfold decode_src in Q. apply bind_ok in Q as ([ph s] & G & Q). cbn [get_ph] in G. apply bind_ok in G as ([p z'] & G & E). apply Ok_inj in E. injection E as <- <-.
  destruct p as [d|]; [eauto|discriminate Q].
Qed.
Lemma decode_start {St} (get : St -> _) f a b : get a = get b -> g_decode get f (GTok a) = g_decode get f (GTok b).
Proof. intros E. unfold g_decode. cbn [g_get]. rewrite E. reflexivity. Qed.

Theorem decode_looks_ahead t x c cs w e cal sizes : ~ has_fold t -> 1 <= length t <= sizes 0 -> (exists a, t = a ++ CRLF) -> x <> SP -> decode_bytes t = Ok cal ->
  returns (fun fuel => DecodeOD fuel sizes (Rdr (t :: (x :: c) :: cs) w e)) (Ok (cal, snd (rd (Rdr ((x :: c) :: cs) w e) 1))).
Proof.
  intros NF LT E X D. assert (N : find_fold t = None) by (destruct (find_fold t) eqn:F; [contradiction NF; apply has_fold_find; congruence|reflexivity]).
  set (r := Rdr (t :: (x :: c) :: cs) w e). set (r1 := snd (rd (Rdr ((x :: c) :: cs) w e) 1)).
  exists (5 + length t). intros fuel L. unfold decode_bytes in D. destruct (decode_line _ _ (ex_intro _ cal D)) as (d0 & z0 & G0). rewrite decode_conv in D. unfold DecodeOD.
  assert (LS : line_start (new_tokeniser t)).
  { exists t. split; [reflexivity|]. right. destruct E as [a ->]. exists (a ++ [CR]). rewrite <- app_assoc. reflexivity. }
  destruct (line_next _ _ _ LS G0) as [_ B0].
  assert (GO : forall M z o d z', there r1 z o -> get_phrase z = Ok (PhraseLine d, z') -> od_phrase (S M) sizes o = Ok (PhraseLine d, OState z' (o_i o) (o_buf o) (o_r o) (o_end o))).
  { intros M z o d z' (LS1 & Z & _) G. destruct (line_next _ _ _ LS1 G) as [_ B]. cbn [od_phrase]. rewrite Z, B. cbn [negb]. rewrite orb_true_r, G. reflexivity. }
  do 4 (destruct fuel as [|fuel]; [lia|]). destruct (first_read t x c cs w e (sizes 0) N LT E X (S fuel)) as (e1 & U). fold r r1 in U.
  set (o1 := OState (new_tokeniser t) 1 [x] r1 (is_some e1)). assert (T1 : there r1 (new_tokeniser t) o1) by (split; [exact LS|split; reflexivity]).
  rewrite (decode_start (od_phrase (S (S (S (S fuel)))) sizes) (S (S (S (S fuel)))) (od_start r) o1).
  2:{ rewrite (GO _ _ _ _ _ T1 G0). cbn [od_phrase od_start o_end o_z o_buf o_r o_i]. replace (blocks (new_tokeniser [])) with true by reflexivity. cbn [orb negb].
      rewrite U. cbn [bind]. change (feed (new_tokeniser []) t) with (new_tokeniser t). exact (GO (S (S fuel)) _ _ _ _ T1 G0). }
  assert (ST : forall z o, there r1 z o -> step get_phrase (od_phrase (S (S (S (S fuel)))) sizes) (there r1) (fun _ => True) z o).
  { intros z o T. unfold step. destruct (get_phrase z) as [[[data|] z']| | |] eqn:GP; auto. rewrite (GO _ _ _ _ _ T GP). eexists. split; [reflexivity|].
    destruct T as (LS1 & Z & R). split; [exact (proj1 (line_next _ _ _ LS1 GP))|]. cbn [o_z o_r]. auto. }
  pose proof (decode_sim get_phrase _ (there r1) (fun _ => True) ST (S (S (length t))) (S (S (S (S fuel)))) _ _ ltac:(lia) (RTok _ _ _ T1)) as A.
  destruct (g_decode get_phrase (S (S (length t))) (GTok (new_tokeniser t))) as [[c0 s]|y| |] eqn:GD; cbn [bind] in D; try discriminate D. apply Ok_inj in D. subst c0. cbn [agree] in A.
  destruct A as ([c' s'] & -> & [Q1 Q2]). cbn [fst snd] in *. subst c'. cbn [bind]. apply decode_tok in GD; [|exact Logic.I]. destruct Q2 as [z o (_ & _ & ->)|]; [reflexivity|contradiction GD].
Qed.

(** The next calendar then begins with its second letter. *)
Theorem next_is_lost t t2 cs w e cal sizes : ~ has_fold t -> 1 <= length t <= sizes 0 -> (exists a, t = a ++ CRLF) -> decode_bytes t = Ok cal ->
  returns (fun fuel => DecodeOD fuel sizes (Rdr (t :: (bs "BEGIN:VCALENDAR" ++ CRLF ++ t2) :: cs) w e)) (Ok (cal, Rdr ((bs "EGIN:VCALENDAR" ++ CRLF ++ t2) :: cs) w e)).
Proof. intros NF LT E D. exact (decode_looks_ahead t "B"%char (bs "EGIN:VCALENDAR" ++ CRLF ++ t2) cs w e cal sizes NF LT E ltac:(discriminate) D). Qed.

Theorem egin_refused sizes r d e : read_all sizes r (bs "EGIN:VCALENDAR" ++ CRLF ++ d) e ->
  returns (fun fuel => DecodeOD fuel sizes r) (Err ErrInvalidCalendar).
Proof.
  intros [F D]. eexists. intros fuel L. pose proof (decode_on_demand sizes r F _ e D fuel L) as Q.
  assert (X : decode_bytes (bs "EGIN:VCALENDAR" ++ CRLF ++ d) = Err ErrInvalidCalendar).
  { unfold decode_bytes, decode_src. cbn [get_ph].
    change (new_tokeniser (bs "EGIN:VCALENDAR" ++ CRLF ++ d)) with (Tkz SName (Tok [] (cline_render (CLine (bs "EGIN") [] (bs "VCALENDAR")) ++ CRLF ++ d))).
    rewrite (get_phrase_complete (CLine (bs "EGIN") [] (bs "VCALENDAR")) (CRLF ++ d) (Tkz SName (Tok [] d)) eq_refl (LE_crlf d)). reflexivity. }
  rewrite X in Q. destruct (DecodeOD fuel sizes r) as [[c r']| | |]; cbn [bind] in Q; congruence.
Qed.
End Main.
