(** What the decoder sees from readers that give their data in small pieces. *)
From Coq Require Import List Arith ZArith Bool Lia.
From Verif Require Import Base Lib SpecLines Unfolder UnfolderProofs SpecReaders.
Import ListNotations.

(** ** One byte at a time *)
Lemma fill_byte fuel out L c cs w : 1 <= L -> (cs = [] -> w = false) ->
  fill (S (S fuel)) out L (Rdr ([c] :: cs) w REOF) = Ok (out ++ [c], None, Rdr cs w REOF).
Proof.
  intros H N. cbn [fill]. replace (L =? 0) with false by (symmetry; apply Nat.eqb_neq; lia). cbn [rd r_chunks length].
  replace (1 <=? L) with true by (symmetry; apply Nat.leb_le; lia). cbn [r_with r_err]. rewrite remove_folds_none by reflexivity. cbn [bind length Nat.ltb Nat.leb Nat.sub firstn app].
  destruct cs; [rewrite N by reflexivity|]; reflexivity.
Qed.
Lemma fill_end fuel out L w : 1 <= L -> fill (S (S fuel)) out L (Rdr [] w REOF) = Ok (out, Some REOF, Rdr [] w REOF).
Proof.
  intros H. cbn [fill]. replace (L =? 0) with false by (symmetry; apply Nat.eqb_neq; lia). cbn [rd r_chunks r_err]. rewrite remove_folds_none by reflexivity.
  cbn [bind length Nat.ltb Nat.leb Nat.sub firstn app]. rewrite app_nil_r. reflexivity.
Qed.
Lemma ends_cr_snoc q c : ends_cr (q ++ [c]) = beqc c CR.
Proof. unfold ends_cr. rewrite rev_app_distr. reflexivity. Qed.
Lemma ends_crlf_snoc q b c : ends_crlf (q ++ [b; c]) = beqc c LF && beqc b CR.
Proof. unfold ends_crlf. rewrite rev_app_distr. reflexivity. Qed.

Lemma drain_step fuel sizes i buf r acc : drain (S fuel) sizes i buf r acc =
  let! (d, e, buf', r') := unf_read (S fuel) buf r (sizes i) in
  match e with Some e => Ok (acc ++ d, e) | None => drain fuel sizes (S i) buf' r' (acc ++ d) end.
Proof. reflexivity. Qed.

(** At most one byte is held back, and it is no carriage return. *)
Lemma drain_bytes sizes : (forall i, 2 <= sizes i) -> forall s fuel i buf acc,
  (buf = [] \/ exists c, buf = [c] /\ c <> CR) -> ~ double_cr (buf ++ s) -> length s + 4 <= fuel ->
  drain fuel sizes i buf (Rdr (byte_by_byte s) false REOF) acc = Ok (acc ++ buf ++ s, REOF).
Proof.
  intros P s. induction s as [s IH] using (well_founded_induction (Wf_nat.well_founded_ltof _ (@length byte))). unfold Wf_nat.ltof in IH.
  intros fuel i buf acc B D F. do 4 (destruct fuel as [|fuel]; [lia|]). pose proof (P i) as Pi.
  assert (NB : length buf <= 1) by (destruct B as [->|(c & -> & _)]; cbn; lia).
  rewrite drain_step. rewrite unf_read_step. rewrite Nat.min_r by lia. rewrite firstn_all, skipn_all.
  destruct s as [|c s].
  { cbn [byte_by_byte map]. rewrite fill_end by lia. cbn [bind]. rewrite app_nil_r. reflexivity. }
  cbn [byte_by_byte map]. rewrite fill_byte by (auto; lia). cbn [bind].
  cbn [look]. rewrite ends_cr_snoc. destruct (beqc c CR) eqn:C.
  - apply beqc_eq in C. subst c. destruct s as [|d s].
    { cbn [map rd r_chunks r_err length Nat.ltb Nat.leb]. rewrite counted_all. cbn [bind]. reflexivity. }
    cbn [map rd r_chunks length]. cbn [Nat.leb r_with r_err]. destruct (map _ s) eqn:M; cbn [length Nat.ltb Nat.leb]; rewrite counted_all; cbn [bind].
    + destruct s; [|discriminate M].
      replace (Rdr [] false REOF) with (Rdr (byte_by_byte []) false REOF) by reflexivity. rewrite (IH []); [rewrite <- !app_assoc; reflexivity|cbn; lia| | |cbn [length] in *; lia].
      * right. exists d. split; [reflexivity|]. intros ->. apply D. exists buf, []. reflexivity.
      * intros (a & b & Q). rewrite app_nil_r in Q. destruct a as [|? [|? a]]; discriminate Q.
    + rewrite <- M. change (map (fun c => [c]) s) with (byte_by_byte s). rewrite (IH s); [rewrite <- !app_assoc; reflexivity|cbn; lia| | |cbn [length] in *; lia].
      * right. exists d. split; [reflexivity|]. intros ->. apply D. exists buf, s. reflexivity.
      * intros (a & b' & Q). apply D. exists (buf ++ CR :: a), b'. cbn [app] in Q |- *. rewrite <- app_assoc. cbn [app]. rewrite Q. reflexivity.
  - assert (E2 : ends_crlf (buf ++ [c]) = false).
    { destruct B as [->|(x & -> & X)]; [reflexivity|]. cbn [app]. change [x; c] with ([] ++ [x; c]). rewrite ends_crlf_snoc. apply beqc_neq in X. rewrite X. apply andb_false_r. }
    rewrite E2, counted_all. cbn [bind]. change (map (fun c => [c]) s) with (byte_by_byte s). rewrite (IH s); [rewrite <- !app_assoc; reflexivity|cbn; lia|left; reflexivity| |cbn [length] in *; lia].
    intros (a & b' & Q). apply D. exists (buf ++ c :: a), b'. cbn [app] in Q |- *. rewrite Q, <- app_assoc. reflexivity.
Qed.

(** ** Line by line *)
Lemma line_no_fold l : ~ In CR l -> find_fold (l ++ CRLF) = None.
Proof.
  intros N. destruct (find_fold (l ++ CRLF)) eqn:E; [|reflexivity]. exfalso. assert (H : has_fold (l ++ CRLF)) by (apply has_fold_find; congruence).
  destruct H as (a & b & Q). clear E n. unfold fold3 in Q. revert a Q. induction l as [|x l IH]; intros a Q.
  - destruct a as [|? [|? [|? a]]]; discriminate Q.
  - destruct a as [|y a]; [injection Q as -> _; apply N; left; reflexivity|]. injection Q as <- Q. apply (IH (fun I => N (or_intror I)) a Q).
Qed.
Lemma line_ends l : ends_cr (l ++ CRLF) = false /\ ends_crlf (l ++ CRLF) = true.
Proof. split; [change (l ++ CRLF) with (l ++ [CR] ++ [LF]); rewrite app_assoc; apply ends_cr_snoc|apply ends_crlf_snoc]. Qed.
Lemma fill_chunk fuel out L c cs : 1 <= L -> length c <= L -> find_fold c = None ->
  fill (S (S fuel)) out L (Rdr (c :: cs) false REOF) = Ok (out ++ c, None, Rdr cs false REOF).
Proof.
  intros H LC N. cbn [fill]. replace (L =? 0) with false by (symmetry; apply Nat.eqb_neq; lia). cbn [rd r_chunks].
  replace (length c <=? L) with true by (symmetry; apply Nat.leb_le; lia). cbn [r_with r_err]. rewrite remove_folds_none by exact N. cbn [bind Nat.ltb Nat.leb]. rewrite Nat.sub_0_r, firstn_all. cbn [app].
  destruct cs; reflexivity.
Qed.
Lemma put_end q a b x y : put (q ++ [a; b]) (length (q ++ [a; b]) - 2) [x; y] = q ++ [x; y].
Proof.
  unfold put. rewrite app_length. cbn [length]. replace (length q + 2 - 2) with (length q) by lia. rewrite (firstn_app_exact q) by reflexivity.
  rewrite skipn_all2 by (rewrite app_length; cbn [length]; lia). rewrite app_nil_r. reflexivity.
Qed.
Lemma drain_lines sizes : forall ls, Forall line_like ls -> (forall i l, In l ls -> length l + 2 <= sizes i) ->
  forall fuel i buf l acc, length ls + 8 <= fuel -> length buf <= 1 -> ~ In CR l -> (forall i, length buf + length l + 2 <= sizes i) ->
  drain fuel sizes i buf (Rdr ((l ++ CRLF) :: line_by_line ls) false REOF) acc = Ok (acc ++ buf ++ l ++ after_line ls, REOF).
Proof.
  induction ls as [|k ls IH]; intros W P fuel i buf l acc F B N Q; do 6 (destruct fuel as [|fuel]; [cbn [length] in F; lia|]);
    specialize (Q i); rewrite drain_step; rewrite unf_read_step; rewrite Nat.min_r by lia; rewrite firstn_all, skipn_all;
    rewrite fill_chunk by (try apply line_no_fold; auto; rewrite ?app_length; cbn [CRLF length]; lia); cbn [bind]; rewrite app_assoc;
    cbn [look]; destruct (line_ends (buf ++ l)) as [E1 E2]; rewrite E1, E2.
  - cbn [line_by_line map rd r_chunks r_err length Nat.ltb Nat.leb]. rewrite counted_all. cbn [bind after_line]. rewrite <- !app_assoc. reflexivity.
  - inversion W as [|? ? (K0 & KC & KL & KS) W']; subst. destruct k as [|x k]; [contradiction|].
    cbn [line_by_line map rd r_chunks]. change ((x :: k) ++ CRLF) with (x :: (k ++ CRLF)). cbn [length].
    replace (S (length (k ++ CRLF)) <=? 1) with false by (symmetry; apply Nat.leb_gt; rewrite app_length; cbn [CRLF length]; lia).
    cbn [firstn skipn r_with r_err length Nat.ltb Nat.leb]. change (map (fun l => l ++ CRLF) ls) with (line_by_line ls).
    destruct (beqc x SP) eqn:X.
    + apply beqc_eq in X. subst x. change (beq [SP] [SP]) with true. cbv iota. destruct k as [|y k]; [destruct (KS eq_refl)|].
      assert (YC : beqc y CR = false) by (apply beqc_neq; intros ->; apply KC; right; left; reflexivity).
      cbn [unf_call]. change (min 2 (length [SP])) with 1. change (2 - 1) with 1. cbn [firstn skipn].
      assert (FB : forall f, fill (S (S f)) [SP] 1 (Rdr (((y :: k) ++ CRLF) :: line_by_line ls) false REOF) = Ok ([SP; y], None, Rdr ((k ++ CRLF) :: line_by_line ls) false REOF)).
      { intros f. cbn [fill Nat.eqb rd r_chunks]. change ((y :: k) ++ CRLF) with (y :: (k ++ CRLF)). cbn [length].
        replace (S (length (k ++ CRLF)) <=? 1) with false by (symmetry; apply Nat.leb_gt; rewrite app_length; cbn [CRLF length]; lia).
        cbn [firstn skipn r_with r_err]. rewrite remove_folds_none by reflexivity. reflexivity. }
      rewrite FB. cbn [bind]. cbn [look]. change (ends_cr [SP; y]) with (beqc y CR). rewrite YC.
      change (ends_crlf [SP; y]) with (beqc y LF && beqc SP CR). rewrite andb_false_r. cbn [bind].
      change ((buf ++ l) ++ CRLF) with ((buf ++ l) ++ [CR; LF]). rewrite put_end.
      cbn [look]. change ((buf ++ l) ++ [SP; y]) with ((buf ++ l) ++ [SP] ++ [y]). rewrite (app_assoc (buf ++ l) [SP] [y]), ends_cr_snoc, YC, <- app_assoc. cbn [app].
      rewrite ends_crlf_snoc, andb_false_r.
      replace (_ - 2 + _)%Z with (Z.of_nat (length ((buf ++ l) ++ [SP; y]))) by (rewrite !app_length; cbn [length]; lia). rewrite counted_all. cbn [bind].
      rewrite IH; auto.
      * cbn [after_line]. change (beqc SP SP) with true. cbn [app]. rewrite <- !app_assoc. reflexivity.
      * intros; apply P; right; assumption.
      * cbn [length] in F. lia.
      * intros J. apply KC. right. right. exact J.
      * intros j. specialize (P j _ (or_introl eq_refl)). cbn [length] in *. lia.
    + apply beqc_neq in X. replace (beq [x] [SP]) with false by (symmetry; apply beq_neq; congruence). rewrite counted_all. cbn [bind].
      rewrite IH; auto.
      * cbn [after_line]. apply beqc_neq in X. rewrite X. rewrite <- !app_assoc. reflexivity.
      * intros; apply P; right; assumption.
      * cbn [length] in F. lia.
      * intros J. apply KC. right. exact J.
      * intros j. specialize (P j _ (or_introl eq_refl)). cbn [length] in *. lia.
Qed.

(** ** A buffer that ends in the middle of a fold *)
Lemma drain_split sizes a b : (forall i, 2 <= sizes i) -> length a + 2 = sizes 0 -> find_fold (a ++ CRLF) = None -> find_fold (a ++ SP :: b) = None ->
  2 <= length b -> hd CR b <> CR -> exists n, forall fuel, n <= fuel ->
  drain fuel sizes 0 [] (Rdr [a ++ fold3 ++ b] false REOF) [] = Ok (a ++ SP :: b, REOF).
Proof.
  intros P L N1 N2 LB HB. destruct b as [|y [|z b]]; cbn [length] in LB; try lia. cbn [hd] in HB.
  assert (YC : beqc y CR = false) by (apply beqc_neq; exact HB).
  exists (size (Rdr [z :: b] false REOF) + 10). intros fuel F. do 6 (destruct fuel as [|fuel]; [lia|]).
  rewrite drain_step. rewrite unf_read_step. cbn [length]. rewrite Nat.min_0_r, Nat.sub_0_r. cbn [firstn].
  assert (FC : forall f, fill (S (S f)) [] (sizes 0) (Rdr [a ++ fold3 ++ y :: z :: b] false REOF) = Ok (a ++ CRLF, None, Rdr [SP :: y :: z :: b] false REOF)).
  { intros f. cbn [fill]. pose proof (P 0). replace (sizes 0 =? 0) with false by (symmetry; apply Nat.eqb_neq; lia). cbn [rd r_chunks].
    replace (length (a ++ fold3 ++ y :: z :: b) <=? sizes 0) with false by (symmetry; apply Nat.leb_gt; rewrite !app_length; cbn [fold3 length]; lia). cbn [r_with r_err].
    change (a ++ fold3 ++ y :: z :: b) with (a ++ CRLF ++ SP :: y :: z :: b). rewrite (app_assoc a).
    rewrite firstn_app_exact, skipn_app_exact by (rewrite app_length; cbn [CRLF length]; lia). rewrite remove_folds_none by exact N1. cbn [bind Nat.ltb Nat.leb]. rewrite Nat.sub_0_r, firstn_all. reflexivity. }
  rewrite FC. cbn [bind]. cbn [look]. destruct (line_ends a) as [E1 E2]. rewrite E1, E2.
  cbn [rd r_chunks length Nat.leb firstn skipn r_with r_err Nat.ltb]. change (beq [SP] [SP]) with true. cbv iota.
  cbn [unf_call]. change (min 2 (length [SP])) with 1. change (2 - 1) with 1. cbn [firstn skipn].
  assert (FB : forall f, fill (S (S f)) [SP] 1 (Rdr [y :: z :: b] false REOF) = Ok ([SP; y], None, Rdr [z :: b] false REOF)).
  { intros f. cbn [fill Nat.eqb rd r_chunks length Nat.leb firstn skipn r_with r_err]. rewrite remove_folds_none by reflexivity. reflexivity. }
  rewrite FB. cbn [bind]. cbn [look]. change (ends_cr [SP; y]) with (beqc y CR). rewrite YC.
  change (ends_crlf [SP; y]) with (beqc y LF && beqc SP CR). rewrite andb_false_r. cbn [bind].
  change (a ++ CRLF) with (a ++ [CR; LF]). rewrite put_end.
  cbn [look]. change (a ++ [SP; y]) with (a ++ [SP] ++ [y]). rewrite (app_assoc a [SP] [y]), ends_cr_snoc, YC, <- app_assoc. cbn [app].
  rewrite ends_crlf_snoc, andb_false_r.
  replace (_ - 2 + _)%Z with (Z.of_nat (length (a ++ [SP; y]))) by (rewrite !app_length; cbn [length]; lia). rewrite counted_all. cbn [bind].
  assert (Q : a ++ SP :: y :: z :: b = (a ++ [SP; y]) ++ [] ++ left_in (Rdr [z :: b] false REOF)).
  { unfold left_in. cbn [r_chunks concat app]. rewrite app_nil_r, <- app_assoc. reflexivity. }
  rewrite (drain_plain sizes P); auto; try (rewrite <- Q; auto); cbn [length]; lia.
Qed.

(** ** The first read never ends *)
Lemma drain_first_hangs c cs w sizes fuel : has_fold (firstn (sizes 0) c) -> bad_tail (firstn (sizes 0) c) -> drain fuel sizes 0 [] (Rdr (c :: cs) w REOF) [] = NoFuel.
Proof.
  intros F B. destruct fuel as [|fuel]; [reflexivity|]. cbn [drain]. rewrite unf_read_step. cbn [length fill]. rewrite Nat.min_0_r, Nat.sub_0_r. cbn [firstn].
  destruct (sizes 0 =? 0) eqn:E0; [apply Nat.eqb_eq in E0; rewrite E0 in F; destruct F as ([|] & b & Q); discriminate Q|].
  cbn [rd r_chunks]. destruct (length c <=? sizes 0) eqn:LC.
  - apply Nat.leb_le in LC. rewrite firstn_all2 in F, B by exact LC. rewrite remove_folds_hangs by assumption. destruct cs, w; reflexivity.
  - rewrite remove_folds_hangs by assumption. reflexivity.
Qed.

(** ** Data that comes with the end *)
Lemma drain_lost sizes s x : find_fold s = None -> 1 <= length s <= sizes 0 -> (exists a, s = a ++ [CR]) \/ (exists a, s = a ++ CRLF /\ x <> SP) ->
  forall fuel, 4 <= fuel -> drain fuel sizes 0 [] (Rdr [s; [x]] true REOF) [] = Ok (s, REOF).
Proof.
  intros N L E fuel F. do 4 (destruct fuel as [|fuel]; [lia|]). rewrite drain_step. rewrite unf_read_step. cbn [length]. rewrite Nat.min_0_r, Nat.sub_0_r. cbn [firstn fill].
  replace (sizes 0 =? 0) with false by (symmetry; apply Nat.eqb_neq; lia). cbn [rd r_chunks].
  replace (length s <=? sizes 0) with true by (symmetry; apply Nat.leb_le; lia). cbn [r_with r_err]. rewrite remove_folds_none by exact N. cbn [bind Nat.ltb Nat.leb]. rewrite Nat.sub_0_r, firstn_all. cbn [app fill Nat.eqb bind].
  destruct E as [(a & ->)|(a & -> & X)].
  - cbn [look]. rewrite ends_cr_snoc. change (beqc CR CR) with true. cbv iota. cbn [rd r_chunks length Nat.leb r_with r_err Nat.ltb]. rewrite counted_all. reflexivity.
  - cbn [look]. destruct (line_ends a) as [E1 E2]. rewrite E1, E2. cbn [rd r_chunks length Nat.leb r_with r_err Nat.ltb].
    replace (beq [x] [SP]) with false by (symmetry; apply beq_neq; congruence). rewrite counted_all. reflexivity.
Qed.
