(** A reader that gives a text without folds. *)
From Coq Require Import String Ascii List Arith ZArith Bool Lia.
From Verif Require Import Base Lib SpecLines Unfolder UnfolderProofs Tokeniser GoTime Params PropTable Props SecTable Sections Codec OnDemand DemandProofs AnyReader SpecAnyReader AnyReaderProofs AnyDecodeProofs.
Import ListNotations.

(** ** As [drain_plain], if the error comes with no bytes *)
Section Quiet.
Context (er : rerr).
Definition quiet_end (r : rdr) : Prop := r_with r = true -> r_chunks r = [] \/ exists cs, r_chunks r = cs ++ [[]].
Lemma rd_quiet r k : quiet_end r -> r_err r = er ->
  let '(d, e, r') := rd r k in
  left_in r = d ++ left_in r' /\ length d <= k /\ quiet_end r' /\ r_err r' = er /\
  match e with
  | Some x => x = er /\ d = [] /\ left_in r = []
  | None => 1 <= k -> size r' + 3 <= size r
  end.
Proof.
  intros W E. destruct r as [[|c cs] w e]; cbn [r_with r_err] in *; subst; unfold rd; cbn [r_chunks r_with r_err].
  - cbn. repeat split; try lia. exact W.
  - assert (W' : quiet_end (Rdr cs w er)).
    { intros T. destruct (W T) as [N|(cs' & N)]; [discriminate N|]. cbn [r_chunks] in *. destruct cs' as [|x cs']; [left; injection N as _ ->; reflexivity|]. right. exists cs'. injection N as _ ->. reflexivity. }
    destruct (length c <=? k) eqn:L.
    + apply Nat.leb_le in L. destruct cs as [|c' cs]; cbn [r_with r_err].
      * destruct w.
        -- destruct (W eq_refl) as [N|(cs' & N)]; [discriminate N|]. cbn [r_chunks] in N. destruct cs' as [|x [|y cs']]; [|discriminate N|discriminate N]. injection N as ->. cbn. repeat split; try lia. exact W'.
        -- unfold left_in, size. cbn. repeat split; try lia. exact W'.
      * unfold left_in, size. cbn [r_chunks concat fold_right]. repeat split; [lia|exact W'|]. intros _. lia.
    + apply Nat.leb_gt in L. unfold left_in, size. cbn [r_chunks r_with r_err concat fold_right].
      rewrite app_assoc, firstn_skipn, firstn_length, skipn_length. repeat split; try lia.
      intros T. cbn [r_with r_chunks] in *. destruct (W T) as [N|(cs' & N)]; [discriminate N|]. cbn [r_chunks] in N. destruct cs' as [|x cs']; [injection N as -> _; cbn in L; lia|]. right. exists (skipn k c :: cs'). injection N as _ ->. reflexivity.
Qed.
Lemma size_0q r L : size r = 0 -> quiet_end r -> r_err r = er -> 1 <= L -> rd r L = ([], Some er, r).
Proof. destruct r as [[|c cs] w e]; cbn; [intros _ _ -> _; reflexivity|unfold size; cbn; lia]. Qed.
Lemma unf_read_quiet fuel buf r L pre : quiet_end r -> r_err r = er -> length buf <= 2 -> 2 <= L ->
  find_fold (pre ++ buf ++ left_in r) = None ->
  exists d e buf' r', unf_read (S (S fuel)) buf r L = Ok (d, e, buf', r') /\
    quiet_end r' /\ r_err r' = er /\ length buf' <= 2 /\
    buf ++ left_in r = d ++ buf' ++ left_in r' /\
    match e with
    | Some x => x = er /\ buf' ++ left_in r' = []
    | None => length buf' + size r' + 1 <= length buf + size r \/ buf = [] /\ size r = 0
    end.
Proof.
  intros W E B LL NF. rewrite unf_read_step. rewrite Nat.min_r by lia. rewrite firstn_all, skipn_all.
  set (FILL := fill (S (S fuel)) buf (L - length buf) r).
  assert (HF : exists q e r1, FILL = Ok (q, e, r1) /\ quiet_end r1 /\ r_err r1 = er /\
     buf ++ left_in r = q ++ left_in r1 /\
     match e with
     | Some x => x = er /\ left_in r1 = []
     | None => size r1 + 3 <= size r \/ (buf = q /\ r1 = r /\ length buf = L)
     end).
  { unfold FILL. cbn [fill]. destruct (L - length buf =? 0) eqn:Z.
    - apply Nat.eqb_eq in Z. exists buf, None, r. repeat split; auto. right. repeat split; lia.
    - apply Nat.eqb_neq in Z. pose proof (rd_quiet r (L - length buf) W E) as R.
      destruct (rd r (L - length buf)) as [[d e] r1]. destruct R as (R1 & R2 & R3 & R4 & R5).
      assert (ND : find_fold d = None).
      { apply (no_fold_sub (pre ++ buf) d (left_in r1)). rewrite <- app_assoc, <- R1. exact NF. }
      rewrite remove_folds_none by exact ND. cbn [bind]. cbn [Nat.ltb Nat.leb]. rewrite Nat.sub_0_r, firstn_all.
      cbn [app]. destruct e as [x|].
      + destruct R5 as (-> & -> & R6). exists (buf ++ []), (Some er), r1. rewrite app_nil_r, R1.
        repeat split; auto. rewrite R1 in R6. cbn [app] in R6. exact R6.
      + cbn [fill Nat.eqb]. exists (buf ++ d), None, r1. rewrite R1, app_assoc. repeat split; auto.
        left. apply R5. lia. }
  destruct HF as (q & e & r1 & -> & W1 & E1 & C1 & P1). cbn [bind].
  destruct e as [x|].
  { destruct P1 as [-> P1]. exists q, (Some er), [], r1. repeat split; auto; try (cbn; lia).
    }
  assert (DONE : exists d e buf' r', (Ok (q, None, [], r1) : res (bytes * option rerr * bytes * rdr))
     = Ok (d, e, buf', r') /\
    quiet_end r' /\ r_err r' = er /\ length buf' <= 2 /\
    buf ++ left_in r = d ++ buf' ++ left_in r' /\
    match e with
    | Some x => x = er /\ buf' ++ left_in r' = []
    | None => length buf' + size r' + 1 <= length buf + size r \/ buf = [] /\ size r = 0
    end).
  { exists q, None, [], r1. repeat split; auto.
    left. cbn [length]. destruct P1 as [P1|(-> & -> & P1)]; lia. }
  cbn [look].
  destruct (ends_cr q) eqn:C.
  - apply ends_cr_spec in C as (q' & ->). pose proof (rd_quiet r1 2 W1 E1) as R.
    destruct (rd r1 2) as [[d e] r2]. destruct R as (R1 & R2 & R3 & R4 & R5).
    assert (NX : beq d [LF; SP] = false).
    { apply beq_neq. intros ->. apply (find_fold_has (pre ++ buf ++ left_in r)); [|exact NF].
      rewrite C1, R1. exists (pre ++ q'), (left_in r2). rewrite <- !app_assoc. reflexivity. }
    rewrite NX.
    assert (G : exists d0 EE buf' r', (Ok (q' ++ [CR], e, d, r2) : res (bytes * option rerr * bytes * rdr)) = Ok (d0, EE, buf', r') /\
      quiet_end r' /\ r_err r' = er /\ length buf' <= 2 /\
      buf ++ left_in r = d0 ++ buf' ++ left_in r' /\
      match EE with
      | Some x => x = er /\ buf' ++ left_in r' = []
      | None => length buf' + size r' + 1 <= length buf + size r \/ buf = [] /\ size r = 0
      end).
    { exists (q' ++ [CR]), e, d, r2. rewrite C1, R1. repeat split; auto. destruct e as [x|].
      - destruct R5 as (-> & -> & R6). split; [reflexivity|]. rewrite <- R1. exact R6.
      - left. specialize (R5 ltac:(lia)). destruct P1 as [P1|(-> & -> & P1)]; lia. }
    destruct (length d <? 2); rewrite counted_all; exact G.
  - destruct (ends_crlf q) eqn:C2; [|rewrite counted_all; exact DONE].
    apply ends_crlf_spec in C2 as (q' & ->). pose proof (rd_quiet r1 1 W1 E1) as R.
    destruct (rd r1 1) as [[d e] r2]. destruct R as (R1 & R2 & R3 & R4 & R5).
    assert (NX : beq d [SP] = false).
    { apply beq_neq. intros ->. apply (find_fold_has (pre ++ buf ++ left_in r)); [|exact NF].
      rewrite C1, R1. exists (pre ++ q'), (left_in r2). rewrite <- !app_assoc. reflexivity. }
    rewrite NX.
    assert (G : exists d0 EE buf' r', (Ok (q' ++ [CR; LF], e, d, r2) : res (bytes * option rerr * bytes * rdr)) = Ok (d0, EE, buf', r') /\
      quiet_end r' /\ r_err r' = er /\ length buf' <= 2 /\
      buf ++ left_in r = d0 ++ buf' ++ left_in r' /\
      match EE with
      | Some x => x = er /\ buf' ++ left_in r' = []
      | None => length buf' + size r' + 1 <= length buf + size r \/ buf = [] /\ size r = 0
      end).
    { exists (q' ++ [CR; LF]), e, d, r2. rewrite C1, R1. repeat split; auto; try lia. destruct e as [x|].
      - destruct R5 as (-> & -> & R6). split; [reflexivity|]. rewrite <- R1. exact R6.
      - left. specialize (R5 ltac:(lia)). destruct P1 as [P1|(-> & -> & P1)]; lia. }
    destruct (length d <? 1); rewrite counted_all; exact G.
Qed.


Lemma drain_quiet sizes : (forall i, 2 <= sizes i) -> forall fuel i buf r acc,
  quiet_end r -> r_err r = er -> length buf <= 2 ->
  find_fold (acc ++ buf ++ left_in r) = None -> length buf + size r + 2 <= fuel ->
  drain fuel sizes i buf r acc = Ok (acc ++ buf ++ left_in r, er).
Proof.
  intros P. induction fuel as [|fuel IH]; intros i buf r acc W E B NF F; [lia|].
  destruct fuel as [|fuel]; [lia|].
  destruct (unf_read_quiet fuel buf r (sizes i) acc W E B (P i) NF) as (d & e & buf' & r' & R & W' & E' & B' & C & M).
  change (drain (S (S fuel)) sizes i buf r acc) with
    (let! (d, e, buf', r') := unf_read (S (S fuel)) buf r (sizes i) in
     match e with Some e => Ok (acc ++ d, e) | None => drain (S fuel) sizes (S i) buf' r' (acc ++ d) end).
  rewrite R. cbn [bind]. destruct e as [x|].
  - destruct M as [-> M]. rewrite C, M, app_nil_r. reflexivity.
  - assert (M' : length buf' + size r' + 1 <= length buf + size r).
    { destruct M as [M|[-> M]]; [exact M|]. exfalso. pose proof (P i) as Pi.
      rewrite unf_read_step in R. cbn [length] in R. rewrite Nat.min_0_r, Nat.sub_0_r in R. cbn [firstn fill] in R.
      replace (sizes i =? 0) with false in R by (symmetry; apply Nat.eqb_neq; lia).
      rewrite (size_0q r (sizes i) M W E ltac:(lia)) in R. rewrite remove_folds_none in R by reflexivity.
      cbn [bind length Nat.ltb Nat.leb] in R. discriminate R. }
    rewrite IH; auto.
    + rewrite <- app_assoc, C. reflexivity.
    + rewrite <- app_assoc, <- C. exact NF.
    + lia.
Qed.

End Quiet.

Section Text.
Context {env : Env} {R : Type} (read : io_reader R) (left : R -> bytes).
Lemma gave_text s pieces e s' : gives_text read left -> gave read s pieces e s' ->
  match e with None => left s = concat pieces ++ left s' /\ length pieces <= length (concat pieces) | Some _ => left s = concat pieces /\ (exists cs, pieces = cs ++ [[]]) /\ length pieces <= length (concat pieces) + 1 end.
Proof.
  intros H G. induction G as [s|s k d s1 cs e s2 K Rd G IH|s k d e s1 K Rd].
  - split; [reflexivity|cbn; lia].
  - pose proof (H s k K) as X. rewrite Rd in X. destruct X as [D X]. cbn [concat length]. rewrite app_length. assert (1 <= length d) by (destruct d; [contradiction|cbn; lia]).
    destruct e as [e|].
    + destruct IH as (I1 & (cs' & I2) & I3). split; [rewrite X, I1; reflexivity|]. split; [exists (d :: cs'); rewrite I2; reflexivity|lia].
    + destruct IH as (I1 & I3). split; [rewrite X, I1, app_assoc; reflexivity|lia].
  - pose proof (H s k K) as X. rewrite Rd in X. destruct X as [-> X]. split; [exact X|]. split; [exists []; reflexivity|cbn; lia].
Qed.
Lemma size_bound r : size r = 3 * length (r_chunks r) + 3 * length (concat (r_chunks r)).
Proof. destruct r as [cs w e]. unfold size. cbn [r_chunks]. induction cs as [|c cs IH]; [reflexivity|]. cbn [fold_right concat length]. rewrite app_length, IH. lia. Qed.
Theorem decode_from_text sizes s : honest read -> gives_text read left -> (forall i, 2 <= sizes i) -> ~ has_fold (left s) ->
  exists n, forall fuel, n <= fuel -> (let! (c, _) := DecodeFrom read fuel sizes s in Ok c) = decode_bytes (left s).
Proof.
  intros Hon H S2 NF. exists (7 * length (left s) + 20). intros fuel F. destruct (decode_from_pieces_all read fuel sizes s Hon) as (pieces & e & s' & G & D).
  pose proof (gave_text _ _ _ _ H G) as X.
  assert (exists rest, may_follow e rest /\ quiet_end (before pieces rest) /\ concat (r_chunks (before pieces rest)) = left s /\ length (r_chunks (before pieces rest)) <= length (left s) + 1) as (rest & M & Q & C & N).
  { destruct e as [e|].
    - destruct X as (X1 & (cs & X2) & X3). exists (Rdr [] true e). split; [reflexivity|]. unfold before. cbn [r_chunks r_with r_err]. rewrite app_nil_r. split; [intros _; right; exists cs; exact X2|]. split; [symmetry; exact X1|]. rewrite X1. exact X3.
    - destruct X as (X1 & X3). exists (Rdr [left s'] false REOF). split; [discriminate|]. split; [discriminate|]. cbn [before r_chunks]. rewrite concat_app, app_length. cbn [concat length]. rewrite app_nil_r. split; [symmetry; exact X1|].
      rewrite X1, app_length. lia. }
  destruct (D rest M) as [D1 _].
  assert (NF' : find_fold (left s) = None).
  { destruct (find_fold (left s)) eqn:E; [|reflexivity]. destruct NF. apply has_fold_find. rewrite E. discriminate. }
  pose proof (drain_quiet (r_err (before pieces rest)) sizes S2 (6 * length (left s) + 10) 0 [] (before pieces rest) [] Q eq_refl) as DR. cbn [app length] in DR. unfold left_in in DR. rewrite C in DR.
  specialize (DR ltac:(lia) NF'). rewrite size_bound, C in DR. specialize (DR ltac:(lia)).
  pose proof (decode_on_demand sizes _ _ _ _ DR fuel ltac:(lia)) as OD. rewrite <- OD, D1. destruct (DecodeFrom read fuel sizes s) as [[c s1]| | |]; reflexivity.
Qed.
End Text.
