(** Calendars through Encode and Decode. *)
From Coq Require Import String Ascii ZArith Bool List Lia.
From Verif Require Import Base Lib Utf8 Utf8Proofs GoStrings Strtok Tokeniser SpecContent TokeniserProofs GoTime Types Params ParamTable PropTable Props SecTable Sections Folder Unfolder Codec SpecLines FolderProofs UnfolderProofs DecodeProofs SpecTree TreeProofs ExactProofs SpecRules ShapeProofs EncodeProofs PrefixProofs SpecParams ParamProofs SpecProps PropProofs HangProofs GroupProofs SpecCal CalProofs.
Import ListNotations.
Local Open Scope Z_scope.

Lemma app_inj_len {A} (a b a' b' : list A) : length b = length b' -> a ++ b = a' ++ b' -> a = a' /\ b = b'.
Proof.
  revert a'. induction a as [|x a IH]; intros [|y a'] L E; cbn [app] in E.
  - auto.
  - apply (f_equal (@length A)) in E. cbn [length] in E. rewrite app_length in E. lia.
  - apply (f_equal (@length A)) in E. cbn [length] in E. rewrite app_length in E. lia.
  - injection E as -> E. destruct (IH a' L E) as [-> ->]. auto.
Qed.

(** ** Lines that fit are not folded *)
Lemma plain_scan ch : Forall (fun b => code b <> 13 /\ code b <> 10) ch -> ch <> [] -> forall k cr,
  scan k cr ch = if cr then None else if k + Z.of_nat (length ch) <=? 75 then Some (k + Z.of_nat (length ch), false) else None.
Proof.
  induction 1 as [|c ch [H1 H2] H IH]; intros N k cr; [congruence|]. cbn [scan]. destruct (plain_byte c H1 H2) as [-> ->]. destruct cr; [reflexivity|].
  destruct ch as [|d ch]; [reflexivity|]. rewrite IH by discriminate. cbn [length] in *. destruct (k + 1 <=? 75) eqn:Q.
  - replace (k + 1 + Z.of_nat (S (length ch))) with (k + Z.of_nat (S (S (length ch)))) by lia. reflexivity.
  - replace (k + Z.of_nat (S (S (length ch))) <=? 75) with false by lia. reflexivity.
Qed.
Lemma fold1_fits l : forall k cr k' cr', 0 <= k <= 75 -> scan k cr l = Some (k', cr') -> fold1 (k + b2z cr) l = (l, k' + b2z cr') /\ 0 <= k' <= 75.
Proof.
  induction l as [|c l IH] using rune_ind; intros k cr k' cr' Hk B.
  { cbn in B. injection B as <- <-. auto. }
  rewrite fold1_cons.
  pose proof (decode_rune_width c l) as W. pose proof (rune_cases c l) as C.
  destruct (decode_rune (c :: l)) as [r s]. destruct W as [W1 W2].
  assert (Hl : (length (skipn s (c :: l)) < length (c :: l))%nat) by (rewrite skipn_length; cbn [length] in *; lia).
  assert (B' : scan k cr (firstn s (c :: l) ++ skipn s (c :: l)) = Some (k', cr')) by (rewrite firstn_skipn; exact B).
  rewrite scan_app in B'.
  destruct C as [(-> & -> & ->)|[(-> & -> & ->)|(R1 & R2 & F & S)]].
  - cbn [Z.eqb Pos.eqb firstn skipn] in *. cbn in B'. destruct cr; [|discriminate].
    destruct (IH l Hl 0 false k' cr' ltac:(lia) B') as (E1 & E2). cbn [b2z] in E1.
    change (0 + 0) with 0 in *. rewrite E1. split; [reflexivity|exact E2].
  - cbn [firstn skipn] in *. cbn in B'. destruct cr; [discriminate|].
    change (13 =? 10) with false. change (13 =? 13) with true. cbn [b2z] in *.
    destruct (IH l Hl k true k' cr' Hk B') as (E1 & E2). cbn [b2z] in E1.
    replace ((k + 0 + Z.of_nat 1) mod 256) with (k + 1) by (rewrite Z.mod_small; lia).
    rewrite E1. split; [reflexivity|exact E2].
  - replace (r =? 10) with false by lia. replace (r =? 13) with false by lia.
    assert (Hlen : length (firstn s (c :: l)) = s) by (rewrite firstn_length; lia).
    assert (Hn : firstn s (c :: l) <> []) by (intros E; rewrite E in Hlen; cbn in Hlen; lia).
    rewrite (plain_scan _ F Hn) in B'. destruct cr; [discriminate|]. cbn [b2z] in *. rewrite Hlen in B'.
    replace ((k + 0 + Z.of_nat s) mod 256) with (k + Z.of_nat s) by (rewrite Z.mod_small; lia).
    destruct (k + Z.of_nat s <=? 75) eqn:Q; [|discriminate].
    replace (maxLineLength <? k + Z.of_nat s) with false by (unfold maxLineLength; lia).
    destruct (IH _ Hl (k + Z.of_nat s) false k' cr' ltac:(lia) B') as (E1 & E2). cbn [b2z] in E1.
    replace (k + Z.of_nat s + 0) with (k + Z.of_nat s) in * by lia. rewrite E1. split; [|exact E2]. rewrite firstn_skipn. reflexivity.
Qed.
Lemma folds_fits qs : forall k cr k' cr', 0 <= k <= 75 -> scan k cr (concat qs) = Some (k', cr') -> folds (k + b2z cr) qs = (concat qs, k' + b2z cr').
Proof.
  induction qs as [|q qs IH]; intros k cr k' cr' Hk B; cbn [folds concat] in *; [cbn in B; injection B as <- <-; reflexivity|].
  rewrite scan_app in B. destruct (scan k cr q) as [[k1 cr1]|] eqn:B1; [|discriminate]. destruct (fold1_fits q k cr k1 cr1 Hk B1) as (-> & K1).
  rewrite (IH k1 cr1 k' cr' K1 B). reflexivity.
Qed.
Lemma phys_scan s : forall k, 0 <= k <= 75 -> no_bare s ->
  match phys_lines s with [] => True | l :: ls => k + Z.of_nat (length l) <= 75 /\ Forall (fun l => Z.of_nat (length l) <= 75) ls end -> exists k', scan k false s = Some (k', false).
Proof.
  unfold no_bare. induction s as [|a|a b s IH1 IH2] using two_ind; intros k Hk H L.
  - exists k. reflexivity.
  - cbn in H, L. inversion H as [|? ? [H1 H2] _]; subst. cbn [scan].
    destruct (beqc a CR) eqn:E1; [apply beqc_eq in E1; subst; cbn in H1; tauto|].
    destruct (beqc a LF) eqn:E2; [apply beqc_eq in E2; subst; cbn in H2; tauto|]. replace (k + 1 <=? 75) with true by lia. exists (k + 1). reflexivity.
  - rewrite phys_cons in H, L. destruct (beqc a CR && beqc b LF) eqn:E.
    + apply andb_true_iff in E as [E1 E2]. cbn [scan]. rewrite E1, E2. apply beqc_eq in E1, E2. subst. change (beqc LF CR) with false. cbn iota.
      inversion H; subst. destruct L as [_ L]. destruct (phys_lines s) as [|l ls] eqn:P; [destruct (phys_lines_nonnil _ P)|]. inversion L; subst. apply IH1; [lia|assumption|]. split; [lia|assumption].
    + destruct (phys_lines (b :: s)) as [|l ls] eqn:P; [destruct (phys_lines_nonnil _ P)|].
      inversion H as [|? ? [H1 H2] H3]; subst. cbn [In] in H1, H2. cbn [length] in L. destruct L as [L1 L2].
      change (scan k false (a :: b :: s)) with
        (if beqc a CR then scan k true (b :: s) else if beqc a LF then None
         else if k + 1 <=? 75 then scan (k + 1) false (b :: s) else None).
      destruct (beqc a CR) eqn:E1; [apply beqc_eq in E1; subst; tauto|].
      destruct (beqc a LF) eqn:E2; [apply beqc_eq in E2; subst; tauto|]. replace (k + 1 <=? 75) with true by lia.
      apply IH2; [lia|constructor; [tauto|exact H3]|]. split; [lia|exact L2].
Qed.
Lemma folds_short qs : no_bare (concat qs) -> Forall (fun l => Z.of_nat (length l) <= 75) (phys_lines (concat qs)) -> fst (folds 0 qs) = concat qs.
Proof.
  intros N L. destruct (phys_scan (concat qs) 0 ltac:(lia) N) as (k' & S).
  - destruct (phys_lines (concat qs)); [exact I|]. inversion L; subst. split; [lia|assumption].
  - pose proof (folds_fits qs 0 false k' false ltac:(lia) S) as F. cbn [b2z] in F. change (0 + 0) with 0 in F. rewrite F. reflexivity.
Qed.

Section R.
Context {env : Env}.
Lemma encode_short cal e out : Encode ok_writer [] cal = EncDone e out -> no_bare (content cal) ->
  Forall (fun l => Z.of_nat (length l) <= 75) (phys_lines (content cal)) -> concat out = content cal.
Proof. intros H N L. apply encode_ok_out in H as [_ ->]. apply folds_short; assumption. Qed.

(** ** Content lines have no folds of their own *)
Lemma wf_plain l : cline_wf l = true -> Forall (fun b => code b <> 13 /\ code b <> 10) (cline_render l).
Proof.
  intros W. apply cline_chars in W. rewrite forallb_forall in W. apply Forall_forall. intros c I. specialize (W c I). unfold value_char in W. lia.
Qed.
Lemma wf_head l : cline_wf l = true -> exists c r, cline_render l = c :: r /\ c <> SP.
Proof.
  unfold cline_wf, cline_render. rewrite !andb_true_iff. intros [[[N C] _] _]. destruct (cl_name l) as [|c n]; [discriminate|]. exists c. eexists. split; [reflexivity|].
  intros ->. cbn [forallb] in C. apply andb_true_iff in C as [C _]. discriminate.
Qed.
Lemma lines_no_fold ls : wf_lines ls -> find_fold (lines_text ls) = None.
Proof.
  assert (P : forall x y, Forall (fun b => code b <> 13 /\ code b <> 10) x -> find_fold y = None -> find_fold (x ++ y) = None).
  { intros x y F Y. induction F as [|c x [A _] _ IH]; [exact Y|]. cbn [app]. destruct (x ++ y) as [|a [|b r]]; [reflexivity|reflexivity|]. apply find_fold_3; [|exact IH].
    replace (beqc c CR) with false; [reflexivity|]. symmetry. apply beqc_neq. intros ->. apply A. reflexivity. }
  intros W. induction W as [|l ls W Wls IH]; [reflexivity|]. rewrite lines_text_cons. apply P; [apply wf_plain, W|].
  change (CRLF ++ lines_text ls) with (CR :: LF :: lines_text ls). destruct ls as [|l' ls']; [reflexivity|].
  inversion Wls as [|? ? W' _]; subst. rewrite lines_text_cons in *. destruct (wf_head l' W') as (c & r & HR & N). rewrite HR in *. cbn [app] in *. apply find_fold_3.
  - apply beqc_neq in N. rewrite N. rewrite andb_false_r. reflexivity.
  - destruct (r ++ CRLF ++ lines_text ls') as [|a s]; [reflexivity|]. apply find_fold_3; [reflexivity|exact IH].
Qed.
Lemma lines_unfold ls : wf_lines ls -> unfold (lines_text ls) = lines_text ls.
Proof. intros W. apply unfold_none, lines_no_fold, W. Qed.

(** ** The text of a calendar *)
Definition last_piece : bytes := end_line (bs "VCALENDAR").
Lemma last_piece_eq : last_piece = bs "END:VCALENDAR" ++ CRLF.
Proof. reflexivity. Qed.
Lemma cal_text cal : sec_id cal = SCalendar -> cal_good cal -> exists qs items,
  sec_encode cal = wrs (qs ++ [last_piece]) /\ wf_lines (begin_of (bs "VCALENDAR") :: flat_map ilines items ++ [end_of (bs "VCALENDAR")]) /\
  concat qs = lines_text (begin_of (bs "VCALENDAR") :: flat_map ilines items) /\ smeans SCalendar items (forget cal).
Proof.
  destruct cal as [id fs]. cbn [sec_id]. intros -> G. destruct (body_rt (Sec SCalendar fs) SCalendar fs eq_refl G) as (items & [(ws & E & C) W] & M & _).
  exists (begin_line (bs "VCALENDAR") :: ws), items. split; [|split; [|split; [|exact M]]].
  - rewrite sec_encode_eq, E. change (sp_own (sec_spec SCalendar)) with true. change (sp_name (sec_spec SCalendar)) with (bs "VCALENDAR"). cbv iota. cbn [app]. unfold wrs. rewrite map_cons, map_app. reflexivity.
  - constructor; [reflexivity|]. apply Forall_app. split; [exact W|]. constructor; [reflexivity|constructor].
  - cbn [concat]. rewrite C, lines_text_cons, app_assoc. reflexivity.
Qed.
Lemma cal_framed items x : wf_lines (begin_of (bs "VCALENDAR") :: flat_map ilines items ++ [end_of (bs "VCALENDAR")]) -> smeans SCalendar items x ->
  framed (begin_of (bs "VCALENDAR")) items (end_of (bs "VCALENDAR")).
Proof. intros W M. repeat split; [eapply smeans_shape; eauto|]. exact W. Qed.
Lemma cal_decodes items x cal : wf_lines (begin_of (bs "VCALENDAR") :: flat_map ilines items ++ [end_of (bs "VCALENDAR")]) -> smeans SCalendar items x ->
  (decode_bytes (lines_text (begin_of (bs "VCALENDAR") :: flat_map ilines items) ++ last_piece) = Ok cal <-> all_extras x /\ cal = x).
Proof.
  intros W M. pose proof (cal_framed items x W M) as F. assert (T : rest_ok CRLF) by (right; exists []; reflexivity). pose proof (decode_frame _ _ _ _ cal F T) as D.
  assert (Q : lines_text (begin_of (bs "VCALENDAR") :: flat_map ilines items) ++ last_piece = frame_text (begin_of (bs "VCALENDAR")) items (end_of (bs "VCALENDAR")) ++ CRLF) by (unfold frame_text; rewrite <- app_assoc; reflexivity).
  rewrite Q, D, means_smeans. split.
  - intros [[M' X] _]. rewrite <- (proj1 smeans_fun _ _ _ M _ M') in X |- *. auto.
  - intros [X ->]. auto.
Qed.

(** ** Folded *)
Lemma folds_app a b : forall line, folds line (a ++ b) = let '(o, l) := folds line a in let '(o', l') := folds l b in (o ++ o', l').
Proof.
  induction a as [|q a IH]; intros line; cbn [app folds]; [destruct (folds line b); reflexivity|]. destruct (fold1 line q) as [o l]. rewrite IH. destruct (folds l a) as [o1 l1]. destruct (folds l1 b) as [o2 l2]. rewrite app_assoc. reflexivity.
Qed.
Lemma folds_line qs : forall st line, (st = CCrlf -> line = 0) -> runc st (concat qs) = CCrlf -> snd (folds line qs) = 0.
Proof.
  induction qs as [|q qs IH]; intros st line S R; cbn [folds concat] in *; [exact (S R)|]. rewrite runc_app in R. destruct (fold1_ins q st line S) as [_ N]. destruct (fold1 line q) as [o l]. cbn [snd] in N.
  specialize (IH (runc st q) l N R). destruct (folds l qs) as [o' l']. exact IH.
Qed.
Lemma lines_runc ls st : ls <> [] -> runc st (lines_text ls) = CCrlf.
Proof.
  intros N. destruct (exists_last N) as (ls' & l & ->). rewrite lines_text_app, lines_text_cons, !app_assoc, !runc_app. cbn. unfold nextc. change (beqc CR CR) with true. change (beqc LF CR) with false. reflexivity.
Qed.

Lemma cal_out cal e out : sec_id cal = SCalendar -> cal_good cal -> Encode ok_writer [] cal = EncDone e out -> exists o ls items,
  concat out = o ++ last_piece /\ ins C0 (lines_text ls) o /\ content cal = lines_text ls ++ last_piece /\ ls = begin_of (bs "VCALENDAR") :: flat_map ilines items /\
  wf_lines (ls ++ [end_of (bs "VCALENDAR")]) /\ smeans SCalendar items (forget cal).
Proof.
  intros I G E. destruct (cal_text cal I G) as (qs & items & EN & W & C & M). apply encode_ok_out in E as [_ E].
  rewrite EN, pieces_wrs, folds_app in E. pose proof (folds_line qs C0 0 ltac:(discriminate)) as L. rewrite C in L. assert (NN : begin_of (bs "VCALENDAR") :: flat_map ilines items <> []) by discriminate. specialize (L (lines_runc _ C0 NN)).
  pose proof (folds_ins qs C0 0 ltac:(discriminate)) as IN. rewrite C in IN.
  destruct (folds 0 qs) as [o l]. cbn [fst snd] in *. subst l.
  exists o, (begin_of (bs "VCALENDAR") :: flat_map ilines items), items. split; [rewrite E; reflexivity|]. split; [exact IN|]. split; [|split; [reflexivity|split; [exact W|exact M]]].
  unfold content. rewrite EN, pieces_wrs, concat_app, C. cbn [concat]. rewrite app_nil_r. reflexivity.
Qed.

Lemma last_piece_tail o : ~ bad_tail (o ++ last_piece).
Proof.
  intros (a & t & E & R). rewrite last_piece_eq in E. change (bs "END:VCALENDAR" ++ CRLF) with (bs "END:VCALENDA" ++ [ascii_of_nat 82; CR; LF]) in E. rewrite app_assoc in E.
  apply app_inj_len in E as [_ <-]; [|destruct R as [ -> | [ -> | -> ]]; reflexivity]. destruct R as [R|[R|R]]; discriminate.
Qed.

(** What is read back. *)
Theorem encode_decode cal : sec_id cal = SCalendar -> cal_good cal -> sec_valid cal = None -> exists out, Encode ok_writer [] cal = EncDone None out /\
  (forall w sizes, (forall i, (1 <= sizes i)%nat) -> (length (concat out) <= sizes 0)%nat -> exists n, forall fuel c, (n <= fuel)%nat -> (Decode fuel sizes [concat out] w = Ok c <-> rules_met cal /\ c = forget cal)) /\
  (~ has_fold (concat out) -> forall chunks sizes, concat chunks = concat out -> (forall i, (2 <= sizes i)%nat) -> exists n, forall fuel c, (n <= fuel)%nat -> (Decode fuel sizes chunks false = Ok c <-> rules_met cal /\ c = forget cal)).
Proof.
  intros I G V. assert (E : exists out, Encode ok_writer [] cal = EncDone None out).
  { unfold Encode. rewrite V, run_trace_spec. cbv zeta. destruct (cal_text cal I G) as (qs & items & EN & _). rewrite EN. 
    replace (hangs (wrs (qs ++ [last_piece]))) with false; [|symmetry; clear; generalize (qs ++ [last_piece]); induction l; [reflexivity|exact IHl]].
    unfold new_folder. destruct (folder_writes_ok (pieces (wrs (qs ++ [last_piece]))) 0 []) as (new & -> & _). eexists. reflexivity. }
  destruct E as (out & E). exists out. split; [exact E|].
  destruct (cal_out cal None out I G E) as (o & ls & items & O & IN & CT & LS & W & M).
  assert (WL : lines_text ls ++ last_piece = lines_text (ls ++ [end_of (bs "VCALENDAR")])) by (rewrite lines_text_app; reflexivity).
  assert (D : forall c, decode_bytes (unfold (concat out)) = Ok c <-> rules_met cal /\ c = forget cal).
  { intros c. rewrite (encode_unfold cal None out E), CT, WL, (lines_unfold _ W), <- WL, LS, <- (extras_rules cal G). apply cal_decodes; [|exact M]. rewrite LS in W. exact W. }
  split.
  - intros w sizes S1 S2. destruct (decode_one_read (concat out) w sizes) as (n & N); [|exact S1|exact S2|exists n; intros fuel c F; rewrite (N fuel F); apply D].
    intros _. rewrite O. apply last_piece_tail.
  - intros NF chunks sizes Q S2. destruct (decode_fold_free chunks sizes S2) as (n & N); [rewrite Q; exact NF|]. exists n. intros fuel c F. rewrite (N fuel F), Q.
    rewrite unfold_none in D; [apply D|]. destruct (find_fold (concat out)) eqn:FF; [|reflexivity]. destruct NF. apply has_fold_find. rewrite FF. discriminate.
Qed.

(** ** Cut output *)
Lemma ins_prefix st s o : ins st s o -> forall p q, o = p ++ q -> exists c d t p0, s = c ++ d /\ p = p0 ++ t /\ ins st c p0 /\ In t [[]; [CR]; [CR; LF]; eol].
Proof.
  induction 1 as [st|st c s o H IH|st c s o H1 H2 H IH]; intros p q Q.
  - destruct p; [|discriminate]. exists [], [], [], []. repeat split; [constructor|left; reflexivity].
  - destruct p as [|c' p]; [exists [], (c :: s), [], []; repeat split; [constructor|left; reflexivity]|]. injection Q as <- Q. destruct (IH p q Q) as (c1 & d & t & p0 & -> & -> & I & T).
    exists (c :: c1), d, t, (c :: p0). repeat split; [apply ins_cons, I|exact T].
  - destruct p as [|x1 [|x2 [|x3 [|x4 p]]]]; cbn [eol app] in Q.
    + exists [], (c :: s), [], []. repeat split; [constructor|cbn; auto].
    + injection Q as <- _. exists [], (c :: s), [CR], []. repeat split; [constructor|cbn; auto].
    + injection Q as <- <- _. exists [], (c :: s), [CR; LF], []. repeat split; [constructor|cbn; auto].
    + injection Q as <- <- <- _. exists [], (c :: s), eol, []. repeat split; [constructor|cbn; auto].
    + injection Q as <- <- <- <- Q. destruct (IH p q Q) as (c1 & d & t & p0 & -> & -> & I & T).
      exists (c :: c1), d, t, (eol ++ c :: p0). repeat split; [apply ins_fold; assumption|exact T].
Qed.
Lemma has_fold_snoc s x : x <> SP -> has_fold (s ++ [x]) -> has_fold s.
Proof.
  intros N (a & b & E). destruct (list_eq_dec Ascii.ascii_dec b []) as [->|NB].
  - rewrite app_nil_r in E. change fold3 with ([CR; LF] ++ [SP]) in E. rewrite app_assoc in E. apply app_inj_tail in E as [_ E]. congruence.
  - destruct (exists_last NB) as (b' & y & ->). rewrite !app_assoc in E. apply app_inj_tail in E as [-> _]. exists a, b'. rewrite <- app_assoc. reflexivity.
Qed.
Lemma frame_no_cut b items e c t cal : framed b items e -> cl_value e = bs "VCALENDAR" -> (exists q, frame_text b items e = c ++ q /\ q <> []) -> In t [[]; [CR]; [CR; LF]] -> decode_bytes (c ++ t) <> Ok cal.
Proof.
  intros F V (q & Q & NQ) T D. assert (N : forall x, decode_bytes c <> Ok x) by (intros x; exact (PrefixProofs.decode_cut b items e c q x F V Q NQ)).
  destruct T as [<-|T]; [rewrite app_nil_r in D; exact (N _ D)|].
  apply decode_has_frame in D as (b' & items' & e' & tail & F' & R & E & M & V').
  assert (A : exists tail', c = frame_text b' items' e' ++ tail' /\ rest_ok tail').
  { destruct R as [->|(r & ->)].
    - rewrite app_nil_r in E. exfalso. unfold frame_text, cline_render in E. rewrite V' in E. change (bs "VCALENDAR") with (bs "VCALENDA" ++ [ascii_of_nat 82]) in E. rewrite !app_assoc in E.
      destruct T as [<-|[<-|[]]]; [|change [CR; LF] with ([CR] ++ [LF]) in E; rewrite app_assoc in E]; apply app_inj_tail in E as [_ E]; discriminate.
    - destruct (le_lt_dec (length (frame_text b' items' e')) (length c)) as [L|L].
      + assert (c = frame_text b' items' e' ++ skipn (length (frame_text b' items' e')) c) as E'.
        { rewrite <- (firstn_skipn (length (frame_text b' items' e')) c) at 1. f_equal. transitivity (firstn (length (frame_text b' items' e')) (c ++ t)); [rewrite firstn_app; replace (length (frame_text b' items' e') - length c)%nat with 0%nat by lia; rewrite firstn_O, app_nil_r; reflexivity|].
          rewrite E. apply firstn_app_exact. reflexivity. }
        remember (skipn (length (frame_text b' items' e')) c) as tail' eqn:TE. clear TE. exists tail'. split; [exact E'|]. rewrite E', <- app_assoc in E. apply app_inv_head in E.
        destruct tail' as [|x [|y tl]]; [left; reflexivity| |].
        * exfalso. destruct T as [<-|[<-|[]]]; discriminate.
        * right. exists tl. injection E as -> -> _. reflexivity.
      + exfalso. assert (LT : (length (c ++ t) = length (frame_text b' items' e' ++ CRLF ++ r))%nat) by congruence. rewrite !app_length in LT. cbn [length CRLF] in LT. destruct T as [<-|[<-|[]]]; cbn [length] in LT; lia. }
  destruct A as (tail' & -> & R'). apply (N cal). apply decode_frame; auto.
Qed.

Theorem encode_cut cal e out p q : sec_id cal = SCalendar -> cal_good cal -> Encode ok_writer [] cal = EncDone e out ->
  concat out = p ++ q ++ CRLF -> q <> [] -> forall w sizes, (forall i, (1 <= sizes i)%nat) -> (length p <= sizes 0)%nat -> exists n, forall fuel cal', (n <= fuel)%nat -> Decode fuel sizes [p] w <> Ok cal'.
Proof.
  intros I G E Q NQ w sizes S1 S2.
  destruct (cal_out cal e out I G E) as (o & ls & items & O & IN & CT & LS & W & M).
  assert (DEC : has_fold p /\ bad_tail p \/ (has_fold p -> ~ bad_tail p)).
  { destruct (find_fold p) eqn:FF; [|right; intros H; apply has_fold_find in H; congruence]. destruct (le_lt_dec 3 (length p)) as [L3|L3].
    - destruct (last3 p L3) as (o' & x & y & z & Ep). destruct (rot_dec [x; y; z]) eqn:RD.
      + left. split; [apply has_fold_find; congruence|]. exists o', [x; y; z]. split; [exact Ep|apply rot_dec_spec, RD].
      + right. intros _ (a & t & Ea & R). rewrite Ep in Ea. apply app_inj_len in Ea as [_ <-]; [|destruct R as [ -> | [ -> | -> ]]; reflexivity]. apply rot_dec_spec in R. congruence.
    - right. intros _ (a & t & Ea & R). assert (length t = 3%nat) by (destruct R as [ -> | [ -> | -> ]]; reflexivity). rewrite Ea, app_length in L3. lia. }
  destruct DEC as [[HF BT]|GT]; [exists 0%nat; intros fuel cal' _; rewrite (decode_hangs p w sizes HF BT S2 fuel); discriminate|].
  destruct (decode_one_read p w sizes GT S1 S2) as (n & N). exists n. intros fuel cal' F. rewrite (N fuel F).
  assert (FR : framed (begin_of (bs "VCALENDAR")) items (end_of (bs "VCALENDAR"))).
  { apply (cal_framed items (forget cal)); [rewrite LS in W; exact W|exact M]. }
  assert (FT : frame_text (begin_of (bs "VCALENDAR")) items (end_of (bs "VCALENDAR")) = lines_text ls ++ bs "END:VCALENDAR") by (rewrite LS; reflexivity).
  assert (NFD : find_fold (lines_text ls ++ bs "END:VCALENDAR") = None).
  { apply (no_fold_sub [] _ CRLF). cbn [app]. rewrite <- app_assoc. change (bs "END:VCALENDAR" ++ CRLF) with (lines_text [end_of (bs "VCALENDAR")]). rewrite <- lines_text_app. apply lines_no_fold, W. }
  assert (UN : forall c d t, lines_text ls ++ bs "END:VCALENDAR" = c ++ d -> In t [[]; [CR]; [CR; LF]] -> unfold (c ++ t) = c ++ t).
  { intros c d t Ec T. apply unfold_none. destruct (find_fold (c ++ t)) eqn:FF; [|reflexivity]. exfalso. assert (H : has_fold (c ++ t)) by (apply has_fold_find; congruence).
    assert (HC : has_fold c).
    { destruct T as [<-|[<-|[<-|[]]]]; [rewrite app_nil_r in H; exact H|apply has_fold_snoc in H; [exact H|discriminate]|].
      change [CR; LF] with ([CR] ++ [LF]) in H. rewrite app_assoc in H. apply has_fold_snoc in H; [|discriminate]. apply has_fold_snoc in H; [exact H|discriminate]. }
    destruct HC as (a & b & ->). rewrite Ec in NFD. apply find_fold_has in NFD; [exact NFD|]. exists a, (b ++ d). rewrite <- !app_assoc. reflexivity. }
  rewrite O, last_piece_eq, !app_assoc in Q. apply app_inv_tail in Q.
  destruct (le_lt_dec (length p) (length o)) as [LE|GE].
  - assert (Eo : exists q1, o = p ++ q1). { exists (skipn (length p) o). rewrite <- (firstn_skipn (length p) o) at 1. f_equal. transitivity (firstn (length p) (o ++ bs "END:VCALENDAR")); [rewrite firstn_app; replace (length p - length o)%nat with 0%nat by lia; rewrite firstn_O, app_nil_r; reflexivity|]. rewrite Q. apply firstn_app_exact. reflexivity. }
    destruct Eo as (q1 & Eo). destruct (ins_prefix _ _ _ IN p q1 Eo) as (c & d & t & p0 & Es & Ep & IP & T).
    destruct (list_eq_dec Ascii.ascii_dec t eol) as [->|NT].
    + exfalso. apply GT; [exists p0, []; rewrite app_nil_r; exact Ep|]. exists p0, eol. split; [exact Ep|left; reflexivity].
    + assert (T' : In t [[]; [CR]; [CR; LF]]) by (cbn in *; intuition congruence).
      assert (U : unfold p = c ++ t).
      { rewrite Ep. pose proof (ins_unfold C0 _ _ (ins_app C0 c p0 IP t t (ins_id t _))) as U. cbn [wrap] in U. rewrite U. apply (UN c (d ++ bs "END:VCALENDAR")); [rewrite Es, <- app_assoc; reflexivity|exact T']. }
      rewrite U. apply (frame_no_cut _ items _ c t cal' FR eq_refl); [|exact T']. exists (d ++ bs "END:VCALENDAR"). rewrite FT, Es, <- app_assoc. split; [reflexivity|]. destruct d; discriminate.
  - assert (Ep : exists p2, p = o ++ p2). { exists (skipn (length o) p). rewrite <- (firstn_skipn (length o) p) at 1. f_equal. transitivity (firstn (length o) (p ++ q)); [rewrite firstn_app; replace (length o - length p)%nat with 0%nat by lia; rewrite firstn_O, app_nil_r; reflexivity|]. rewrite <- Q. apply firstn_app_exact. reflexivity. }
    destruct Ep as (p2 & ->). rewrite <- app_assoc in Q. apply app_inv_head in Q.
    assert (U : unfold (o ++ p2) = lines_text ls ++ p2).
    { pose proof (ins_unfold C0 _ _ (ins_app C0 _ _ IN p2 p2 (ins_id p2 _))) as U. cbn [wrap] in U. rewrite U. rewrite <- (app_nil_r (lines_text ls ++ p2)). apply (UN _ q); [rewrite Q, <- app_assoc; reflexivity|left; reflexivity]. }
    rewrite U, <- (app_nil_r (lines_text ls ++ p2)). apply (frame_no_cut _ items _ _ [] cal' FR eq_refl); [|left; reflexivity]. exists q. rewrite FT, Q, <- app_assoc. auto.
Qed.
End R.
