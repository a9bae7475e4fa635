(** The message for a text that cannot be read, exactly. *)
From Coq Require Import String Ascii ZArith Bool List Lia.
From Verif Require Import Base Lib Strtok Tokeniser SpecContent TokeniserProofs GoTime Types Params ParamTable PropTable Props SecTable Sections Codec SpecTree TreeProofs ExactProofs SpecBadLine SpecFail FailProofs FailTextProofs SpecLine LabelTable Messages SpecMessage MessageProofs MessageLineProofs.
Import ListNotations.

Section MS.
Context {env : Env}.

Lemma lift_ok {A} mk (r : res A) a : r = Ok a -> lift mk r = MOk a.
Proof. intros ->. reflexivity. Qed.
Lemma sec_ok fuel id fs s x : dec_sec fuel id fs s = Ok x -> dec_sec_m fuel id fs s = MOk x.
Proof. intros H. apply erase_ok. rewrite sec_erase. exact H. Qed.
Lemma prop_ok_m pid ts d p : prop_decode pid ts d = Ok p -> prop_decode_m pid ts d = MOk p.
Proof. intros H. apply erase_ok. rewrite prop_erase. exact H. Qed.

Lemma dec_sec_m_progress : forall fuel id fs items fs' rest s en, feeds s (flat_map ilines items ++ rest) en -> Forall (item_ok id) items ->
  length fs = length (fields_of id) -> length fs' = length (fields_of id) -> aims id fs items fs' -> length (flat_map ilines items ++ rest) < fuel ->
  exists fuel' s', length rest < fuel' <= fuel /\ feeds s' rest en /\ dec_sec_m fuel id fs s = dec_sec_m fuel' id fs' s'.
Proof.
  induction fuel as [|f IH]; intros id fs items fs' rest s en F I L L' T Le; [lia|]. destruct items as [|it items].
  - cbn [flat_map app] in *. apply aims_done in T; [|assumption|assumption]. subst fs'. exists (S f), s. split; [lia|]. auto.
  - assert (NEXT : forall fs1 s1, length fs1 = length (fields_of id) -> feeds s1 (flat_map ilines items ++ rest) en -> aims id fs1 items fs' ->
      length (flat_map ilines items ++ rest) < f ->
      exists fuel' s', length rest < fuel' <= S f /\ feeds s' rest en /\ dec_sec_m f id fs1 s1 = dec_sec_m fuel' id fs' s').
    { intros fs1 s1 L1 F1 T1 Le1. inversion I as [|? ? I0 I1]; subst. destruct (IH id fs1 items fs' rest s1 en F1 I1 L1 L' T1 Le1) as (f' & s' & B & F' & Q).
      exists f', s'. split; [lia|]. auto. }
    cbn [dec_sec_m]. inversion I as [|? ? I0 I1]; subst. cbn [flat_map] in F, Le. rewrite <- app_assoc in F, Le. rewrite app_length in Le.
    destruct it as [l|b body e'|b body e'|b body e']; cbn [ilines app length] in F, Le.
    + inversion F as [|? ? s1 ? ? G F1]; subst. rewrite G. cbn [lift wrap mbind]. rewrite parts_tokens. cbn [lift mbind]. cbn [item_ok] in I0.
      destruct (plain_tests l I0) as [B0 E0]. rewrite B0, E0.
      destruct (find_field (is_prop_field (upper (cl_name l))) (fields_of id)) as [[i fd]|] eqn:FF.
      * apply find_field_some in FF as [N Pf]. apply prop_field_true in Pf as [Sf Kf]. unfold sec_field in Sf.
        destruct (fd_type fd) as [pid|sid|] eqn:Ty; try discriminate Sf.
        assert (Bl : belongs fd (ILine l)) by (unfold belongs; rewrite Ty; exact (eq_sym Kf)).
        destruct (aims_take id fs (ILine l) items fs' i fd L T N Bl) as (v & IM & Fu & T1). rewrite Fu. rewrite Ty in IM.
        inversion IM as [? ? p D| |]; subst. rewrite (prop_ok_m _ _ _ _ D). cbn [wrap mbind]. apply NEXT; try assumption; [rewrite add_field_length; exact L|lia].
      * apply aims_skip in T.
        2:{ intros fd Ifd Bl. pose proof (find_field_none _ _ FF fd Ifd) as NF. unfold belongs in Bl. destruct (fd_type fd) eqn:Ty; try contradiction.
            assert (is_prop_field (upper (cl_name l)) fd = true); [|congruence]. apply prop_field_true. unfold sec_field. rewrite Ty. split; [reflexivity|]. symmetry. exact Bl. }
        apply NEXT; try assumption. lia.
    + inversion F as [|? ? s1 ? ? G F1]; subst. rewrite G. cbn [lift wrap mbind]. rewrite parts_tokens. cbn [lift mbind]. cbn [item_ok] in I0.
      destruct I0 as (B & fd & sid & Ifd & Ty & Bl). unfold is_begin, line_is in B. rewrite B, beq_refl.
      apply In_nth_error in Ifd as [i N]. pose proof Bl as K. unfold belongs in K. rewrite Ty in K.
      rewrite (sec_field_here id i fd b) by (try assumption; try (unfold sec_field; rewrite Ty; reflexivity); symmetry; exact K).
      destruct (aims_take id fs _ items fs' i fd L T N Bl) as (v & IM & Fu & T1). cbv zeta. rewrite Fu, Ty. rewrite Ty in IM.
      inversion IM as [|? ? ? ? y M E' V'|]; subst. apply feeds_split in F1 as (s2 & R1 & R2). rewrite app_length in Le. cbn [length] in Le.
      rewrite (sec_ok _ _ _ _ _ (means_dec_sec f sid body e' s1 s2 y R1 E' V' M ltac:(lia))). cbn [wrap mbind]. apply NEXT; try assumption; [rewrite add_field_length; exact L|lia].
    + inversion F as [|? ? s1 ? ? G F1]; subst. rewrite G. cbn [lift wrap mbind]. rewrite parts_tokens. cbn [lift mbind]. cbn [item_ok] in I0.
      destruct I0 as (B & fd & Ifd & Ty & Bl). unfold is_begin, line_is in B. rewrite B, beq_refl.
      apply In_nth_error in Ifd as [i N]. pose proof Bl as K. unfold belongs in K. rewrite Ty in K.
      rewrite (sec_field_here id i fd b) by (try assumption; try (unfold sec_field; rewrite Ty; reflexivity); symmetry; exact K).
      destruct (aims_take id fs _ items fs' i fd L T N Bl) as (v & IM & Fu & T1). cbv zeta. rewrite Fu, Ty. rewrite Ty in IM.
      inversion IM as [| |? ? ? us w sid sub e2 more y Fb Ne A1 A2 A3 Q E2 V2 M2]; subst.
      apply feeds_split in F1 as (s2 & R1 & R2). rewrite app_length in Le. cbn [length] in Le.
      rewrite (gather_complete f None [] s1 body e' (Some sid) s2 R1 Fb Ne); [|left; exists us, w, sid; auto|lia]. cbn [lift wrap mbind app].
      assert (LQ : length (flat_map ilines sub) < f).
      { apply (f_equal (@length cline)) in Q. rewrite !app_length in Q. cbn [length] in Q. lia. }
      rewrite Q. rewrite (app_assoc (flat_map ilines sub)).
      rewrite (sec_ok f sid (no_fields sid) _ (y, SrcList (as_phrases more))) by (apply (means_dec_sec f sid sub e2); try assumption; apply reads_list). cbn [wrap mbind].
      apply NEXT; try assumption; [rewrite add_field_length; exact L|lia].
    + inversion F as [|? ? s1 ? ? G F1]; subst. rewrite G. cbn [lift wrap mbind]. rewrite parts_tokens. cbn [lift mbind]. cbn [item_ok] in I0.
      destruct I0 as (B & E' & V' & Sk & NF). unfold is_begin, line_is in B. rewrite B, beq_refl.
      rewrite find_field_absent.
      2:{ intros g Ig. destruct (is_sec_field (upper (cl_value b)) g) eqn:P; [|reflexivity]. apply sec_field_true in P as [P1 P2].
          destruct (NF g Ig); [|auto]. intros pid Q. unfold sec_field in P1. rewrite Q in P1. discriminate. }
      apply feeds_split in F1 as (s2 & R1 & R2). rewrite app_length in Le. cbn [length] in Le.
      cbv zeta. rewrite (skip_complete f _ body e' s1 s2 R1 Sk E' V') by lia. cbn [lift wrap mbind].
      apply aims_skip in T; [|intros fd _; unfold belongs; destruct (fd_type fd); tauto]. apply NEXT; try assumption. lia.
Qed.

Lemma end_says {B} s en w (k : phrase * src -> mres B) : ends s en -> (forall s1, k (PhraseDone, s1) = MErr (Wrap w (Root ErrUnexpectedEOF))) ->
  mbind (wrap w (lift Root (get_ph s))) k = MErr (Wrap w (Root (end_error en))).
Proof.
  intros E K. destruct en as [|e|]; cbn [ends end_error] in *.
  - destruct E as [s1 E]. rewrite E. cbn [lift wrap mbind]. apply K.
  - destruct E as [_ E]. rewrite E. reflexivity.
  - subst s. reflexivity.
Qed.

Lemma breaks_says_complete : forall fuel id fs rest en m s, length fs = length (fields_of id) -> breaks_says id fs rest en m -> feeds s rest en -> length rest < fuel ->
  dec_sec_m fuel id fs s = MErr m.
Proof.
  intros fuel. induction fuel as [fuel IH] using lt_wf_ind. intros id fs rest en m s L H F Le. destruct fuel as [|fu]; [lia|].
  assert (FAULT : forall sid ls en m s, fault_says sid ls en m -> feeds s ls en -> length ls < fu -> dec_sec_m fu sid (no_fields sid) s = MErr m).
  { clear - IH. intros sid ls en m s H F Le. destruct H as [sid items fs rest en m S B]. apply so_far_aims in S as (I & L & A).
    destruct (dec_sec_m_progress fu sid (no_fields sid) items fs rest s en F I (no_fields_length sid) L A Le) as (f' & s' & Lf & F' & ->).
    eapply IH; try eassumption; lia. }
  cbn [dec_sec_m]. rewrite sec_names. destruct H as [id fs en|id fs l more en i fd N Bl M P|id fs l more en i fd pid m N Bl Ty M P|id fs e more en E V|id fs e more en i fd E V N M P|id fs e more en r E V R Ir X
    |id fs b ls en fd sid m B Ifd Ty K H|id fs b ls en fd m B Ifd Ty K H|id fs b ls en e B NF H].
  - inversion F as [? ? E|]; subst. apply end_says; [exact E|reflexivity].
  - inversion F as [|? ? s1 ? ? G F1]; subst. rewrite G. cbn [lift wrap mbind]. rewrite parts_tokens. cbn [lift mbind].
    unfold belongs in Bl. destruct (fd_type fd) as [pid|sid|] eqn:Ty; try contradiction. pose proof (proj2 (table_ok id) fd (nth_error_In _ _ N)) as [K1 K2].
    unfold line_is in Bl. rewrite Bl. apply beq_neq in K1. rewrite K1.
    rewrite (find_field_here _ _ i fd N); [|apply prop_field_true; unfold sec_field; rewrite Ty; auto|].
    2:{ intros j g Nj Pg. apply prop_field_true in Pg as [Q1 Q2]. eapply sig_unique; eauto. unfold sig, sec_field at 2. rewrite Ty, Q1, Q2. reflexivity. }
    rewrite (proj2 (full_true fd i fs)) by auto. rewrite Ty, field_names. reflexivity.
  - inversion F as [|? ? s1 ? ? G F1]; subst. rewrite G. cbn [lift wrap mbind]. rewrite parts_tokens. cbn [lift mbind].
    unfold belongs in Bl. rewrite Ty in Bl. pose proof (proj2 (table_ok id) fd (nth_error_In _ _ N)) as [K1 K2].
    unfold line_is in Bl. rewrite Bl. apply beq_neq in K1. rewrite K1.
    rewrite (find_field_here _ _ i fd N); [|apply prop_field_true; unfold sec_field; rewrite Ty; auto|].
    2:{ intros j g Nj Pg. apply prop_field_true in Pg as [Q1 Q2]. eapply sig_unique; eauto. unfold sig, sec_field at 2. rewrite Ty, Q1, Q2. reflexivity. }
    rewrite (proj2 (full_false fd i fs)) by auto. rewrite Ty, (proj2 (line_says_iff pid _ _ m) P), field_names. reflexivity.
  - inversion F as [|? ? s1 ? ? G F1]; subst. rewrite G. cbn [lift wrap mbind]. rewrite parts_tokens. cbn [lift mbind]. unfold is_end, line_is in E. rewrite E.
    change (beq (bs "END") (bs "BEGIN")) with false. cbv iota. rewrite find_field_absent by (intros g Ig; eapply not_prop_key; exact Ig).
    rewrite beq_refl. apply beq_neq in V. rewrite V. reflexivity.
  - inversion F as [|? ? s1 ? ? G F1]; subst. rewrite G. cbn [lift wrap mbind]. rewrite parts_tokens. cbn [lift mbind]. unfold is_end, line_is in E. rewrite E.
    change (beq (bs "END") (bs "BEGIN")) with false. cbv iota. rewrite find_field_absent by (intros g Ig; eapply not_prop_key; exact Ig).
    rewrite beq_refl, V, beq_refl. rewrite (proj2 (finish_fails id fs (Failed ErrMissingRequired) L)); [reflexivity|]. left. split; [reflexivity|]. eauto.
  - inversion F as [|? ? s1 ? ? G F1]; subst. rewrite G. cbn [lift wrap mbind]. rewrite parts_tokens. cbn [lift mbind]. unfold is_end, line_is in E. rewrite E.
    change (beq (bs "END") (bs "BEGIN")) with false. cbv iota. rewrite find_field_absent by (intros g Ig; eapply not_prop_key; exact Ig).
    rewrite beq_refl, V, beq_refl. rewrite (proj2 (finish_fails id fs (Failed ErrRequirementNotMet) L)); [reflexivity|]. right. split; [reflexivity|]. eauto.
  - inversion F as [|? ? s1 ? ? G F1]; subst. rewrite G. cbn [lift wrap mbind]. rewrite parts_tokens. cbn [lift mbind]. unfold is_begin, line_is in B. rewrite B, beq_refl.
    pose proof Ifd as Ifd0. apply In_nth_error in Ifd as [i N]. assert (Sf : sec_field fd = true) by (unfold sec_field; rewrite Ty; reflexivity).
    rewrite (sec_field_here id i fd b) by (try assumption; symmetry; exact K). cbv zeta. rewrite (proj2 (full_false fd i fs)) by (left; eapply sec_many; eauto). rewrite Ty.
    cbn [length] in Le. rewrite (FAULT sid ls en m s1 H F1) by lia. rewrite field_names. reflexivity.
  - inversion F as [|? ? s1 ? ? G F1]; subst. rewrite G. cbn [lift wrap mbind]. rewrite parts_tokens. cbn [lift mbind]. unfold is_begin, line_is in B. rewrite B, beq_refl.
    pose proof Ifd as Ifd0. apply In_nth_error in Ifd as [i N]. assert (Sf : sec_field fd = true) by (unfold sec_field; rewrite Ty; reflexivity).
    rewrite (sec_field_here id i fd b) by (try assumption; symmetry; exact K). cbv zeta. rewrite (proj2 (full_false fd i fs)) by (left; eapply sec_many; eauto). rewrite Ty, field_names.
    cbn [length] in Le. destruct H as [body ty en Al A NE|body ty l more en Al A B'|body sid l more en Al A A'|body e more en Al A E'|body sid e more en m Al A E' H]; apply action_ty in A.
    + rewrite (gather_fail_complete fu None [] s1 body [] ty en (alarm_end_fail en)); [|rewrite app_nil_r; exact F1|exact Al|exact A|constructor|lia]. destruct en; [congruence|reflexivity|reflexivity].
    + rewrite app_length in Le. cbn [length] in Le.
      rewrite (gather_fail_complete fu None [] s1 body (l :: more) ty en (Failed ErrInvalidStructure)); [reflexivity|exact F1|exact Al|exact A|constructor; exact B'|lia].
    + rewrite app_length in Le. cbn [length] in Le.
      rewrite (gather_fail_complete fu None [] s1 body (l :: more) (Some sid) en (Failed ErrInvalidStructure)); [reflexivity|exact F1|exact Al|exact A|apply Sk_action; [exact A'|discriminate]|lia].
    + rewrite app_length in Le. cbn [length] in Le. change (e :: more) with ([e] ++ more) in F1. rewrite app_assoc in F1. apply feeds_split in F1 as (s2 & R & F2).
      rewrite (gather_complete fu None [] s1 body e None s2 R Al E' A) by lia. reflexivity.
    + rewrite app_length in Le. cbn [length] in Le. change (e :: more) with ([e] ++ more) in F1. rewrite app_assoc in F1. apply feeds_split in F1 as (s2 & R & F2).
      rewrite (gather_complete fu None [] s1 body e (Some sid) s2 R Al E' A) by lia. cbn [lift wrap mbind app].
      rewrite (FAULT sid (body ++ [e]) AtList m _ H (feeds_list _)) by (rewrite app_length; cbn [length]; lia). reflexivity.
  - inversion F as [|? ? s1 ? ? G F1]; subst. rewrite G. cbn [lift wrap mbind]. rewrite parts_tokens. cbn [lift mbind]. unfold is_begin, line_is in B. rewrite B, beq_refl.
    rewrite find_field_absent.
    2:{ intros g Ig. destruct (is_sec_field (upper (cl_value b)) g) eqn:P; [|reflexivity]. apply sec_field_true in P as [P1 P2].
        destruct (NF g Ig); [|auto]. intros pid Q. unfold sec_field in P1. rewrite Q in P1. discriminate. }
    cbn [length] in Le. cbv zeta. rewrite (skip_fail_complete fu _ ls en (Failed e) s1 H F1) by lia. reflexivity.
Qed.

Lemma fault_says_complete fuel sid ls en m s : fault_says sid ls en m -> feeds s ls en -> length ls < fuel -> dec_sec_m fuel sid (no_fields sid) s = MErr m.
Proof.
  intros H F Le. destruct H as [sid items fs rest en m SF B]. apply so_far_aims in SF as (I & L & A).
  destruct (dec_sec_m_progress fuel sid (no_fields sid) items fs rest s en F I (no_fields_length sid) L A Le) as (f' & s' & Lf & F' & ->).
  eapply breaks_says_complete; try eassumption; lia.
Qed.

(** ** Every error has such a message *)
Lemma fault_has_message sid ls en f : fault sid ls en f -> forall e, f = Failed e -> exists m, fault_says sid ls en m.
Proof.
  revert sid ls en f. apply (fault_ind2 env (fun sid ls en f _ => forall e, f = Failed e -> exists m, fault_says sid ls en m)
    (fun id fs rest en f _ => forall e, f = Failed e -> exists m, breaks_says id fs rest en m)
    (fun ls en f _ => forall e, f = Failed e -> exists m, alarm_says ls en m)).
  - intros id items fs rest en f SF _ IH e Q. destruct (IH e Q) as (m & M). exists m. econstructor; eassumption.
  - intros. eexists. constructor.
  - intros. eexists. eapply Bs_multiple; eassumption.
  - intros id fs l more en i fd pid f N Bl Ty M P e ->. cbn [fail_res] in P. rewrite <- prop_erase in P. apply erase_err in P as (m & P & _). apply line_says_iff in P. eexists. eapply Bs_value; eassumption.
  - intros. eexists. eapply Bs_name; eassumption.
  - intros. eexists. eapply Bs_missing; eassumption.
  - intros. eexists. eapply Bs_rule; eassumption.
  - intros id fs b ls en fd sid f B I Ty K _ IH e Q. destruct (IH e Q) as (m & M). eexists. eapply Bs_comp; eassumption.
  - intros id fs b ls en fd f B I Ty K _ IH e Q. destruct (IH e Q) as (m & M). eexists. eapply Bs_alarm; eassumption.
  - intros id fs b ls en f B NF H e ->. eexists. eapply Bs_skip; eassumption.
  - intros body ty en Al A e Q. eexists. eapply As_end; try eassumption. intros ->. discriminate Q.
  - intros. eexists. eapply As_begin; eassumption.
  - intros. eexists. eapply As_action; eassumption.
  - intros. eexists. eapply As_none; eassumption.
  - intros body sid e more en f Al A E' _ IH e0 Q. destruct (IH e0 Q) as (m & M). eexists. eapply As_content; eassumption.
Qed.

Lemma says_complete s m : says s m -> decode_m s = MErr m.
Proof.
  intros H. unfold decode_m. destruct H as [s en C|s l ls en C N|s b ls en m C Op H]; pose proof (cut_feeds _ _ _ C) as F.
  - inversion F as [? ? E|]; subst. destruct en as [|e|]; cbn [ends end_error] in *.
    + destruct E as [s1 E]. rewrite E. reflexivity.
    + destruct E as [_ E]. rewrite E. reflexivity.
    + discriminate E.
  - inversion F as [|? ? s1 ? ? G F1]; subst. rewrite G. cbn [lift mbind]. rewrite parts_tokens. cbn [lift mbind].
    destruct (beq (upper (cl_name l)) (bs "BEGIN") && beq (upper (cl_value l)) (bs "VCALENDAR")) eqn:B; [|reflexivity].
    apply andb_true_iff in B as [B V]. apply beq_eq in B, V. destruct N. split; assumption.
  - inversion F as [|? ? s1 ? ? G F1]; subst. rewrite G. cbn [lift mbind]. rewrite parts_tokens. cbn [lift mbind].
    destruct Op as [A V]. unfold is_begin, line_is in A. rewrite A, V, !beq_refl. cbn [andb].
    rewrite (fault_says_complete _ SCalendar ls en m s1 H F1); [reflexivity|]. apply cut_length in C. cbn [length] in C. lia.
Qed.
Theorem says_iff s m : decode_m s = MErr m <-> says s m.
Proof.
  split; [|apply says_complete]. intros H. assert (X : exists m', says s m').
  { assert (D : decode_bytes s = Err (root m)) by (rewrite <- decode_erase, H; reflexivity). apply (decode_fails s (Failed (root m))) in D. remember (Failed (root m)) as f eqn:Q. destruct D as [s en C|s l ls en C N|s b ls en f C Op F].
    - eexists. apply (Sy_empty s en C).
    - eexists. eapply Sy_first; eassumption.
    - destruct (fault_has_message _ _ _ _ F _ Q) as (m' & M). eexists. eapply Sy_inside; eassumption. }
  destruct X as (m' & M). pose proof (says_complete _ _ M). congruence.
Qed.
End MS.
