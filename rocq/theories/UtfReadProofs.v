(** What is decoded from UTF-8 is UTF-8, and so is what is encoded again. *)
From Coq Require Import String Ascii ZArith Bool List Lia.
From Verif Require Import Base Lib Utf8 Utf8Proofs GoStrings Strtok Tokeniser SpecContent NumProofs TextProofs GoTime Types Params ParamTable PropTable Props SecTable Sections Folder Unfolder Codec SpecLines FolderProofs SpecTree TreeProofs ExactProofs SpecRules EncodeProofs SpecParams ParamProofs SpecProps PropProofs HangProofs GroupProofs SpecCal CalProofs EncodableProofs SpecValid ValidProofs SpecOut DecodedProofs KeepProofs SpecUtf UtfProofs.
Import ListNotations.
Local Open Scope Z_scope.

Section R.
Context {env : Env}.

(** ** Components *)
Lemma sec_out cal : cal_ok cal -> outside_utf8 cal -> params_utf8 cal -> u8 (sec_encode cal).
Proof.
  intros [OK _] O P.
  assert (H : forall pid p, has_prop cal pid p -> u8 (prop_encode pid p)).
  { intros pid p X. destruct (O pid p X) as [O1 O2]. apply prop_out; [apply OK, X|exact O1|]. intros v V. split; [exact (P pid p v X V)|apply O2, V]. }
  clear OK O P. revert H. induction cal as [id fs IH] using (HangProofs.sec_induct). intros H.
  change (sec_encode (Sec id fs)) with ((if sp_own (sec_spec id) then [Wr (begin_line (sp_name (sec_spec id)))] else []) ++ flat_map (flat_map fval_encode) fs ++ (if sp_own (sec_spec id) then [Wr (end_line (sp_name (sec_spec id)))] else [])).
  destruct (sec_names id) as [N1 N2]. apply u8_app; [destruct (sp_own _); [apply u8_asc, N1|apply u8_nil]|]. apply u8_app; [|destruct (sp_own _); [apply u8_asc, N2|apply u8_nil]].
  apply u8_flat. intros vs I. apply u8_flat. intros v J. destruct v as [pid p|x|[x|]]; cbn [fval_encode].
  - apply H. exists (Sec id fs), vs. split; [constructor|auto].
  - apply (IH vs x I (or_introl J)). intros pid p (y & ws & Py & Q). apply H. exists y, ws. split; [eapply Part_sec; eauto|exact Q].
  - apply u8_app; [apply u8_cons; [apply asc_utf8; reflexivity|apply u8_asc, alarm_names]|]. apply u8_app; [|apply u8_asc; reflexivity].
    apply (IH vs x I (or_intror J)). intros pid p (y & ws & Py & Q). apply H. exists y, ws. split; [eapply Part_alarm; eauto|exact Q].
  - apply u8_nil.
Qed.
Theorem encode_pieces cal : sec_valid cal = None -> outside_utf8 cal -> params_utf8 cal -> Forall utf8 (pieces (sec_encode cal)).
Proof. intros V O P. apply u8_pieces, sec_out; auto. apply sec_valid_iff, V. Qed.
Theorem encode_out_utf8 cal e out : Encode ok_writer [] cal = EncDone e out -> outside_utf8 cal -> params_utf8 cal ->
  Forall utf8 (pieces (sec_encode cal)) /\ utf8 (concat out) /\ Forall utf8 (phys_lines (concat out)).
Proof.
  intros H O P. assert (V : sec_valid cal = None) by (unfold Encode in H; destruct (sec_valid cal); [discriminate|reflexivity]).
  pose proof (encode_pieces cal V O P) as F. split; [exact F|]. split; [|eapply encode_utf8; eauto]. apply encode_ok_out in H as [_ ->]. apply folds_utf8, F.
Qed.

(** ** Parameters of lines *)
Lemma more_values l : forall c r, code c < 128 -> utf8 (more_render l ++ c :: r) -> Forall (fun v => utf8 (pvalue_text v)) l /\ utf8 (c :: r).
Proof.
  unfold more_render. induction l as [|v l IH]; intros c r C U; [auto|]. cbn [map concat] in U. rewrite <- !app_assoc in U. apply utf8_uncons in U; [|reflexivity].
  assert (T : exists c' r', concat (map (fun v => bs "," ++ pvalue_render v) l) ++ c :: r = c' :: r' /\ code c' < 128).
  { destruct l as [|v' l]; [exists c, r; auto|]. eexists _, _. split; [reflexivity|reflexivity]. }
  destruct T as (c' & r' & T & C'). 
  assert (X : utf8 (pvalue_text v) /\ utf8 (c' :: r')).
  { destruct v as [v|v]; cbn [pvalue_render pvalue_text] in *; rewrite T in U.
    - rewrite <- !app_assoc in U. apply utf8_uncons in U; [|reflexivity]. apply (utf8_split v DQ (c' :: r')) in U; [|reflexivity]. exact U.
    - apply utf8_split in U as [U1 U2]; [|exact C']. split; [exact U1|]. apply utf8_cons; assumption. }
  destruct X as [X1 X2]. rewrite <- T in X2. destruct (IH c r C X2) as [I1 I2]. split; [constructor; assumption|exact I2].
Qed.
Lemma param_values_utf8 p c r : code c < 128 -> utf8 (cparam_render p ++ c :: r) -> Forall (fun v => utf8 (pvalue_text v)) (cp_first p :: cp_more p) /\ utf8 (c :: r).
Proof.
  intros C U. unfold cparam_render in U. rewrite <- !app_assoc in U. apply utf8_uncons in U; [|reflexivity]. apply utf8_split in U as [_ U]; [|reflexivity].
  apply more_values; [exact C|]. unfold more_render. cbn [map concat]. rewrite <- !app_assoc. apply (utf8_cons ","%char); [reflexivity|exact U].
Qed.
Definition line_utf8 (l : cline) : Prop := utf8 (cl_value l) /\ forall p v, In p (cl_params l) -> In v (cp_first p :: cp_more p) -> utf8 (pvalue_text v).
Lemma params_read ps : forall c r, code c < 128 -> utf8 (concat (map cparam_render ps) ++ c :: r) -> forall p v, In p ps -> In v (cp_first p :: cp_more p) -> utf8 (pvalue_text v).
Proof.
  induction ps as [|q ps IH]; intros c r C U p v I J; [destruct I|]. cbn [map concat] in U. rewrite <- app_assoc in U.
  assert (T : exists c' r', concat (map cparam_render ps) ++ c :: r = c' :: r' /\ code c' < 128).
  { destruct ps; [exists c, r; auto|]. eexists _, _. split; reflexivity. }
  destruct T as (c' & r' & T & C'). rewrite T in U. apply param_values_utf8 in U as [U1 U2]; [|exact C']. destruct I as [->|I].
  - rewrite Forall_forall in U1. apply U1, J.
  - rewrite <- T in U2. exact (IH c r C U2 p v I J).
Qed.
Lemma ascii_drop a s : Forall (fun c => code c < 128) a -> utf8 (a ++ s) -> utf8 s.
Proof. induction 1 as [|c a C _ IH]; intros U; [exact U|]. apply IH, (utf8_uncons c), U. exact C. Qed.
Lemma name_ascii n : forallb name_char n = true -> Forall (fun c => code c < 128) n.
Proof. rewrite forallb_forall. intros H. apply Forall_forall. intros c I. apply H in I. unfold name_char in I. lia. Qed.
Lemma lines_read ls : forall B, Forall (fun l => cline_wf l = true) ls -> utf8 (lines_text ls ++ B) -> Forall line_utf8 ls.
Proof.
  induction ls as [|l ls IH]; intros B W U; [constructor|]. apply Forall_cons_iff in W as [W1 W]. unfold lines_text in *. cbn [map concat] in U. rewrite <- app_assoc in U. constructor.
  - split; [eapply (line_value [] l), U|]. unfold cline_render in U. rewrite <- !app_assoc in U. unfold cline_wf in W1. rewrite !andb_true_iff in W1. destruct W1 as [[[_ N] _] _].
    apply ascii_drop in U; [|apply name_ascii, N]. apply (params_read _ _ _ (eq_refl : code ":"%char < 128) U).
  - apply (IH B W). rewrite <- app_assoc in U. change CRLF with ([CR] ++ [LF]) in U at 1. rewrite <- (app_assoc [CR]) in U. apply (utf8_split _ CR) in U as [_ U]; [|reflexivity]. apply (utf8_uncons LF) in U; [exact U|reflexivity].
Qed.

(** ** Values and parameters *)
Lemma code_utf8 s t : code_reads s t -> forall a, utf8 (a ++ s) -> utf8 (a ++ t).
Proof.
  induction 1 as [|c s t N R IH|s t R IH|s t R IH|s t R IH|c s u t N L R IH|]; intros a U; try exact U.
  - change (c :: t) with ([c] ++ t). rewrite app_assoc. apply IH. rewrite <- app_assoc. exact U.
  - apply utf8_split in U as [A U]; [|reflexivity]. apply utf8_uncons in U; [|reflexivity]. apply utf8_app; [exact A|]. do 3 (apply utf8_cons; [reflexivity|]). apply (IH [] U).
  - apply utf8_split in U as [A U]; [|reflexivity]. apply utf8_uncons in U; [|reflexivity]. apply utf8_app; [exact A|]. do 3 (apply utf8_cons; [reflexivity|]). apply (IH [] U).
  - apply utf8_split in U as [A U]; [|reflexivity]. apply utf8_uncons in U; [|reflexivity]. apply utf8_app; [exact A|]. do 3 (apply utf8_cons; [reflexivity|]). apply (IH [] U).
  - apply utf8_split in U as [A U]; [|reflexivity]. apply utf8_app; [exact A|]. do 3 (apply utf8_cons; [reflexivity|]). change (c :: u ++ t) with ((c :: u) ++ t). apply IH. exact U.
Qed.
Lemma decode6868_utf8 s : utf8 s -> utf8 (decode6868 s).
Proof. intros U. exact (code_utf8 _ _ (decode6868_reads s) [] U). Qed.
Lemma url_read s u : world_utf8 -> utf8 s -> url_decode s = Ok u -> utf8 (url_string u).
Proof. intros [W _] U. unfold url_decode. destruct (url_parse s) eqn:Q; [|discriminate]. intros H. apply Ok_inj in H. subst. eapply W; eauto. Qed.
Lemma zone_read t : world_utf8 -> known_loc (t_loc t) -> Forall utf8 (zone_names t).
Proof. intros [_ W]. unfold known_loc, zone_names. destruct (t_loc t); try constructor; [|constructor]. destruct H as (n & H). eapply W, H. Qed.
Lemma value_read k m d v : utf8 d -> value_decode k m d = Ok v -> Forall utf8 (value_texts v) /\ (world_utf8 -> Forall utf8 (value_outside v)).
Proof.
  intros U D. destruct k; cbn [value_decode] in D; apply kind_rmap in D as (a & D & ->); cbn [value_texts value_outside]; try solve [split; [constructor|intros _; constructor]].
  - split; [constructor|]. intros W. constructor; [eapply url_read; eauto|constructor].
  - split; [constructor|]. intros W. apply zone_read; [exact W|]. eapply datetime_known, D.
  - split; [constructor|]. intros W. apply zone_read; [exact W|]. unfold period_decode in D. destruct (cut _ d) as [[x y]|]; [|discriminate]. destruct y; [discriminate|]. apply bind_ok in D as (st & D1 & D). apply datetime_known in D1.
    destruct (_ || _); apply bind_ok in D as (e & _ & D); apply Ok_inj in D; subst a; exact D1.
  - split; [constructor|]. intros W. apply zone_read; [exact W|]. eapply recur_known, D.
  - split; [|intros _; constructor]. constructor; [|constructor]. eapply text_utf8; eauto.
  - split; [|intros _; constructor]. unfold mtext_decode in D. destruct (mtext_loop_utf8 _ _ _ _ _ U (Nat.lt_succ_diag_r _) (Forall_nil _) D) as [A B]. exact A.
  - split; [constructor|]. intros W. apply zone_read; [exact W|]. eapply clock_known, D.
  - split; [constructor|]. intros W. constructor; [eapply url_read; eauto|constructor].
Qed.
Lemma param_read_utf8 k vs v : Forall (fun t => utf8 (t_data t)) vs -> param_decode k vs = Ok v -> Forall utf8 (param_texts v) /\ (world_utf8 -> Forall utf8 (param_outside v)).
Proof.
  intros C H. rewrite Forall_forall in C. destruct k as [|qu| | |free ws|w| |]; cbn [param_decode] in H.
  - apply bind_ok in H as (t & TV & H). apply bind_ok in H as (d & Q & H). apply bind_ok in H as (u & D & H). apply Ok_inj in H. subst v. split; [constructor|]. intros W. apply quoted_data_eq in Q. subst d. constructor; [|constructor]. eapply url_read; [exact W| |exact D]. apply C, one_value_in, TV.
  - apply bind_ok in H as (t & TV & H). apply bind_ok in H as (d & D & H). apply Ok_inj in H. subst v. split; [|intros _; constructor]. constructor; [|constructor]. apply decode6868_utf8.
    assert (d = t_data t) as -> by (destruct qu; [apply quoted_data_eq, D|apply Ok_inj in D; auto]). apply C, one_value_in, TV.
  - apply bind_ok in H as (l & L & H). apply Ok_inj in H. subst v. split; [|intros _; constructor]. cbn [param_texts]. revert l L. induction vs as [|t vs IH]; intros l L; cbn [mapM] in L; [apply Ok_inj in L; subst; constructor|].
    apply bind_ok in L as (a & A & L). apply bind_ok in L as (l' & L' & L). apply Ok_inj in L. subst l. apply bind_ok in A as (d & Q & A). apply quoted_data_eq in Q. subst d. apply Ok_inj in A. subst a. constructor; [apply decode6868_utf8, C; left; reflexivity|apply IH; [intros t' I; apply C; right; exact I|exact L']].
  - apply bind_ok in H as (l & L & H). apply Ok_inj in H. subst v. split; [constructor|]. intros U. cbn [param_outside]. revert l L. induction vs as [|t vs IH]; intros l L; cbn [mapM] in L; [apply Ok_inj in L; subst; constructor|].
    apply bind_ok in L as (a & A & L). apply bind_ok in L as (l' & L' & L). apply Ok_inj in L. subst l. apply bind_ok in A as (d & Q & A). apply quoted_data_eq in Q. subst d. cbn [map]. constructor; [apply (url_read (t_data t)); [exact U|apply C; left; reflexivity|exact A]|apply IH; [intros t' I; apply C; right; exact I|exact L']].
  - apply bind_ok in H as (t & _ & H). destruct (index_of _ ws) as [n|]; [|destruct free; [|discriminate]]; apply Ok_inj in H; subst v; split; [constructor|intros _; constructor|constructor|intros _; constructor].
  - apply bind_ok in H as (t & _ & H). destruct (beq _ _); [|discriminate]. apply Ok_inj in H. subst v. split; [constructor|intros _; constructor].
  - apply bind_ok in H as (t & TV & H). destruct (regex_match _) eqn:R; [|discriminate]. apply Ok_inj in H. subst v. split; [|intros _; constructor]. constructor; [|constructor]. apply C, one_value_in, TV.
  - apply bind_ok in H as (t & _ & H). apply bind_ok in H as (b & _ & H). apply Ok_inj in H. subst v. split; [constructor|intros _; constructor].
Qed.
Lemma prop_read_utf8 pid l p : line_utf8 l -> prop_decode pid (params_tokens (cl_params l)) (cl_value l) = Ok p ->
  (forall v, prop_value p v -> Forall utf8 (value_texts v) /\ (world_utf8 -> Forall utf8 (value_outside v))) /\
  (forall v, prop_param p v -> Forall utf8 (param_texts v) /\ (world_utf8 -> Forall utf8 (param_outside v))).
Proof.
  intros [U UP] D. destruct (snd (prop_spec pid)) as [ps vs|ws|k] eqn:E.
  - destruct (struct_read _ _ _ _ _ _ E D) as (lp & a & w & k & b & v & -> & F2 & (EV & _) & K & m & DV). cbn [prop_value prop_param]. split.
    + intros v0 I. apply in_app_iff in I as [I|[I|I]]; [destruct (in_none _ _ I)| |destruct (in_none _ _ I)]. injection I as <-. eapply value_read; eauto.
    + intros v0 I. clear - UP F2 I. induction F2 as [|q o ps lp R _ IH]; [destruct I|]. destruct I as [->|I]; [|auto]. destruct R as [[_ R]|(x & v1 & G & PD & R)]; [discriminate|]. injection R as <-.
      eapply param_read_utf8; [|exact PD]. assert (X : In x (cl_params l)) by (assert (J : In x (given (fst (param_spec q)) (cl_params l))) by (rewrite G; left; reflexivity); unfold given in J; apply filter_In in J; apply J).
      unfold param_values. apply Forall_map, Forall_forall. intros pv J. specialize (UP x pv X J). destruct pv; exact UP.
  - unfold prop_decode in D. rewrite E in D. destruct (index_of _ ws) as [n|] eqn:IX; [|discriminate]. apply Ok_inj in D. subst p. split; intros v [].
  - unfold prop_decode in D. rewrite E in D. apply bind_ok in D as (v & DV & D). apply Ok_inj in D. subst p. cbn [prop_value prop_param]. split; [|intros _ []]. intros v0 <-. eapply value_read; eauto.
Qed.
Lemma decoded_line s cal pid p : decode_bytes s = Ok cal -> utf8 s -> has_prop cal pid p -> exists l, line_utf8 l /\ prop_decode pid (params_tokens (cl_params l)) (cl_value l) = Ok p.
Proof.
  intros D U P. apply decode_bytes_exact in D as (b & items & e & tail & _ & _ & M & _ & _ & W & -> & _).
  rewrite app_comm_cons in W. apply Forall_app in W as [W _]. pose proof (lines_read _ _ W U) as L. apply Forall_cons_iff in L as [_ L].
  apply (prop_line line_utf8 _ _ _ pid p M); [exact L|exact P].
Qed.
Theorem decoded_utf8 s cal : decode_bytes s = Ok cal -> utf8 s -> values_utf8 cal /\ params_utf8 cal /\ (world_utf8 -> outside_utf8 cal).
Proof.
  intros D U. assert (X : forall pid p, has_prop cal pid p -> (forall v, prop_value p v -> Forall utf8 (value_texts v) /\ (world_utf8 -> Forall utf8 (value_outside v))) /\
    (forall v, prop_param p v -> Forall utf8 (param_texts v) /\ (world_utf8 -> Forall utf8 (param_outside v)))).
  { intros pid p P. destruct (decoded_line _ _ _ _ D U P) as (l & L & PD). eapply prop_read_utf8; eauto. }
  split; [|split].
  - intros pid p v P V. apply (X pid p P), V.
  - intros pid p v P V. apply (X pid p P), V.
  - intros W pid p P. split; intros v V; apply (X pid p P); assumption.
Qed.
Theorem through_utf8 s cal e out : world_utf8 -> decode_bytes s = Ok cal -> utf8 s -> Encode ok_writer [] cal = EncDone e out ->
  utf8 (concat out) /\ Forall utf8 (phys_lines (concat out)).
Proof. intros W D U E. destruct (decoded_utf8 _ _ D U) as (_ & P & O). apply (encode_out_utf8 _ _ _ E (O W) P). Qed.
End R.
