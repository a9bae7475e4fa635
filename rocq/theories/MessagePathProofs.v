(** The names in a message, and errors.Is. *)
From Coq Require Import String Ascii ZArith Bool List Lia.
From Verif Require Import Base Lib Utf8 GoStrings Strtok Tokeniser SpecContent SpecBadLine GoTime Types Params ParamTable PropTable Props SecTable Sections Folder Codec SpecTree SpecRules SpecProps HangProofs SpecCal SpecValid GroupProofs SpecRfc SpecLine LineProofs SpecFail SpecOut LabelTable Messages SpecMessage MessageProofs MessageLineProofs MessageSecProofs ValidProofs MessageValidProofs SpecErrors ErrorsProofs BadLineProofs.
Import ListNotations.
Local Open Scope list_scope.

Section MP.
Context {env : Env}.

Lemma value_nameless vp d k e m : value_says vp d k e m -> nameless m.
Proof. induction 1; cbn [nameless]; auto. Qed.
Lemma form_nameless f x : nameless (form_cause f x).
Proof.
  destruct f; cbn [form_cause]; try exact Logic.I; unfold url_fault.
  - destruct (cp_first x), (cp_more x); exact Logic.I.
  - destruct (find _ _) as [[|]|]; exact Logic.I.
  - destruct (cp_more x); exact Logic.I.
Qed.
Lemma line_path pid cps d m : line_says pid cps d m -> prop_path pid m.
Proof.
  intros H. destruct H as [ps pre x post q RW RS _ _ I _ _|ps pre x post q RW RS _ _ I _ _ _|ps pre x post RW RS _ _ SV _ _|ps pre x post RW RS _ _ SV _ _ _|ps pre x post RW RS _ _ SV _ _ _ _|ps a w k b e m RW RS _ T _ V|RW _|w k e m RW RS T _ V].
  - eapply Pp_twice; eassumption.
  - eapply Pp_param; try eassumption. apply form_nameless.
  - apply Pp_type, SV.
  - apply Pp_type, SV.
  - apply Pp_here. exact Logic.I.
  - destruct T as [Q _]. apply (Pp_value pid w k); [rewrite Q; apply in_elt|]. eapply value_nameless, V.
  - apply Pp_here. exact Logic.I.
  - apply Pp_here. eapply value_nameless, V.
Qed.
Lemma fault_path sid ls en m : fault_says sid ls en m -> comp_path sid m.
Proof.
  revert sid ls en m. apply (fault_says_ind2 env (fun sid ls en m _ => comp_path sid m) (fun sid fs ls en m _ => comp_path sid m)
    (fun ls en m _ => (exists e, m = Root e) \/ exists w sid, action_is w sid /\ comp_path sid m)).
  - intros id items fs rest en m _ _ H. exact H.
  - intros. apply Cp_here.
  - intros id fs l more en i fd N _ _ _. apply Cp_twice. eapply nth_error_In, N.
  - intros id fs l more en i fd pid m N _ T _ H. apply line_path in H. eapply Cp_prop; [eapply nth_error_In, N|exact T|exact H].
  - intros. apply Cp_here.
  - intros. apply Cp_here.
  - intros. apply Cp_here.
  - intros id fs b ls en fd sid m _ I T _ _ H. eapply Cp_comp; eassumption.
  - intros id fs b ls en fd m _ I T _ _ [(e & ->)|(w & sid & A & H)]; [eapply Cp_alarm_bare; eassumption|eapply Cp_alarm; eassumption].
  - intros. apply Cp_here.
  - eauto.
  - eauto.
  - eauto.
  - eauto.
  - intros body sid e more en m _ A _ _ H. right. destruct A as (us & w & _ & _ & A). eauto.
Qed.
Theorem message_path s m : decode_m s = MErr m -> (exists e, m = Root e /\ decode_bytes s = Err e /\ forall b ls en, cut_into s (b :: ls) en -> ~ opens_calendar b) \/ comp_path SCalendar m.
Proof.
  intros H. pose proof H as H0. apply says_iff in H. destruct H as [s en C|s l ls en C N|s b ls en m C O F].
  - left. exists (end_error en). split; [reflexivity|]. split; [rewrite <- decode_erase, H0; reflexivity|]. intros b ls en' C'. destruct (FailTextProofs.cut_unique _ _ _ _ _ C C') as [Q _]. discriminate.
  - left. exists ErrInvalidCalendar. split; [reflexivity|]. split; [rewrite <- decode_erase, H0; reflexivity|]. intros b ls' en' C'. destruct (FailTextProofs.cut_unique _ _ _ _ _ C C') as [Q _]. congruence.
  - right. eapply fault_path, F.
Qed.
(** The text begins so. *)
Theorem path_text std id m : comp_path id m -> exists r, msg_text std m = bs "error decoding " ++ comp_word id ++ r.
Proof.
  destruct 1; cbn [msg_text wrapper_text]; rewrite <- ?app_assoc; eexists; reflexivity.
Qed.

(** ** errors.Is *)
(** No [Multiple] in it. *)
Fixpoint linear (m : gmsg) : Prop := match m with Root _ => True | Wrap _ m => linear m | Multiple _ _ => False end.
Lemma is_linear m e : linear m -> errors_is m e <-> root m = e.
Proof using Type. induction m as [x|w m IH|a b]; cbn [errors_is root linear]; tauto. Qed.
Fixpoint proper (m : gmsg) : Prop := match m with Root e => e <> ErrMultiple | Wrap _ m => proper m | Multiple _ _ => True end.
Lemma is_proper m e : proper m -> errors_is m e <-> root m = e /\ e <> ErrMultiple.
Proof using Type.
  induction m as [x|w m IH|a b]; cbn [errors_is root proper]; [|exact IH|].
  - intros N. split; [intros ->; auto|tauto].
  - intros _. split; [intros []|]. intros [<- N]. contradiction.
Qed.
Lemma linear_proper m : linear m -> root m <> ErrMultiple -> proper m.
Proof using Type. induction m as [x|w m IH|a b]; cbn [linear root proper]; tauto. Qed.
Lemma nameless_linear m : nameless m -> linear m.
Proof using Type. induction m as [x|[] m IH|a b]; cbn [nameless linear]; tauto. Qed.
Lemma prop_linear pid m : prop_path pid m -> linear m.
Proof. intros H. destruct H; cbn [linear]; auto using nameless_linear. Qed.
Lemma line_proper pid cps d m : line_says pid cps d m -> proper m.
Proof.
  intros H. apply linear_proper; [eapply prop_linear, line_path, H|]. apply line_says_iff in H. apply (f_equal erase) in H. rewrite prop_erase in H. cbn [erase] in H. intros E. rewrite E in H.
  apply prop_only, prop_errors_apart in H. apply H. unfold structure_errors. cbn [In]. tauto.
Qed.
Lemma end_proper en : bad_end_ok en -> end_error en <> ErrMultiple.
Proof. destruct en as [|e|]; cbn [end_error]; try discriminate. intros B ->. pose proof (B _ eq_refl) as I. unfold line_errors in I. cbn [In] in I. intuition discriminate. Qed.
Lemma skip_proper n ls en f : skip_fault n ls en f -> bad_end_ok en -> forall e, f = Failed e -> e <> ErrMultiple.
Proof.
  induction 1 as [n ds en K|n ds x more en K E V|n ds b ls en f K B H IH]; intros BE e Q.
  - destruct en as [|e0|]; cbn [end_fail] in Q; injection Q as <-; try discriminate. exact (end_proper (AtBad e0) BE).
  - injection Q as <-. discriminate.
  - exact (IH BE e Q).
Qed.
Lemma fault_proper sid ls en m : fault_says sid ls en m -> bad_end_ok en -> proper m.
Proof.
  revert sid ls en m. apply (fault_says_ind2 env (fun sid ls en m _ => bad_end_ok en -> proper m) (fun sid fs ls en m _ => bad_end_ok en -> proper m)
    (fun ls en m _ => bad_end_ok en -> proper m)); try (intros; discriminate); try (cbn; intros; auto; discriminate).
  - intros. apply end_proper. assumption.
  - intros id fs l more en i fd pid m _ _ _ _ H _. exact (line_proper _ _ _ _ H).
  - intros id fs b ls en e _ _ H BE. eapply skip_proper; [exact H|exact BE|reflexivity].
  - intros. apply end_proper. assumption.
  - intros body sid e more en m _ _ _ _ H _. apply H. intros e' Q. discriminate.
Qed.
Lemma cut_end s ls en : cut_into s ls en -> bad_end_ok en.
Proof. intros C e ->. inversion C; subst. eapply bad_line_error; eassumption. Qed.
Lemma message_proper s m : decode_m s = MErr m -> proper m.
Proof.
  intros H. apply says_iff in H. destruct H as [s en C|s l ls en C N|s b ls en m C O F]; [|discriminate|].
  - apply end_proper. eapply cut_end, C.
  - eapply fault_proper; [exact F|]. eapply cut_end, C.
Qed.
Theorem decode_is s m e : decode_m s = MErr m -> errors_is m e <-> decode_bytes s = Err e /\ e <> ErrMultiple.
Proof.
  intros H. rewrite (is_proper _ _ (message_proper _ _ H)), <- decode_erase, H. cbn [erase]. split; intros [A B]; (split; [congruence|exact B]).
Qed.
Theorem decode_is_none s m : decode_m s = MErr m -> (forall e, ~ errors_is m e) <-> decode_bytes s = Err ErrMultiple.
Proof.
  intros H. pose proof (fun e => decode_is s m e H) as I. assert (D : decode_bytes s = Err (root m)) by (rewrite <- decode_erase, H; reflexivity). split.
  - intros N. assert (X : {root m = ErrMultiple} + {root m <> ErrMultiple}) by (destruct (root m); (left; reflexivity) || (right; discriminate)). destruct X as [<-|X]; [exact D|]. destruct (N (root m)). apply I. auto.
  - intros Q e X. apply I in X as [X Y]. congruence.
Qed.
Lemma first_linear {A} (f : A -> option gmsg) l : (forall a m, f a = Some m -> linear m) -> forall m, first_msg f l = Some m -> linear m.
Proof using Type. intros H m Q. apply first_msg_some in Q as (a & x & b & _ & _ & Q). eapply H, Q. Qed.
Lemma prop_valid_linear pid p m : prop_valid_m pid p = Some m -> linear m.
Proof.
  unfold prop_valid_m. destruct (snd (prop_spec pid)) as [ps vs|ws|k], p as [l vl|n|v]; try discriminate.
  - destruct (params_valid_m pid ps l) as [m0|] eqn:P.
    + intros Q. injection Q as <-. apply params_refused in P as (a & q & v & b & _ & _ & _ & ->). exact Logic.I.
    + destruct (values_valid_m pid vs vl) as [m0|] eqn:V.
      * intros Q. injection Q as <-. clear P. revert vs V. induction vl as [|o vl IH]; intros vs V; [discriminate|]. cbn [values_valid_m] in V. cbv zeta in V. destruct (match o with Some v => value_valid v | None => None end); [injection V as <-; exact Logic.I|eapply IH, V].
      * destruct (_ && _); [|discriminate]. intros Q. injection Q as <-. exact Logic.I.
  - destruct (Utf8.in_range _ _ _); [discriminate|]. intros Q. injection Q as <-. exact Logic.I.
  - destruct (value_valid v); cbn; [|discriminate]. intros Q. injection Q as <-. exact Logic.I.
Qed.
Lemma sec_valid_linear cal : forall m, sec_valid_m cal = Some m -> linear m.
Proof.
  induction cal as [id fs IH] using sec_induct. intros m.
  change (sec_valid_m (Sec id fs)) with (first_msg (first_msg (fun v => wrap_o (ValidatingProp (sec_label id) (fval_label v)) (fval_valid_m v))) fs). intros Q.
  apply first_msg_some in Q as (a & vs & b & -> & _ & Q). apply first_msg_some in Q as (c & v & d & -> & _ & Q). apply wrap_some in Q as (m' & Q & ->). cbn [linear].
  destruct v as [pid p|s|[s|]]; cbn [fval_valid_m] in Q.
  - eapply prop_valid_linear, Q.
  - eapply IH; [apply in_elt|left; apply in_elt|exact Q].
  - eapply IH; [apply in_elt|right; apply in_elt|exact Q].
  - injection Q as <-. exact Logic.I.
Qed.
Theorem encode_is {W E} (wr : W -> bytes -> W * option E) w cal m e : sec_valid_m cal = Some m -> errors_is m e <-> Encode wr w cal = EncInvalid e w.
Proof.
  intros H. rewrite (is_linear _ _ (sec_valid_linear _ _ H)). pose proof (sec_valid_root cal) as R. rewrite H in R. cbn [option_map] in R. unfold Encode. rewrite <- R. split; congruence.
Qed.
Theorem encode_says {W E} (wr : W -> bytes -> W * option E) w cal : cal_typed cal -> forall e, Encode wr w cal = EncInvalid e w <-> exists m, refused_with cal m /\ errors_is m e.
Proof.
  intros T e. split.
  - intros Q. destruct (sec_valid_m cal) as [m|] eqn:V.
    + exists m. split; [apply refused_iff; assumption|]. apply (encode_is wr w _ _ _ V), Q.
    + pose proof (sec_valid_root cal) as R. rewrite V in R. cbn [option_map] in R. symmetry in R. apply sec_valid_iff in R. destruct (encode_refuses wr w cal) as [_ [_ N]]. destruct (N R e w Q).
  - intros (m & R & I). apply refused_iff in R; [|exact T]. apply (encode_is wr w _ _ _ R), I.
Qed.
Theorem refused_text std cal m : refused_with cal m -> exists r, msg_text std m = bs "error validating " ++ comp_word (sec_id cal) ++ bs "->" ++ r.
Proof. destruct 1. cbn [msg_text wrapper_text sec_id]. rewrite <- !app_assoc. eexists. reflexivity. Qed.
End MP.
