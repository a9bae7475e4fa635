(** Validation. *)
From Coq Require Import String Ascii ZArith Bool List Lia.
From Verif Require Import Base Lib Utf8 GoStrings Strtok Tokeniser SpecContent GoTime Types Params ParamTable PropTable Props SecTable Sections Folder Codec SpecRules EncodeProofs SpecProps HangProofs SpecCal EncodableProofs SpecValid.
Import ListNotations.
Local Open Scope Z_scope.

Lemma no_control_iff s : contains_any s nonsafe31 = false <-> no_control s.
Proof.
  split; [|apply tame_valid]. intros H. apply Forall_forall. intros c I. pose proof (proj1 (contains_any_false _ _) H c I) as N.
  pose proof (byte_forall (fun c => inset c nonsafe31 || value_char c || beqc c LF) ltac:(vm_compute; reflexivity) c) as B. cbv beta in B. rewrite !orb_true_iff in B.
  destruct B as [[B|B]|B]; [apply inset_In in B; contradiction|left; exact B|right; apply beqc_eq, B].
Qed.
Lemma fmt_class_iff c : fmt_class c = true <-> media_char c.
Proof.
  unfold fmt_class, media_char. rewrite !orb_true_iff. unfold Utf8.in_range. rewrite existsb_exists. split.
  - intros [[(x & I & Q)|Q]|Q]; [apply Z.eqb_eq in Q; subst; auto|lia|lia].
  - intros [I|[Q|Q]]; [left; left; exists (code c); split; [exact I|apply Z.eqb_refl]|lia|lia].
Qed.
Lemma regex_iff s : regex_match s = true <-> media_like s.
Proof.
  split.
  - induction s as [|x s IH]; [discriminate|]. destruct s as [|y [|z s]]; try discriminate. cbn [regex_match]. rewrite orb_true_iff, !andb_true_iff. intros [[[X Y] Z]|H].
    + apply beqc_eq in Y. subst y. exists [], x, z, s. rewrite <- !fmt_class_iff. auto.
    + destruct (IH H) as (a & x' & y' & b & Q & R). exists (x :: a), x', y', b. rewrite Q. auto.
  - intros (a & x & y & b & -> & X & Y). apply fmt_class_iff in X, Y. induction a as [|c a IH]; cbn [app].
    + cbn [regex_match]. rewrite X, Y. reflexivity.
    + destruct (a ++ x :: "/"%char :: y :: b) as [|d [|e l]] eqn:Q; [destruct a; discriminate|destruct a as [|? [|? ?]]; discriminate|]. cbn [regex_match] in *. rewrite IH. apply orb_true_r.
Qed.

Section V.
Context {env : Env}.
Lemma all_or_none {A} (p : A -> bool) l e k : all_or p l e k = None <-> Forall (fun x => p x = true) l /\ k = None.
Proof.
  unfold all_or. destruct (forallb p l) eqn:F.
  - rewrite forallb_forall in F. split; [intros ->; split; [apply Forall_forall, F|reflexivity]|tauto].
  - split; [discriminate|]. intros [H _]. rewrite Forall_forall in H. apply forallb_forall in H. congruence.
Qed.
Lemma Forall_iff {A} (P Q : A -> Prop) l : (forall x, P x <-> Q x) -> (Forall P l <-> Forall Q l).
Proof. intros H. split; apply Forall_impl; intros x; apply H. Qed.
Lemma recur_valid_iff r : recur_valid r = None <-> recur_ok r.
Proof.
  assert (SG : forall hi l, Forall (fun v => negb ((v =? 0) || (hi <? v) || (v <? - hi)) = true) l <-> signed_upto hi l) by (intros hi l; apply Forall_iff; intros v; lia).
  assert (UP : forall hi l, Forall (fun v => (v <=? hi) = true) l <-> upto hi l) by (intros hi l; apply Forall_iff; intros v; lia).
  unfold recur_valid, recur_ok. cbv zeta. destruct (negb (Utf8.in_range 0 6 (r_freq r))) eqn:FR.
  - split; [discriminate|]. unfold Utf8.in_range in FR. intros [H _]. lia.
  - rewrite !all_or_none, !UP, !SG. unfold Utf8.in_range in *.
    assert (DA : Forall (fun d => ((1 <=? dr_day d) && (dr_day d <=? 7)) = true) (r_byday r) <-> Forall (fun d => 1 <= dr_day d <= 7) (r_byday r)) by (apply Forall_iff; intros; lia).
    assert (MO : Forall (fun v => negb ((v =? 0) || (12 <? v)) = true) (r_bymonth r) <-> Forall (fun v => v <> 0 /\ v <= 12) (r_bymonth r)) by (apply Forall_iff; intros; lia).
    rewrite DA, MO. assert (WK : (if negb (r_wkst r =? 0) && negb ((1 <=? r_wkst r) && (r_wkst r <=? 7)) then Some ErrInvalidRecurWeekStart else None) = None <-> r_wkst r = 0 \/ 1 <= r_wkst r <= 7).
    { destruct (negb (r_wkst r =? 0) && negb ((1 <=? r_wkst r) && (r_wkst r <=? 7))) eqn:W; split; try discriminate; intros; lia || reflexivity. }
    rewrite WK. assert (0 <= r_freq r <= 6) by lia. tauto.
Qed.
Lemma loc_same_iff a b : loc_same a b = true <-> same_place a b.
Proof. destruct a, b; cbn; try (split; [discriminate|tauto]); try tauto. apply Nat.eqb_eq. Qed.
Lemma mtext_valid_iff l : mtext_valid l = None <-> Forall no_control l.
Proof.
  induction l as [|t l IH]; cbn [mtext_valid]; [split; [constructor|reflexivity]|]. unfold text_valid. destruct (contains_any t nonsafe31) eqn:C.
  - split; [discriminate|]. intros H. inversion H as [|? ? Ht _]; subst. apply no_control_iff in Ht. congruence.
  - rewrite IH. apply no_control_iff in C. split; [intros H; constructor; assumption|]. intros H. inversion H; assumption.
Qed.
Lemma value_valid_iff v : value_valid v = None <-> value_ok v.
Proof.
  assert (TV : forall t, time_valid t = None <-> ~ year_one t).
  { intros t. unfold time_valid. pose proof (is_zero_spec t) as Z. destruct (is_zero t); split; [discriminate|intros H; destruct H; apply Z; reflexivity|intros _ H; apply Z in H; discriminate|reflexivity]. }
  destruct v as [b|b|u|t|t|d|f|[fa fb]|z|p|r|t|l|t|u|z]; cbn [value_valid value_ok]; try (split; [trivial|reflexivity]); try apply TV.
  - apply float_valid_spec.
  - unfold tfloat_valid. cbn [fst snd]. rewrite <- !float_valid_spec. destruct (float_valid fa); [split; [discriminate|intros [H _]; discriminate]|tauto].
  - unfold period_valid. pose proof (is_zero_spec (p_start p)) as Z. destruct (is_zero (p_start p)); [split; [discriminate|intros [H _]; destruct H; apply Z; reflexivity]|].
    assert (NS : ~ year_one (p_start p)) by (intros H; apply Z in H; discriminate).
    pose proof (is_zero_spec (p_end p)) as Ze. destruct (is_zero (p_end p)).
    + assert (YE : year_one (p_end p)) by (apply Ze; reflexivity). destruct (d_neg (p_dur p)); split; [discriminate|intros [_ [[_ H]|[H _]]]; [discriminate|contradiction]|intros _; auto|reflexivity].
    + assert (NE : ~ year_one (p_end p)) by (intros H; apply Ze in H; discriminate). rewrite <- after_spec, <- loc_same_iff. destruct (after _ _), (loc_same _ _); cbn [negb orb]; split; try discriminate; try (intros [_ [[H _]|(_ & H1 & H2)]]; [contradiction|discriminate]); auto 6.
  - apply recur_valid_iff.
  - unfold text_valid. rewrite <- no_control_iff. destruct (contains_any t nonsafe31); split; congruence.
  - apply mtext_valid_iff.
Qed.
Lemma param_valid_iff k v : param_valid k v = None <-> param_ok k v.
Proof.
  destruct k as [|q| | |[|] ws|w| |], v as [u|t|l|l|n| |b]; cbn [param_valid param_ok]; try (split; [trivial|reflexivity]).
  - rewrite <- no_control_iff. destruct (contains_any t nonsafe31); split; congruence.
  - assert (Q : existsb (fun s => contains_any s nonsafe31) l = false <-> Forall no_control l).
    { induction l as [|t l IH]; cbn [existsb]; [split; [constructor|reflexivity]|]. rewrite orb_false_iff, no_control_iff, IH. split; [intros [A B]; constructor; assumption|]. intros H. inversion H; auto. }
    rewrite <- Q. destruct (existsb _ l); split; congruence.
  - unfold Utf8.in_range. destruct ((0 <=? n) && (n <=? Z.of_nat (length ws) - 1)) eqn:R; split; try discriminate; intros; lia || reflexivity.
  - rewrite <- regex_iff. destruct (regex_match t); split; congruence.
Qed.
Lemma params_valid_iff : forall ps l, params_valid ps l = None <-> forall q v, In (q, Some v) (combine ps l) -> param_ok (snd (param_spec q)) v.
Proof.
  induction ps as [|q ps IH]; intros l; [cbn; split; [intros _ q v []|reflexivity]|]. destruct l as [|[v|] l]; cbn [params_valid combine].
  - split; [intros _ q' v []|reflexivity].
  - unfold pkind_of. pose proof (param_valid_iff (snd (param_spec q)) v) as P. destruct (param_valid _ v).
    + split; [discriminate|]. intros H. apply P, H. left. reflexivity.
    + rewrite IH. split; [|intros H q' v' I; apply H; right; exact I]. intros H q' v' [Q|I]; [injection Q as <- <-; apply P; reflexivity|auto].
  - rewrite IH. split; [|intros H q' v' I; apply H; right; exact I]. intros H q' v' [Q|I]; [discriminate|auto].
Qed.
Lemma values_valid_iff l : values_valid l = None <-> forall v, In (Some v) l -> value_ok v.
Proof.
  induction l as [|[v|] l IH]; cbn [values_valid]; [split; [intros _ v []|reflexivity]| |].
  - pose proof (value_valid_iff v) as P. destruct (value_valid v).
    + split; [discriminate|]. intros H. apply P, H. left. reflexivity.
    + rewrite IH. split; [|intros H v' I; apply H; right; exact I]. intros H v' [Q|I]; [injection Q as <-; apply P; reflexivity|auto].
  - rewrite IH. split; [|intros H v' I; apply H; right; exact I]. intros H v' [Q|I]; [discriminate|auto].
Qed.
Lemma none_set {A} (l : list (option A)) : length (filter is_some l) = 0%nat -> Forall (fun o => o = None) l.
Proof. induction l as [|[v|] l IH]; intros H; [constructor|discriminate|constructor; auto]. Qed.
Lemma none_set_conv {A} (l : list (option A)) : Forall (fun o => o = None) l -> filter is_some l = [].
Proof. induction 1 as [|o l -> _ IH]; [reflexivity|exact IH]. Qed.
Lemma one_set_iff {A} (l : list (option A)) : length (filter is_some l) = 1%nat <-> one_set l.
Proof.
  split.
  - induction l as [|[v|] l IH]; cbn [filter is_some length]; intros H; [discriminate| |].
    + exists [], v, l. split; [reflexivity|]. split; [constructor|]. apply none_set. congruence.
    + destruct (IH H) as (a & v & b & -> & A1 & A2). exists (None :: a), v, b. split; [reflexivity|]. split; [constructor; auto|exact A2].
  - intros (a & v & b & -> & A1 & A2). rewrite filter_app, (none_set_conv a A1). cbn [filter is_some app]. rewrite (none_set_conv b A2). reflexivity.
Qed.
Theorem prop_valid_iff pid p : prop_valid pid p = None <-> prop_ok pid p.
Proof.
  unfold prop_valid, prop_ok. destruct (snd (prop_spec pid)) as [ps vs|ws|k], p as [l vl|n|v]; try (split; [trivial|reflexivity]).
  - rewrite <- params_valid_iff, <- values_valid_iff, <- one_set_iff. destruct (params_valid ps l); [split; [discriminate|intros [H _]; discriminate]|]. destruct (values_valid vl); [split; [discriminate|intros (_ & H & _); discriminate]|].
    destruct (Nat.ltb 1 (length vs)) eqn:L; cbn [andb].
    + apply Nat.ltb_lt in L. destruct (Nat.eqb _ 1) eqn:Q; cbn [negb].
      * apply Nat.eqb_eq in Q. tauto.
      * apply Nat.eqb_neq in Q. split; [discriminate|]. intros (_ & _ & H). destruct Q. apply H. lia.
    + apply Nat.ltb_ge in L. split; [|reflexivity]. intros _. split; [reflexivity|]. split; [reflexivity|]. lia.
  - unfold Utf8.in_range. destruct ((0 <=? n) && (n <=? Z.of_nat (length ws) - 1)) eqn:R; split; try discriminate; intros; lia || reflexivity.
  - apply value_valid_iff.
Qed.
Theorem sec_valid_iff cal : sec_valid cal = None <-> cal_ok cal.
Proof. rewrite sec_valid_exact. unfold cal_ok. split; intros [A B]; (split; [|exact B]); intros pid p H; apply prop_valid_iff; auto. Qed.
Theorem encode_refuses {W E} (wr : W -> bytes -> W * option E) w cal :
  ((exists e, Encode wr w cal = EncInvalid e w) <-> ~ cal_ok cal) /\ ((forall e w', Encode wr w cal <> EncInvalid e w') <-> cal_ok cal).
Proof.
  rewrite <- sec_valid_iff. unfold Encode. destruct (sec_valid cal) as [e|]; (split; split); try discriminate.
  - intros _. exists e. reflexivity.
  - intros H. destruct (H e w). reflexivity.
  - intros (e & H). rewrite run_trace_spec in H. cbv zeta in H. destruct (hangs _); discriminate.
  - intros H. destruct H. reflexivity.
  - reflexivity.
  - intros _ e w' H. rewrite run_trace_spec in H. cbv zeta in H. destruct (hangs _); discriminate.
Qed.
End V.
