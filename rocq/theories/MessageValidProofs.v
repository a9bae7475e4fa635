(** The message for a calendar that Encode refuses, exactly. *)
From Coq Require Import String Ascii ZArith Bool List Lia.
From Verif Require Import Base Lib Utf8 GoStrings Strtok Tokeniser SpecContent GoTime Types Params ParamTable PropTable Props SecTable Sections Folder Codec SpecTree SpecRules EncodeProofs SpecProps HangProofs SpecCal EncodableProofs SpecValid ValidProofs GroupProofs SpecRfc SpecLine LineProofs SpecOut LabelTable Messages SpecMessage MessageProofs MessageLineProofs.
Import ListNotations.
Local Open Scope list_scope.

Section MV.
Context {env : Env}.

(** ** Values: the first limit that is broken *)
Fixpoint first_bad (l : list (bool * gerr)) : option gerr :=
  match l with [] => None | (b, e) :: l' => if b then first_bad l' else Some e end.
Lemma first_bad_iff l l' e : Forall2 (fun x y => snd x = snd y /\ (fst x = true <-> fst y)) l l' -> first_bad l = Some e <-> first_broken l' e.
Proof using Type.
  unfold first_broken. induction 1 as [|[b x] [P y] l l' [Q R] _ IH]; cbn [first_bad fst snd] in *.
  - split; [discriminate|]. intros (a & P & b & Q & _). destruct a; discriminate.
  - subst y. destruct b.
    + rewrite IH. split.
      * intros (a & P' & b & -> & F & N). exists ((P, x) :: a), P', b. split; [reflexivity|]. split; [constructor; [apply R; reflexivity|exact F]|exact N].
      * intros (a & P' & b & Q & F & N). destruct a as [|z a]; [injection Q as -> _ _; destruct N; apply R; reflexivity|]. injection Q as <- ->. apply Forall_cons_iff in F as [_ F]. eauto 6.
    + split.
      * intros Q. injection Q as <-. exists [], P, l'. split; [reflexivity|]. split; [constructor|]. intros N. apply R in N. discriminate.
      * intros (a & P' & b & Q & F & N). destruct a as [|z a]; [injection Q as _ -> _; reflexivity|]. injection Q as <- _. apply Forall_cons_iff in F as [F _]. apply R in F. discriminate.
Qed.
Lemma one_bad (o : option gerr) P x e : (o = None <-> P) -> (o = None \/ o = Some x) -> o = Some e <-> first_broken [(P, x)] e.
Proof using Type.
  intros I O. rewrite <- (first_bad_iff [(match o with None => true | _ => false end, x)]).
  - destruct O as [->| ->]; reflexivity.
  - constructor; [|constructor]. split; [reflexivity|]. cbn [fst]. rewrite <- I. destruct o; split; congruence.
Qed.
Lemma no_bad e : @None gerr = Some e <-> first_broken [] e.
Proof using Type. split; [discriminate|]. intros (a & P & b & Q & _). destruct a; discriminate. Qed.
Lemma all_or_bad {A} (p : A -> bool) l x k r : k = first_bad r -> all_or p l x k = first_bad ((forallb p l, x) :: r).
Proof using Type. intros ->. reflexivity. Qed.
Lemma period_bad p e : period_valid p = Some e <-> first_broken (period_limits p) e.
Proof.
  pose proof (is_zero_spec (p_start p)) as ZS. pose proof (is_zero_spec (p_end p)) as ZE.
  transitivity (first_bad [(negb (is_zero (p_start p)), ErrInvalidPeriodStart); (negb (is_zero (p_end p) && d_neg (p_dur p)), ErrInvalidPeriodDuration);
    (is_zero (p_end p) || (after (p_end p) (p_start p) && loc_same (t_loc (p_start p)) (t_loc (p_end p))), ErrInvalidPeriodEnd)] = Some e).
  - unfold period_valid. cbn [first_bad]. destruct (is_zero (p_start p)), (is_zero (p_end p)), (d_neg (p_dur p)), (after _ _), (loc_same _ _); reflexivity.
  - apply first_bad_iff. unfold period_limits.
    do 3 (apply Forall2_cons; [split; [reflexivity|]; cbn [fst snd]; rewrite <- ?ZS, <- ?ZE, <- ?after_spec, <- ?loc_same_iff;
      destruct (is_zero (p_start p)), (is_zero (p_end p)), (d_neg (p_dur p)); try destruct (after _ _); try destruct (loc_same _ _); cbn; intuition congruence|]). constructor.
Qed.
Lemma rule_bad r e : recur_valid r = Some e <-> first_broken (rule_limits r) e.
Proof.
  assert (FA : forall A (p : A -> bool) (P : A -> Prop) l, (forall x, p x = true <-> P x) -> forallb p l = true <-> Forall P l).
  { intros A p P l H. rewrite forallb_forall, Forall_forall. split; intros K x I; apply H, K, I. }
  assert (W : (if negb (r_wkst r =? 0)%Z && negb (Utf8.in_range 1 7 (r_wkst r)) then Some ErrInvalidRecurWeekStart else None) =
    first_bad [(negb (negb (r_wkst r =? 0)%Z && negb (Utf8.in_range 1 7 (r_wkst r))), ErrInvalidRecurWeekStart)])
    by (cbn [first_bad]; destruct (negb (r_wkst r =? 0)%Z && negb (Utf8.in_range 1 7 (r_wkst r))); reflexivity).
  unfold recur_valid. cbv zeta. rewrite W. do 9 (erewrite (all_or_bad _ _ _ (first_bad _)) by reflexivity).
  match goal with |- (if ?b then Some ?x else first_bad ?l) = _ <-> _ => transitivity (first_bad ((negb b, x) :: l) = Some e); [cbn [first_bad]; destruct b; reflexivity|] end.
  apply first_bad_iff. unfold rule_limits, upto, signed_upto, Utf8.in_range.
  repeat (apply Forall2_cons; [split; [reflexivity|]; cbn [fst snd]; try (apply FA; intros x); lia|]). constructor.
Qed.
Lemma value_bad v e : value_valid v = Some e <-> first_broken (value_limits v) e.
Proof.
  pose proof (value_valid_iff v) as I. destruct v as [b|b|u|t|t|d|f|[fa fb]|z|p|r|t|l|t|u|z]; cbn [value_limits] in *; try (cbn [value_valid]; apply no_bad); try (apply one_bad; [exact I|cbn [value_valid]]).
  - unfold time_valid. destruct (is_zero _); auto.
  - unfold time_valid. destruct (is_zero _); auto.
  - destruct f; auto.
  - unfold tfloat_valid. destruct fa, fb; auto.
  - apply period_bad.
  - apply rule_bad.
  - unfold text_valid. destruct (contains_any _ _); auto.
  - clear I. induction l as [|t l IH]; cbn [mtext_valid]; [auto|]. unfold text_valid. destruct (contains_any _ _); [auto|exact IH].
  - unfold time_valid. destruct (is_zero _); auto.
Qed.
Lemma param_bad k v e : param_valid k v = Some e <-> ~ param_ok k v /\ e = param_error k.
Proof.
  rewrite <- param_valid_iff. assert (B : forall e, param_valid k v = Some e -> e = param_error k).
  { intros e0. destruct k as [|q| | |[|] ws|w| |], v as [u|t|l|l|n| |b]; cbn [param_valid]; try discriminate; [destruct (contains_any _ _)|destruct (existsb _ _)|destruct (Utf8.in_range _ _ _)|destruct (regex_match _)]; intros Q; try discriminate Q; injection Q as <-; reflexivity. }
  destruct (param_valid k v) as [x|].
  - split; [intros Q; injection Q as ->; split; [discriminate|apply B; reflexivity]|]. intros [_ ->]. f_equal. apply B. reflexivity.
  - split; [discriminate|]. intros [H _]. destruct H. reflexivity.
Qed.

(** ** The error of the message is that of the model *)
Lemma params_valid_root pid : forall ps l, option_map root (params_valid_m pid ps l) = params_valid ps l.
Proof.
  induction ps as [|q ps IH]; intros [|[v|] l]; cbn [params_valid_m params_valid]; try reflexivity; [|apply IH].
  rewrite <- param_valid_erase. destruct (param_valid_m q v); [reflexivity|apply IH].
Qed.
Lemma values_valid_root pid : forall l vs, option_map root (values_valid_m pid vs l) = values_valid l.
Proof.
  induction l as [|[v|] l IH]; intros vs; cbn [values_valid_m values_valid]; [reflexivity| |apply IH]. cbv zeta. destruct (value_valid v); [reflexivity|apply IH].
Qed.
Lemma prop_valid_root pid p : option_map root (prop_valid_m pid p) = prop_valid pid p.
Proof.
  unfold prop_valid_m, prop_valid. destruct (snd (prop_spec pid)) as [ps vs|ws|k], p as [l vl|n|v]; try reflexivity.
  - rewrite <- (params_valid_root pid). destruct (params_valid_m pid ps l); [reflexivity|]. cbn [option_map]. rewrite <- (values_valid_root pid vl vs). destruct (values_valid_m pid vs vl); [reflexivity|]. cbn [option_map].
    destruct (Nat.ltb 1 (length vs) && negb _); reflexivity.
  - destruct (Utf8.in_range _ _ _); reflexivity.
  - unfold wrap_o. destruct (value_valid v); reflexivity.
Qed.
Lemma first_msg_root {A} (f : A -> option gmsg) (g : A -> option gerr) l : (forall a, In a l -> option_map root (f a) = g a) -> option_map root (first_msg f l) = first_err g l.
Proof using Type.
  intros H. induction l as [|a l IH]; [reflexivity|]. cbn [first_msg first_err]. rewrite <- (H a) by apply in_eq. destruct (f a); [reflexivity|]. apply IH. intros; apply H, in_cons; assumption.
Qed.
Lemma wrap_root w o : option_map root (wrap_o w o) = option_map root o.
Proof using Type. destruct o; reflexivity. Qed.
Theorem sec_valid_root cal : option_map root (sec_valid_m cal) = sec_valid cal.
Proof.
  induction cal as [id fs IH] using sec_induct.
  change (sec_valid_m (Sec id fs)) with (first_msg (first_msg (fun v => wrap_o (ValidatingProp (sec_label id) (fval_label v)) (fval_valid_m v))) fs). change (sec_valid (Sec id fs)) with (first_err (first_err fval_valid) fs).
  apply first_msg_root. intros vs I. apply first_msg_root. intros v J. rewrite wrap_root. destruct v as [pid p|s|[s|]]; [apply prop_valid_root|apply (IH vs s I); auto|apply (IH vs s I); auto|reflexivity].
Qed.
Lemma root_none (o : option gmsg) : o = None <-> option_map root o = None.
Proof using Type. destruct o; split; cbn; congruence. Qed.
Lemma fval_fine v : fval_valid_m v = None <-> fval_ok v.
Proof.
  destruct v as [pid p|s|[s|]]; cbn [fval_valid_m fval_ok].
  - rewrite root_none, prop_valid_root. apply prop_valid_iff.
  - rewrite root_none, sec_valid_root. apply sec_valid_iff.
  - rewrite root_none, sec_valid_root. apply sec_valid_iff.
  - split; [discriminate|intros []].
Qed.

(** ** The message, exactly *)
Lemma params_refused pid : forall ps l m, params_valid_m pid ps l = Some m <->
  exists a q v b, combine ps l = a ++ (q, Some v) :: b /\ (forall q' v', In (q', Some v') a -> param_ok (snd (param_spec q')) v') /\ ~ param_ok (snd (param_spec q)) v /\
    m = Wrap (ValidatingProp (prop_word pid) (param_word q)) (Wrap (ValidatingType (param_word q)) (Root (param_error (snd (param_spec q))))).
Proof.
  assert (SKIP : forall (x : paramid * option pval) l m, (forall q v, x = (q, Some v) -> param_ok (snd (param_spec q)) v) ->
    (exists a q v b, l = a ++ (q, Some v) :: b /\ (forall q' v', In (q', Some v') a -> param_ok (snd (param_spec q')) v') /\ ~ param_ok (snd (param_spec q)) v /\
      m = Wrap (ValidatingProp (prop_word pid) (param_word q)) (Wrap (ValidatingType (param_word q)) (Root (param_error (snd (param_spec q)))))) <->
    (exists a q v b, x :: l = a ++ (q, Some v) :: b /\ (forall q' v', In (q', Some v') a -> param_ok (snd (param_spec q')) v') /\ ~ param_ok (snd (param_spec q)) v /\
      m = Wrap (ValidatingProp (prop_word pid) (param_word q)) (Wrap (ValidatingType (param_word q)) (Root (param_error (snd (param_spec q))))))).
  { intros x l m G. split.
    - intros (a & q & v & b & -> & A & N & M). exists (x :: a), q, v, b. split; [reflexivity|]. split; [|split; assumption]. intros q' v' [Q|I]; [apply G, Q|apply A, I].
    - intros (a & q & v & b & Q & A & N & M). destruct a as [|y a]; [injection Q as -> _; destruct N; apply G; reflexivity|]. injection Q as _ ->. exists a, q, v, b. split; [reflexivity|]. split; [|split; assumption]. intros q' v' I. apply A, in_cons, I. }
  assert (NO : forall m, @None gmsg = Some m <-> exists a q v b, @nil (paramid * option pval) = a ++ (q, Some v) :: b /\ (forall q' v', In (q', Some v') a -> param_ok (snd (param_spec q')) v') /\ ~ param_ok (snd (param_spec q)) v /\
      m = Wrap (ValidatingProp (prop_word pid) (param_word q)) (Wrap (ValidatingType (param_word q)) (Root (param_error (snd (param_spec q)))))).
  { intros m. split; [discriminate|]. intros (a & q & v & b & Q & _). destruct a; discriminate. }
  induction ps as [|q ps IH]; intros l m; [apply NO|]. destruct l as [|[v|] l]; cbn [params_valid_m combine]; [apply NO| |].
  - unfold param_valid_m. unfold pkind_of. destruct (param_valid (snd (param_spec q)) v) as [e|] eqn:P.
    + cbn [option_map wrap_o]. apply param_bad in P as [N ->]. rewrite prop_names, param_names. split.
      * intros Q. injection Q as <-. exists [], q, v, (combine ps l). repeat split; [intros ? ? []|exact N].
      * intros (a & q' & v' & b & Q & A & N' & ->). destruct a as [|y a]; [injection Q as -> _ _; reflexivity|]. injection Q as <- _. destruct N. apply A, in_eq.
    + cbn [option_map wrap_o]. rewrite IH. apply SKIP. intros q' v' Q. injection Q as <- <-. apply param_valid_iff, P.
  - rewrite IH. apply SKIP. intros q' v' Q. discriminate.
Qed.
Lemma values_refused pid : forall vs l m, (forall t, In t vs -> kind_label (snd t) = kind_word (snd t)) -> Forall2 (fun (t : bytes * vkind) o => forall v, o = Some v -> kind_of v = snd t) vs l -> values_valid_m pid vs l = Some m <->
  exists a v b e, l = a ++ Some v :: b /\ (forall v', In (Some v') a -> value_ok v') /\ first_broken (value_limits v) e /\ m = Wrap (ValidatingProp (prop_word pid) (kind_word (kind_of v))) (Root e).
Proof.
  intros vs l m KW F. induction F as [|t o vs l K _ IH]; cbn [values_valid_m hd tl].
  - split; [discriminate|]. intros (a & v & b & e & Q & _). destruct a; discriminate.
  - specialize (IH (fun t I => KW t (in_cons _ _ _ I))). cbv zeta. assert (SKIP : (forall v, o = Some v -> value_ok v) ->
      (exists a v b e, l = a ++ Some v :: b /\ (forall v', In (Some v') a -> value_ok v') /\ first_broken (value_limits v) e /\ m = Wrap (ValidatingProp (prop_word pid) (kind_word (kind_of v))) (Root e)) <->
      (exists a v b e, o :: l = a ++ Some v :: b /\ (forall v', In (Some v') a -> value_ok v') /\ first_broken (value_limits v) e /\ m = Wrap (ValidatingProp (prop_word pid) (kind_word (kind_of v))) (Root e))).
    { intros G. split.
      - intros (a & v & b & e & -> & A & N & M). exists (o :: a), v, b, e. split; [reflexivity|]. split; [|split; assumption]. intros v' [Q|I]; [apply G, Q|apply A, I].
      - intros (a & v & b & e & Q & A & N & M). destruct a as [|y a]; [injection Q as -> _; apply value_bad in N; rewrite (proj2 (value_valid_iff v) (G v eq_refl)) in N; discriminate|]. injection Q as _ ->. exists a, v, b, e. split; [reflexivity|]. split; [|split; assumption]. intros v' I. apply A, in_cons, I. }
    destruct o as [v|]; [|rewrite IH; apply SKIP; discriminate]. destruct (value_valid v) as [e|] eqn:V.
    + rewrite prop_names, (KW t (in_eq _ _)), <- (K v eq_refl). pose proof V as V'. apply value_bad in V'. split.
      * intros Q. injection Q as <-. exists [], v, l, e. repeat split; [intros ? []|exact V'].
      * intros (a & v1 & b & e1 & Q & A & N & ->). destruct a as [|y a]; [injection Q as -> _; apply value_bad in N; congruence|]. injection Q as <- _. pose proof (proj2 (value_valid_iff v) (A v (in_eq _ _))). congruence.
    + rewrite IH. apply SKIP. intros v' Q. injection Q as <-. apply value_valid_iff, V.
Qed.
Theorem prop_refused_iff pid p m : prop_typed pid p -> prop_valid_m pid p = Some m <-> prop_refused pid p m.
Proof.
  unfold prop_typed, prop_valid_m. pose proof (prop_row pid) as R. destruct (snd (prop_spec pid)) as [ps vs|ws|k] eqn:E, p as [l vl|n|v]; try tauto.
  - intros (_ & F & _). destruct (types_row _ _ _ E) as (RW & RS & SEV & _). clear R.
    pose proof (params_refused pid ps l) as PR. assert (KW : forall t, In t vs -> kind_label (snd t) = kind_word (snd t)) by (intros [w k] I; exact (kind_names pid ps vs w k E I)). pose proof (fun m => values_refused pid vs vl m KW F) as VR. pose proof (params_valid_iff ps l) as PI. rewrite <- (params_valid_root pid), <- root_none in PI.
    pose proof (values_valid_iff vl) as VI. rewrite <- (values_valid_root pid vl vs), <- root_none in VI. unfold several in SEV.
    destruct (params_valid_m pid ps l) as [m0|] eqn:PV; [|destruct (values_valid_m pid vs vl) as [m0|] eqn:VV].
    + split.
      * intros Q. injection Q as <-. destruct (proj1 (PR m0) eq_refl) as (a & q & v & b & C & A & N & ->). eapply Pr_param; eassumption.
      * intros H. assert (NP : ~ (forall q v, In (q, Some v) (combine ps l) -> param_ok (snd (param_spec q)) v)) by (intros K; apply PI in K; discriminate).
        inversion H as [ps' l' vl' a q v b RS' _ C A N|ps' l' a v b e RS' _ A|ps' l' vl' RS' _ A|n' W|v' e RS' _ _]; subst; try (assert (ps' = ps) by congruence; subst ps'); try contradiction; try congruence.
        apply PR. exists a, q, v, b. auto.
    + split.
      * intros Q. injection Q as <-. destruct (proj1 (VR m0) eq_refl) as (a & v & b & e & -> & A & N & ->). eapply Pr_value; try eassumption. apply PI. reflexivity.
      * intros H. assert (NV : ~ (forall v, In (Some v) vl -> value_ok v)) by (intros K; apply VI in K; discriminate).
        inversion H as [ps' l' vl' a q v b RS' _ C A N|ps' l' a v b e RS' _ A G N|ps' l' vl' RS' _ A G|n' W|v' e RS' _ _]; subst; try (assert (ps' = ps) by congruence; subst ps'); try contradiction; try congruence.
        -- destruct N. apply PI; [reflexivity|]. rewrite C. apply in_elt.
        -- apply VR. exists a, v, b, e. auto.
    + assert (PO := proj1 PI eq_refl). assert (VO := proj1 VI eq_refl).
      assert (SET : (Nat.ltb 1 (length vs) && negb (Nat.eqb (length (filter is_some vl)) 1) = true) <-> several_types pid /\ ~ one_set vl).
      { rewrite andb_true_iff, SEV, negb_true_iff, Nat.eqb_neq, one_set_iff. reflexivity. }
      rewrite prop_names. split.
      * destruct (Nat.ltb 1 (length vs) && _); [|discriminate]. intros Q. injection Q as <-. destruct (proj1 SET eq_refl). eapply Pr_choice; eassumption.
      * intros H. inversion H as [ps' l' vl' a q v b RS' _ C A N|ps' l' a v b e RS' _ A G N|ps' l' vl' RS' _ A G SV OS|n' W|v' e RS' _ _]; subst; try (assert (ps' = ps) by congruence; subst ps'); try congruence.
        -- destruct N. apply PO. rewrite C. apply in_elt.
        -- apply value_bad in N. rewrite (proj2 (value_valid_iff v) (VO v (in_elt _ _ _))) in N. discriminate.
        -- rewrite (proj2 SET) by auto. reflexivity.
  - destruct R as [RW NE]. rewrite prop_names. intros _. unfold Utf8.in_range. split.
    + destruct ((0 <=? n)%Z && _)%bool eqn:Q; [discriminate|]. intros X. injection X as <-. apply Pr_word; rewrite RW; [exact NE|lia].
    + intros H. inversion H; subst. destruct ((0 <=? n)%Z && (n <=? _)%Z)%bool eqn:Q; [lia|reflexivity].
  - destruct R as (RW & RS & _). rewrite prop_names. intros _. destruct (value_valid v) as [e|] eqn:V; cbn [option_map wrap_o].
    + pose proof V as V'. apply value_bad in V'. split; [intros Q; injection Q as <-; apply Pr_plain; assumption|]. intros H. inversion H as [| | | |v' e' _ _ B]; subst. apply value_bad in B. congruence.
    + split; [discriminate|]. intros H. inversion H as [| | | |v' e' _ _ B]; subst. apply value_bad in B. congruence.
Qed.
Lemma first_msg_some {A} (f : A -> option gmsg) l m : first_msg f l = Some m <-> exists a x b, l = a ++ x :: b /\ (forall y, In y a -> f y = None) /\ f x = Some m.
Proof using Type.
  induction l as [|y l IH]; cbn [first_msg].
  - split; [discriminate|]. intros (a & x & b & Q & _). destruct a; discriminate.
  - destruct (f y) as [m0|] eqn:Y.
    + split.
      * intros Q. injection Q as <-. exists [], y, l. split; [reflexivity|]. split; [intros ? []|exact Y].
      * intros (a & x & b & Q & N & X). destruct a as [|z a]; [injection Q as -> _; congruence|]. injection Q as <- _. rewrite (N y (in_eq _ _)) in Y. discriminate.
    + rewrite IH. split.
      * intros (a & x & b & -> & N & X). exists (y :: a), x, b. split; [reflexivity|]. split; [|exact X]. intros z [<-|I]; auto.
      * intros (a & x & b & Q & N & X). destruct a as [|z a]; [injection Q as -> _; congruence|]. injection Q as _ ->. exists a, x, b. split; [reflexivity|]. split; [|exact X]. intros z' I. apply N, in_cons, I.
Qed.
Lemma first_msg_none {A} (f : A -> option gmsg) l : first_msg f l = None <-> forall y, In y l -> f y = None.
Proof using Type.
  induction l as [|y l IH]; cbn [first_msg]; [split; [intros _ ? []|reflexivity]|]. destruct (f y) eqn:Y.
  - split; [discriminate|]. intros H. rewrite (H y (in_eq _ _)) in Y. discriminate.
  - rewrite IH. split; [intros H z [<-|I]; auto|]. intros H z I. apply H, in_cons, I.
Qed.
Lemma wrap_some w o m : wrap_o w o = Some m <-> exists m', o = Some m' /\ m = Wrap w m'.
Proof using Type. destruct o as [m0|]; cbn; split; [intros Q; injection Q as <-; eauto|intros (m' & Q & ->); congruence|discriminate|intros (m' & Q & _); discriminate]. Qed.
Lemma wrap_none w o : wrap_o w o = None <-> o = None.
Proof using Type. destruct o; cbn; split; congruence. Qed.
Lemma fval_names v : fval_label v = fval_word v.
Proof. destruct v as [pid p|[sid fs]|o]; cbn [fval_label fval_word]; [apply prop_names|apply sec_names|reflexivity]. Qed.
(** A field of a typed component is typed. *)
Lemma typed_in id fs vs v : cal_typed (Sec id fs) -> In vs fs -> In v vs -> exists t, fval_typed t v.
Proof.
  intros T I J. inversion T as [? ? L F]; subst. apply In_nth_error in I as [i N]. destruct (nth_error (fields_of id) i) as [fd|] eqn:D.
  - destruct (F _ _ _ D N) as [_ G]. rewrite Forall_forall in G. eauto.
  - apply nth_error_None in D. assert (i < length fs) by (apply nth_error_Some; congruence). lia.
Qed.
Theorem refused_iff cal m : cal_typed cal -> sec_valid_m cal = Some m <-> refused_with cal m.
Proof.
  revert m. induction cal as [id fs IH] using sec_induct. intros m T.
  change (sec_valid_m (Sec id fs)) with (first_msg (first_msg (fun v => wrap_o (ValidatingProp (sec_label id) (fval_label v)) (fval_valid_m v))) fs).
  assert (FR : forall vs v m, In vs fs -> In v vs -> fval_valid_m v = Some m <-> field_refused v m).
  { intros vs v m0 I J. destruct (typed_in _ _ _ _ T I J) as [t TV]. destruct v as [pid p|s|[s|]]; cbn [fval_valid_m].
    - inversion TV; subst. rewrite prop_refused_iff by assumption. split; [apply Fr_prop|]. intros H. inversion H; assumption.
    - inversion TV; subst. rewrite (IH vs _ I (or_introl J)) by assumption. split; [apply Fr_comp|]. intros H. inversion H; assumption.
    - inversion TV; subst. rewrite (IH vs _ I (or_intror J)) by assumption. split; [apply Fr_alarm|]. intros H. inversion H; assumption.
    - split; [intros Q; injection Q as <-; constructor|]. intros H. inversion H. reflexivity. }
  rewrite first_msg_some. split.
  - intros (a & vs & b & -> & A & X). apply first_msg_some in X as (c & v & d & -> & C & X). apply wrap_some in X as (m' & X & ->). rewrite sec_names, fval_names. apply Rw.
    + intros us x I J. pose proof (A us I) as N. rewrite first_msg_none in N. apply fval_fine, wrap_none with (w := ValidatingProp (sec_label id) (fval_label x)), N, J.
    + apply Forall_forall. intros x J. apply fval_fine, wrap_none with (w := ValidatingProp (sec_label id) (fval_label x)), C, J.
    + eapply FR; [apply in_elt|apply in_elt|exact X].
  - intros H. inversion H as [? a b c d v m' A C X]; subst. exists a, (c ++ v :: d), b. split; [reflexivity|]. split.
    + intros us I. apply first_msg_none. intros x J. apply wrap_none, fval_fine, (A us x I J).
    + apply first_msg_some. exists c, v, d. split; [reflexivity|]. rewrite Forall_forall in C. split; [intros y J; apply wrap_none, fval_fine, C, J|]. apply wrap_some. exists m'. rewrite sec_names, fval_names. split; [|reflexivity].
      eapply FR; [apply in_elt|apply in_elt|exact X].
Qed.
End MV.
