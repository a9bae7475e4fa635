(** What Decode returns has the right types, and no control characters of its own. *)
From Coq Require Import String Ascii ZArith Bool List Lia.
From Verif Require Import Base Lib Utf8 GoStrings Tokeniser SpecContent TokeniserProofs DecodeProofs GoTime Types Params ParamTable PropTable Props SecTable Sections Codec SpecTree TreeProofs ExactProofs SpecRules SpecParams ParamProofs SpecProps PropProofs HangProofs GroupProofs SpecCal CalProofs EncodableProofs SpecRfc SpecOut.
Import ListNotations.
Local Open Scope Z_scope.

Section D.
Context {env : Env}.

(** A location that was loaded by its name. *)
Definition known_loc (l : loc) : Prop := match l with LZone z _ => exists n, load_zone n = Some z | _ => True end.
Lemma load_known id tz l : load_location id tz = Some l -> known_loc l.
Proof.
  unfold load_location. intros L. destruct (beq tz [] || beq tz (bs "UTC")); [injection L as <-; exact Logic.I|]. destruct (beq tz (bs "Local")); [injection L as <-; exact Logic.I|]. destruct (has_dotdot tz); [discriminate|].
  destruct tz as [|c tz]; [discriminate|]. destruct (_ || _); [discriminate|]. destruct (load_zone _) as [z|] eqn:Z; [|discriminate]. injection L as <-. exists (c :: tz). exact Z.
Qed.
Lemma datetime_known id m s t : datetime_decode id m s = Ok t -> known_loc (t_loc t).
Proof.
  unfold datetime_decode. destruct (pmap_get m (bs "TZID")) as [tz|].
  - destruct (load_location id tz) as [l|] eqn:L; [|discriminate]. destruct (parse_datetime false s l) eqn:P; [|discriminate]. intros H. apply Ok_inj in H. subst. apply parse_datetime_loc in P. rewrite P. eapply load_known, L.
  - destruct (ends_with _ s).
    + destruct (parse_datetime true s LUTC) eqn:P; [|discriminate]. intros H. apply Ok_inj in H. subst. apply parse_datetime_loc in P. rewrite P. exact Logic.I.
    + destruct (parse_datetime false s LLocal) eqn:P; [|discriminate]. intros H. apply Ok_inj in H. subst. apply parse_datetime_loc in P. rewrite P. exact Logic.I.
Qed.
Lemma parse_clock_loc z s l t : parse_clock z s l = Some t -> t_loc t = l.
Proof.
  unfold parse_clock. destruct (parse_hms s) as [[[[[h mi] x] ns] s3]|]; [|discriminate]. cbn [obind]. destruct (if z then lit _ s3 else Some s3) as [s4|]; [|discriminate]. cbn [obind].
  destruct s4; [|discriminate]. intros Q. injection Q as <-. apply go_date_loc.
Qed.
Lemma clock_known m s t : clock_decode m s = Ok t -> known_loc (t_loc t).
Proof.
  unfold clock_decode. destruct (pmap_get m (bs "TZID")) as [tz|].
  - destruct (load_location 0 tz) as [l|] eqn:L; [|discriminate]. destruct (parse_clock false s l) eqn:P; [|discriminate]. intros H. apply Ok_inj in H. subst. apply parse_clock_loc in P. rewrite P. eapply load_known, L.
  - destruct (ends_with _ s).
    + destruct (parse_clock true s LUTC) eqn:P; [|discriminate]. intros H. apply Ok_inj in H. subst. apply parse_clock_loc in P. rewrite P. exact Logic.I.
    + destruct (parse_clock false s LLocal) eqn:P; [|discriminate]. intros H. apply Ok_inj in H. subst. apply parse_clock_loc in P. rewrite P. exact Logic.I.
Qed.
Lemma date_known s t : date_decode s = Ok t -> t_loc t = LUTC.
Proof.
  unfold date_decode, parse_date. destruct (parse_ymd s) as [[[[y m] d] s1]|]; [|discriminate]. cbn [obind]. destruct s1; [|discriminate]. cbn [of_option]. intros H. apply Ok_inj in H. subst. apply go_date_loc.
Qed.
Lemma rule_known m r fq k v r' fq' : known_loc (t_loc (r_until r)) -> recur_rule m r fq k v = Ok (r', fq') -> known_loc (t_loc (r_until r')).
Proof.
  intros K H. destruct r as [fr wk ut un co iv bse bmi bho bda bmd byd bwn bmo bsp]. cbn [r_until] in K. unfold recur_rule in H.
  repeat match type of H with context [if ?b then _ else _] => destruct b; try discriminate H end;
    try (apply bind_ok in H as (l & _ & H); apply Ok_inj in H; injection H as <- <-; exact K).
  - destruct (index_of _ _); [|discriminate]. apply Ok_inj in H. injection H as <- <-. exact K.
  - destruct (datetime_decode 0 m v) eqn:Q; try discriminate. apply Ok_inj in H. injection H as <- <-. apply datetime_known in Q. exact Q.
  - destruct (date_decode v) eqn:Q; try discriminate. apply Ok_inj in H. injection H as <- <-. apply date_known in Q. cbn [r_until]. rewrite Q. exact Logic.I.
  - destruct (parse_uint _ _); [|discriminate]. apply Ok_inj in H. injection H as <- <-. exact K.
  - destruct (parse_uint _ _); [|discriminate]. apply Ok_inj in H. injection H as <- <-. exact K.
  - destruct (day_of_word v); [|discriminate]. apply Ok_inj in H. injection H as <- <-. exact K.
Qed.
Lemma recur_known m s r : recur_decode m s = Ok r -> known_loc (t_loc (r_until r)).
Proof.
  unfold recur_decode. intros H. apply bind_ok in H as ([r1 f1] & E & H). destruct f1; [|discriminate]. apply Ok_inj in H. subst.
  assert (L : forall rules r fq r' fq', known_loc (t_loc (r_until r)) -> recur_rules m r fq rules = Ok (r', fq') -> known_loc (t_loc (r_until r'))).
  { clear. induction rules as [|w rules IH]; intros r fq r' fq' R H; cbn [recur_rules] in H.
    - apply Ok_inj in H. injection H as <- <-. exact R.
    - destruct (cut "="%char w) as [[k v]|]; [|discriminate]. apply bind_ok in H as ([r1 f1] & E & H). apply (IH r1 f1 r' fq'); [|exact H]. exact (rule_known m r fq k v r1 f1 R E). }
  exact (L _ zero_recur _ _ _ Logic.I E).
Qed.

(** ** Values *)
Definition kind_rmap {A} (f : A -> value) (r : res A) v : rmap f r = Ok v -> exists a, r = Ok a /\ v = f a.
Proof. destruct r; cbn [rmap bind]; try discriminate. intros H. apply Ok_inj in H. eauto. Qed.
Lemma value_known k m d v : urls_clean -> zones_clean ->
  forallb value_char d = true -> value_decode k m d = Ok v -> value_clean v.
Proof.
  intros U Z WD D. assert (KZ : forall t, known_loc (t_loc t) -> zone_clean t) by (intros t; unfold known_loc, zone_clean; destruct (t_loc t); auto; intros (n & H); eapply Z, H).
  assert (UD : forall s u, forallb value_char s = true -> url_decode s = Ok u -> url_clean u) by (intros s u WS; unfold url_decode; destruct (url_parse s) eqn:Q; [|discriminate]; intros H; apply Ok_inj in H; subst; exact (U _ _ WS Q)).
  destruct k; cbn [value_decode] in D; apply kind_rmap in D as (a & D & ->); cbn [value_clean]; try exact Logic.I.
  - exact (UD _ _ WD D).
  - apply KZ. eapply datetime_known, D.
  - apply KZ. unfold period_decode in D. destruct (cut _ d) as [[x y]|]; [|discriminate]. destruct y; [discriminate|]. apply bind_ok in D as (st & D1 & D). apply datetime_known in D1.
    destruct (_ || _); apply bind_ok in D as (e & _ & D); apply Ok_inj in D; subst a; exact D1.
  - apply KZ. eapply recur_known, D.
  - apply KZ. eapply clock_known, D.
  - exact (UD _ _ WD D).
Qed.

(** ** Parameters *)
Lemma index_small w ws n : index_of w ws = Some n -> (n < length ws)%nat.
Proof. intros H. apply index_of_some in H. apply nth_error_Some. congruence. Qed.
Lemma param_known q x v : cparam_wf x = true -> param_decode (snd (param_spec q)) (param_values x) = Ok v ->
  wt_param (snd (param_spec q)) v = true /\ (urls_clean -> param_clean (snd (param_spec q)) v).
Proof.
  intros W H. assert (T : match snd (param_spec q) with PKEnum _ ws => (length ws < 200)%nat | _ => True end) by (destruct q; try exact Logic.I; repeat constructor).
  pose proof (fun t => values_chars x t W) as C. revert C H T. generalize (param_values x), (snd (param_spec q)). intros vs k C H T.
  assert (UD : forall s u, urls_clean -> forallb value_char s = true -> url_decode s = Ok u -> url_clean u) by (intros s u U WS; unfold url_decode; destruct (url_parse s) eqn:Q; [|discriminate]; intros D; apply Ok_inj in D; subst; exact (U _ _ WS Q)).
  destruct k as [|qu| | |free ws|w| |]; cbn [param_decode] in H.
  - apply bind_ok in H as (t & TV & H). apply bind_ok in H as (d & Q & H). apply bind_ok in H as (u & D & H). apply Ok_inj in H. subst v. split; [reflexivity|]. intros U. apply (UD d); [exact U| |exact D]. apply quoted_data_eq in Q. subst d. apply C, one_value_in, TV.
  - apply bind_ok in H as (t & _ & H). apply bind_ok in H as (d & D & H). apply Ok_inj in H. subst v. split; [reflexivity|intros _; exact Logic.I].
  - apply bind_ok in H as (l & L & H). apply Ok_inj in H. subst v. split; [reflexivity|intros _; exact Logic.I].
  - apply bind_ok in H as (l & L & H). apply Ok_inj in H. subst v. split; [reflexivity|]. intros U. cbn [param_clean]. revert l L. induction vs as [|t vs IH]; intros l L; cbn [mapM] in L; [apply Ok_inj in L; subst; constructor|].
    apply bind_ok in L as (a & A & L). apply bind_ok in L as (l' & L' & L). apply Ok_inj in L. subst l. apply bind_ok in A as (d & Q & A). apply quoted_data_eq in Q. subst d. constructor; [apply (UD (t_data t)); [exact U|apply C; left; reflexivity|exact A]|apply IH; [intros t' I; apply C; right; exact I|exact L']].
  - apply bind_ok in H as (t & _ & H). destruct (index_of _ ws) as [n|] eqn:IX.
    + apply Ok_inj in H. subst v. split; [|intros _; exact Logic.I]. apply index_small in IX. cbn [wt_param]. unfold Utf8.in_range. destruct free; cbn [enum_base]; lia.
    + destruct free; [|discriminate]. apply Ok_inj in H. subst v. split; [reflexivity|intros _; exact Logic.I].
  - apply bind_ok in H as (t & _ & H). destruct (beq _ _); [|discriminate]. apply Ok_inj in H. subst v. split; [reflexivity|intros _; exact Logic.I].
  - apply bind_ok in H as (t & TV & H). destruct (regex_match _) eqn:R; [|discriminate]. apply Ok_inj in H. subst v. split; [reflexivity|]. intros _. cbn [param_clean]. apply C. apply one_value_in, TV.
  - apply bind_ok in H as (t & _ & H). apply bind_ok in H as (b & _ & H). apply Ok_inj in H. subst v. split; [reflexivity|intros _; exact Logic.I].
Qed.
Lemma prop_known pid l p : cline_wf l = true -> prop_decode pid (params_tokens (cl_params l)) (cl_value l) = Ok p -> prop_typed pid p /\
  (urls_clean -> zones_clean -> prop_clean pid p).
Proof.
  intros W D. unfold cline_wf in W. rewrite !andb_true_iff in W. destruct W as [[_ WP] WV]. unfold prop_typed, prop_clean.
  assert (T : match snd (prop_spec pid) with MEnum ws => (length ws < 200)%nat | _ => True end) by (destruct pid; try exact Logic.I; repeat constructor).
  destruct (snd (prop_spec pid)) as [ps vs|ws|k] eqn:E.
  - destruct (struct_read _ _ _ _ _ _ E D) as (lp & a & w & k & b & v & -> & F2 & (EV & _) & K & m & DV).
    assert (PK : forall q o, param_read (cl_params l) q o -> forall v, o = Some v -> wt_param (snd (param_spec q)) v = true /\ (urls_clean -> param_clean (snd (param_spec q)) v)).
    { intros q o [[_ ->]|(x & v0 & G & PD & ->)] v1 Q; [discriminate|]. injection Q as <-. apply (param_known q x); [|exact PD]. rewrite forallb_forall in WP. apply WP. assert (I : In x (given (fst (param_spec q)) (cl_params l))) by (rewrite G; left; reflexivity).
      unfold given in I. apply filter_In in I. apply I. }
    split; [split; [|split]|].
    + clear - PK F2. induction F2 as [|q o ps lp R _ IH]; constructor; [|exact IH]. intros v0 Q. apply (PK q o R v0 Q).
    + rewrite EV. apply Forall2_app; [|constructor].
      * clear. induction a as [|t a IH]; [constructor|]. constructor; [discriminate|exact IH].
      * intros v0 Q. injection Q as <-. exact K.
      * clear. induction b as [|t b IH]; [constructor|]. constructor; [discriminate|exact IH].
    + intros L1. rewrite EV, app_length in L1. cbn [length] in L1. destruct a; [|cbn [length] in L1; lia]. destruct b; [|cbn [length] in L1; lia]. intros [Q|[]]. discriminate.
    + intros U Z. split.
      * intros q v0 I. clear - PK F2 I U. revert I. induction F2 as [|q' o ps lp R _ IH]; [intros []|]. cbn [combine]. intros [Q|I]; [injection Q as -> ->; apply (PK q _ R v0 eq_refl), U|auto].
      * intros v0 I. apply in_app_iff in I as [I|[I|I]]; [destruct (in_none _ _ I)| |destruct (in_none _ _ I)]. injection I as <-. eapply value_known; eauto.
  - unfold prop_decode in D. rewrite E in D. destruct (index_of _ ws) as [n|] eqn:IX; [|discriminate]. apply Ok_inj in D. subst p. apply index_small in IX. split; [lia|intros _ _; exact Logic.I].
  - unfold prop_decode in D. rewrite E in D. apply bind_ok in D as (v & DV & D). apply Ok_inj in D. subst p. split; [|intros U Z; eapply value_known; eauto].
    destruct k; cbn [value_decode] in DV; apply kind_rmap in DV as (a & _ & ->); reflexivity.
Qed.

(** ** Components *)
Lemma means_typed id items x (M : means id items x) : wf_items items -> cal_typed x
with holds_typed fd items vs (M : holds fd items vs) : wf_items items -> Forall (fval_typed (fd_type fd)) vs
with item_typed t i v (M : item_means t i v) : Forall (fun l => cline_wf l = true) (ilines i) -> fval_typed t v.
Proof.
  - destruct M as [id items fs F L H X]. intros W. constructor; [exact L|]. intros i fd vs N V. destruct (H i fd N) as [Ho Co]. rewrite (nth_error_nth _ _ [] V) in Ho, Co. split; [exact Co|]. exact (holds_typed fd items vs Ho W).
  - destruct M as [fd|fd i items vs NB H|fd i items v vs B IM H]; intros W; [constructor| |]; unfold wf_items in W; cbn [flat_map] in W; apply Forall_app in W as [W1 W2].
    + exact (holds_typed fd items vs H W2).
    + constructor; [exact (item_typed _ i v IM W1)|exact (holds_typed fd items vs H W2)].
  - destruct M as [pid l p D|sid b body e x M E V|b body e us w sid sub e' more x Fb Ne A Fu Aw Q E' V' M]; intros W.
    + cbn [ilines] in W. inversion W; subst. apply VT_prop. eapply prop_known; eauto.
    + cbn [ilines] in W. inversion W as [|? ? _ W']; subst. apply Forall_app in W' as [W' _]. pose proof (means_typed sid body x M W') as T. destruct M. apply VT_sec. exact T.
    + cbn [ilines] in W. inversion W as [|? ? _ W']; subst. rewrite Q in W'. apply Forall_app in W' as [W' _]. pose proof (means_typed sid sub x M W') as T. destruct M. apply (VT_alarm w); assumption.
Qed.
Theorem decoded_typed s cal : decode_bytes s = Ok cal -> cal_typed cal.
Proof.
  intros D. apply decode_bytes_exact in D as (b & items & e & tail & _ & _ & M & _ & _ & W & _). inversion W as [|? ? _ W']; subst. apply Forall_app in W' as [W' _]. exact (means_typed _ _ _ M W').
Qed.
Theorem decoded_clean s cal : urls_clean -> zones_clean -> decode_bytes s = Ok cal -> cal_clean cal.
Proof. intros U Z D pid p H. destruct (decoded_props _ _ D) as [HP _]. destruct (HP _ _ H) as (l & W & PD). apply (prop_known _ _ _ W PD); assumption. Qed.
Lemma decoded_calendar s cal : decode_bytes s = Ok cal -> sec_id cal = SCalendar.
Proof. intros D. apply decode_bytes_exact in D as (b & items & e & tail & _ & _ & M & _). inversion M; subst. reflexivity. Qed.
End D.
