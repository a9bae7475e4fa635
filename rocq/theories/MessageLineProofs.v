(** The message for a line that cannot be read, exactly. *)
From Coq Require Import String Ascii ZArith Bool List Lia.
From Verif Require Import Base Lib Utf8 GoStrings Strtok Tokeniser SpecContent TokeniserProofs NumProofs DecodeProofs GoTime Types DateProofs Params ParamTable PropTable Props SecTable Sections Codec SpecTree SpecRules CaseProofs SpecParams ParamProofs SpecProps PropProofs HangProofs GroupProofs EncodableProofs SpecValid ValidProofs SpecRfc SpecLine LineProofs TotalProofs LabelTable Messages SpecMessage MessageProofs.
Import ListNotations.
Local Open Scope list_scope.

Section ML.
Context {env : Env}.

(** ** Values *)
Lemma std_other t e : e <> ErrStd -> std_says t e = Root e.
Proof. destruct e; intros H; try reflexivity. contradiction. Qed.
Lemma moment_some n vp d : exists t, moment_text n vp d t.
Proof.
  destruct (pmap_get vp (bs "TZID")) as [z|] eqn:P.
  - destruct (load_location 0 z) as [y|] eqn:L; [eexists; eapply Mt_zone; eassumption|eexists; eapply Mt_no_zone; eassumption].
  - destruct (ends_with "Z"%char d) eqn:Z.
    + unfold ends_with in Z. destruct (rev d) as [|c r] eqn:R; [discriminate|]. apply beqc_eq in Z. subst c. eexists. eapply (Mt_utc n vp d (rev r)); [exact P|]. rewrite <- (rev_involutive d), R. reflexivity.
    + eexists. eapply Mt_local; [exact P|]. intros r ->. change (bs "Z") with ["Z"%char] in Z. rewrite ends_with_app in Z. discriminate.
Qed.
Lemma moment_datetime vp d t e : moment_text "DateTime" vp d t -> datetime_msg vp d e = match e with ErrStd => Wrap (Says t) (Root ErrStd) | _ => Root e end.
Proof.
  unfold datetime_msg. intros [z P L|z y P L|r P ->|P N]; rewrite P.
  - rewrite L. destruct e; reflexivity.
  - rewrite L. destruct e; reflexivity.
  - change (bs "Z") with ["Z"%char]. rewrite ends_with_app. destruct e; reflexivity.
  - destruct (ends_with "Z"%char d) eqn:Z; [|destruct e; reflexivity]. unfold ends_with in Z. destruct (rev d) as [|c r] eqn:R; [discriminate|]. apply beqc_eq in Z. subst c.
    destruct (N (rev r)). rewrite <- (rev_involutive d), R. reflexivity.
Qed.
Lemma moment_clock vp d t e : moment_text "Time" vp d t -> clock_msg vp d e = match e with ErrStd => Wrap (Says t) (Root ErrStd) | _ => Root e end.
Proof.
  unfold clock_msg. intros [z P L|z y P L|r P ->|P N]; rewrite P.
  - rewrite L. destruct e; reflexivity.
  - rewrite L. destruct e; reflexivity.
  - change (bs "Z") with ["Z"%char]. rewrite ends_with_app. destruct e; reflexivity.
  - destruct (ends_with "Z"%char d) eqn:Z; [|destruct e; reflexivity]. unfold ends_with in Z. destruct (rev d) as [|c r] eqn:R; [discriminate|]. apply beqc_eq in Z. subst c.
    destruct (N (rev r)). rewrite <- (rev_involutive d), R. reflexivity.
Qed.
Lemma two_cut c d a b : two_parts c d a b <-> cut c d = Some (a, b).
Proof. unfold two_parts. split; [intros [-> N]; apply cut_app, N|apply cut_some]. Qed.
Lemma std_dec (e : gerr) : {e = ErrStd} + {e <> ErrStd}.
Proof. destruct e; first [left; reflexivity|right; discriminate]. Qed.
Lemma datetime_says vp d e m : value_says vp d KDateTime e m <-> m = datetime_msg vp d e.
Proof.
  destruct (moment_some "DateTime" vp d) as (t & T). split.
  - intros H. inversion H as [k e' _ N| k K|k t' Q|t' T'|t' T'|a b C P|a b f C P|e' N|a b e' m' C NB V VS|a c b v e' m' C V N1 N2 VS|a c b v e' m' C V N1 VS]; subst; try discriminate; try (destruct K as [K|[K|[K|[K|[K|[K|[]]]]]]]; discriminate).
    + rewrite (moment_datetime _ _ _ e T). destruct e; try reflexivity. contradiction.
    + rewrite (moment_datetime _ _ _ ErrStd T'). reflexivity.
  - intros ->. rewrite (moment_datetime _ _ _ e T). destruct (std_dec e) as [->|N]; [apply Vs_datetime, T|]. destruct e; try (apply Vs_own; [discriminate|exact N]). contradiction.
Qed.
Lemma duration_says vp d e m : value_says vp d KDuration e m <-> m = duration_msg e.
Proof.
  unfold duration_msg. split.
  - intros H. inversion H as [k e' _ N| k K|k t' Q|t' T'|t' T'|a b C P|a b f C P|e' N|a b e' m' C NB V VS|a c b v e' m' C V N1 N2 VS|a c b v e' m' C V N1 VS]; subst; try (destruct K as [K|[K|[K|[K|[K|[K|[]]]]]]]; discriminate).
    + rewrite std_other by exact N. reflexivity.
    + cbn in Q. injection Q as <-. reflexivity.
  - intros ->. destruct (std_dec e) as [->|N]; [apply Vs_text; reflexivity|]. rewrite std_other by exact N. apply Vs_own; [discriminate|exact N].
Qed.

Lemma value_says_iff vp d k e m : value_decode k vp d = Err e -> (value_says vp d k e m <-> m = value_msg k vp d e).
Proof.
  intros V. destruct k; try apply datetime_says; try apply duration_says.
  all: cbn [value_msg].
  all: try (split; [intros H; inversion H as [k e' _ N| k K|k t' Q|t' T'|t' T'|a b C P|a b f C P|e' N|a b e' m' C NB V' VS|a c b v e' m' C V' N1 N2 VS|a c b v e' m' C V' N1 VS]; subst; try discriminate;
    try (cbn in Q; injection Q as <-); try (destruct K as [K|[K|[K|[K|[K|[K|[]]]]]]]; discriminate); rewrite ?std_other by exact N; reflexivity
    |intros ->; destruct (std_dec e) as [->|N]; [first [apply Vs_text; reflexivity|apply Vs_bare; cbn [In]; tauto]|rewrite ?std_other by exact N; apply Vs_own; [discriminate|exact N]]]; fail).
  - (* TFloat *)
    cbn [value_decode] in V. unfold rmap, tfloat_decode in V. unfold tfloat_msg. destruct (cut ";"%char d) as [[a b]|] eqn:C.
    + cbn [of_option] in V. destruct (parse_float a) as [f|] eqn:PA; cbn [of_option bind] in V.
      * destruct (parse_float b) eqn:PB; cbn [of_option bind] in V; [discriminate|]. injection V as <-. split.
        -- intros H. inversion H as [k e' _ N| k K|k t' Q|t' T'|t' T'|a' b' C' P|a' b' f' C' P|e' N|a' b' e' m' C' NB V' VS|a' c b' v e' m' C' V' N1 N2 VS|a' c b' v e' m' C' V' N1 VS]; subst; try contradiction; try discriminate; try (destruct K as [K|[K|[K|[K|[K|[K|[]]]]]]]; discriminate).
           ++ apply two_cut in C'. rewrite C in C'. injection C' as <- <-. congruence.
           ++ reflexivity.
        -- intros ->. apply two_cut in C. apply (Vs_second _ _ a b f C PA).
      * injection V as <-. split.
        -- intros H. inversion H as [k e' _ N| k K|k t' Q|t' T'|t' T'|a' b' C' P|a' b' f' C' P|e' N|a' b' e' m' C' NB V' VS|a' c b' v e' m' C' V' N1 N2 VS|a' c b' v e' m' C' V' N1 VS]; subst; try contradiction; try discriminate; try (destruct K as [K|[K|[K|[K|[K|[K|[]]]]]]]; discriminate).
           ++ reflexivity.
           ++ apply two_cut in C'. rewrite C in C'. injection C' as <- <-. congruence.
        -- intros ->. apply two_cut in C. apply (Vs_first _ _ a b C PA).
    + cbn [bind] in V. injection V as <-. split; [|intros ->; apply Vs_own; discriminate]. intros H. inversion H; subst; try reflexivity; discriminate.
  - (* Period *)
    cbn [value_decode] in V. unfold rmap, period_decode in V. unfold period_msg.
    assert (DT : forall x, value_decode KDateTime vp x = rmap VDateTime (datetime_decode 0 vp x)) by reflexivity.
    destruct (cut "/"%char d) as [[a b]|] eqn:C.
    + pose proof (proj2 (two_cut _ _ _ _) C) as C2. destruct b as [|c b].
      * split; [|intros ->; apply Vs_period; intros a' b' C'; apply two_cut in C'; congruence]. intros H. inversion H as [k e' NP N| k K|k t' Q|t' T'|t' T'|a' b' C' P|a' b' f' C' P|e' N|a' b' e' m' C' NB V' VS|a' c b' v e' m' C' V' N1 N2 VS|a' c b' v e' m' C' V' N1 VS]; subst; try contradiction; try discriminate; try (destruct K as [K|[K|[K|[K|[K|[K|[]]]]]]]; discriminate); try reflexivity; apply two_cut in C'; congruence.
      * destruct (datetime_decode 0 vp a) as [t|e0| |] eqn:D; cbn [bind] in V; try discriminate.
        -- assert (S0 : value_decode KDateTime vp a = Ok (VDateTime t)) by (rewrite DT, D; reflexivity). destruct (beqc c "P" || beqc c "+") eqn:PC.
           ++ assert (PC' : c = "P"%char \/ c = "+"%char) by (apply orb_true_iff in PC as [PC|PC]; apply beqc_eq in PC; auto). split.
              ** intros H. inversion H as [k e' NP N| k K|k t' Q|t' T'|t' T'|a' b' C' P|a' b' f' C' P|e' N|a' b' e' m' C' NB V' VS|a' c' b' v e' m' C' V' N1 N2 VS|a' c' b' v e' m' C' V' N1 VS]; subst; try contradiction; try discriminate; try (destruct K as [K|[K|[K|[K|[K|[K|[]]]]]]]; discriminate).
                 --- specialize (N _ _ C2). discriminate.
                 --- apply two_cut in C'. rewrite C in C'. injection C' as <- <-. congruence.
                 --- apply two_cut in C'. rewrite C in C'. injection C' as <- <- <-. tauto.
                 --- apply two_cut in C'. rewrite C in C'. injection C' as <- <- <-. apply duration_says in VS. subst. reflexivity.
              ** intros ->. eapply Vs_length; try eassumption. apply duration_says. reflexivity.
           ++ assert (PC' : c <> "P"%char /\ c <> "+"%char) by (apply orb_false_iff in PC as [P1 P2]; split; intros ->; rewrite beqc_refl in *; discriminate). split.
              ** intros H. inversion H as [k e' NP N| k K|k t' Q|t' T'|t' T'|a' b' C' P|a' b' f' C' P|e' N|a' b' e' m' C' NB V' VS|a' c' b' v e' m' C' V' N1 N2 VS|a' c' b' v e' m' C' V' N1 VS]; subst; try contradiction; try discriminate; try (destruct K as [K|[K|[K|[K|[K|[K|[]]]]]]]; discriminate).
                 --- specialize (N _ _ C2). discriminate.
                 --- apply two_cut in C'. rewrite C in C'. injection C' as <- <-. congruence.
                 --- apply two_cut in C'. rewrite C in C'. injection C' as <- <- <-. apply datetime_says in VS. subst. reflexivity.
                 --- apply two_cut in C'. rewrite C in C'. injection C' as <- <- <-. tauto.
              ** intros ->. destruct PC'. eapply Vs_end; try eassumption. apply datetime_says. reflexivity.
        -- injection V as ->. assert (S0 : value_decode KDateTime vp a = Err e) by (rewrite DT, D; reflexivity). split.
           ++ intros H. inversion H as [k e' NP N| k K|k t' Q|t' T'|t' T'|a' b' C' P|a' b' f' C' P|e' N|a' b' e' m' C' NB V' VS|a' c' b' v e' m' C' V' N1 N2 VS|a' c' b' v e' m' C' V' N1 VS]; subst; try contradiction; try discriminate; try (destruct K as [K|[K|[K|[K|[K|[K|[]]]]]]]; discriminate).
              ** specialize (N _ _ C2). discriminate.
              ** apply two_cut in C'. rewrite C in C'. injection C' as <- <-. apply datetime_says in VS. subst. reflexivity.
              ** apply two_cut in C'. rewrite C in C'. injection C' as <- <- <-. congruence.
              ** apply two_cut in C'. rewrite C in C'. injection C' as <- <- <-. congruence.
           ++ intros ->. eapply Vs_start; try eassumption; [discriminate|]. apply datetime_says. reflexivity.
    + split; [|intros ->; apply Vs_period; intros a b C'; apply two_cut in C'; congruence]. intros H. inversion H as [k e' NP N| k K|k t' Q|t' T'|t' T'|a' b' C' P|a' b' f' C' P|e' N|a' b' e' m' C' NB V' VS|a' c b' v e' m' C' V' N1 N2 VS|a' c b' v e' m' C' V' N1 VS]; subst; try contradiction; try discriminate; try (destruct K as [K|[K|[K|[K|[K|[K|[]]]]]]]; discriminate); try reflexivity; apply two_cut in C'; congruence.
  - (* Time *)
    destruct (moment_some "Time" vp d) as (t & T). split.
    + intros H. inversion H as [k e' _ N| k K|k t' Q|t' T'|t' T'|a b C P|a b f C P|e' N|a b e' m' C NB V' VS|a c b v e' m' C V' N1 N2 VS|a c b v e' m' C V' N1 VS]; subst; try discriminate; try (destruct K as [K|[K|[K|[K|[K|[K|[]]]]]]]; discriminate).
      * rewrite (moment_clock _ _ _ e T). destruct e; try reflexivity. contradiction.
      * rewrite (moment_clock _ _ _ ErrStd T'). reflexivity.
    + intros ->. rewrite (moment_clock _ _ _ e T). destruct (std_dec e) as [->|N]; [apply Vs_time, T|]. destruct e; try (apply Vs_own; [discriminate|exact N]). contradiction.
Qed.

(** ** Parameters *)
Lemma quoted_err v : quoted_data (pvalue_token v) = match v with Quoted d => Ok d | Plain _ => Err ErrInvalidParam end.
Proof. destruct v; reflexivity. Qed.
Lemma one_err x : one_value (param_values x) = match cp_more x with [] => Ok (pvalue_token (cp_first x)) | _ => Err ErrInvalidParam end.
Proof. unfold one_value, param_values. cbn [map]. destruct (cp_more x); reflexivity. Qed.
Lemma form_refused f x e : param_decode (kind_form f) (param_values x) = Err e -> param_msg (kind_form f) e = form_cause f x.
Proof.
  destruct f as [| | | | |o ws|w| |]; cbn [kind_form param_decode param_msg form_cause].
  - rewrite one_err. destruct (cp_more x); cbn [bind]; [|intros H; injection H as <-; destruct (cp_first x); reflexivity]. rewrite quoted_err. destruct (cp_first x) as [s|s]; cbn [bind].
    + unfold url_decode. destruct (url_parse s); cbn [of_option bind]; [discriminate|]. intros H. injection H as <-. reflexivity.
    + intros H. injection H as <-. reflexivity.
  - unfold param_values. generalize (cp_first x :: cp_more x). intros l H. assert (M : mapM (fun t => let! d := quoted_data t in url_decode d) (map pvalue_token l) = Err e) by (destruct (mapM _ _); cbn [bind] in H; congruence). clear H.
    revert M. induction l as [|v l IH]; cbn [map mapM find]; [discriminate|]. rewrite quoted_err. destruct v as [s|s]; cbn [bind].
    + unfold url_decode at 1. destruct (url_parse s); cbn [of_option bind]; [|intros H; injection H as <-; reflexivity]. intros H. apply IH. destruct (mapM _ _); cbn [bind] in H; congruence.
    + intros H. injection H as <-. reflexivity.
  - unfold param_values. generalize (cp_first x :: cp_more x). intros l H. assert (M : mapM (fun t => let! d := quoted_data t in Ok (decode6868 d)) (map pvalue_token l) = Err e) by (destruct (mapM _ _); cbn [bind] in H; congruence). clear H.
    revert M. induction l as [|v l IH]; cbn [map mapM]; [discriminate|]. rewrite quoted_err. destruct v as [s|s]; cbn [bind].
    + intros H. apply IH. destruct (mapM _ _); cbn [bind] in H; congruence.
    + intros H. injection H as <-. reflexivity.
  - rewrite one_err. destruct (cp_more x); cbn [bind]; [discriminate|]. intros H. injection H as <-. reflexivity.
  - rewrite one_err. destruct (cp_more x); cbn [bind]; [|intros H; injection H as <-; reflexivity]. rewrite quoted_err. destruct (cp_first x); cbn [bind]; [discriminate|]. intros H. injection H as <-. reflexivity.
  - rewrite one_err. destruct (cp_more x); cbn [bind]; [|intros H; injection H as <-; reflexivity]. destruct (index_of _ _); [discriminate|]. destruct o; [discriminate|]. intros H. injection H as <-. reflexivity.
  - rewrite one_err. destruct (cp_more x); cbn [bind]; [|intros H; injection H as <-; reflexivity]. destruct (beq _ _); [discriminate|]. intros H. injection H as <-. reflexivity.
  - rewrite one_err. destruct (cp_more x); cbn [bind]; [|intros H; injection H as <-; reflexivity]. destruct (regex_match _); [discriminate|]. intros H. injection H as <-. reflexivity.
  - rewrite one_err. destruct (cp_more x); cbn [bind]; [|intros H; injection H as <-; reflexivity]. unfold boolean_decode. destruct (parse_bool _); cbn [of_option bind]; [discriminate|]. intros H. injection H as <-. reflexivity.
Qed.
Lemma mapM_not {A B} (f : A -> res B) l : (forall a, f a <> Panic /\ f a <> NoFuel) -> mapM f l <> Panic /\ mapM f l <> NoFuel.
Proof.
  intros F. induction l as [|a l IH]; cbn [mapM]; [split; discriminate|]. destruct (F a). destruct (f a); cbn [bind]; try (split; congruence). destruct (mapM f l); cbn [bind]; split; destruct IH; congruence.
Qed.
Lemma form_decided f x : (exists v, param_decode (kind_form f) (param_values x) = Ok v) \/ exists e, param_decode (kind_form f) (param_values x) = Err e.
Proof.
  assert (T : param_decode (kind_form f) (param_values x) <> Panic /\ param_decode (kind_form f) (param_values x) <> NoFuel).
  { assert (U : forall s, url_decode s <> Panic /\ url_decode s <> NoFuel) by (intros s; unfold url_decode; destruct (url_parse s); split; discriminate).
    assert (QD : forall t, quoted_data t <> Panic /\ quoted_data t <> NoFuel) by (intros t; unfold quoted_data; destruct (ttype_eqb _ _); split; discriminate).
    destruct f as [| | | | |o ws|w| |]; cbn [kind_form param_decode]; rewrite ?one_err; try (destruct (cp_more x); cbn [bind]; [|split; discriminate]).
    - destruct (QD (pvalue_token (cp_first x))). destruct (quoted_data _) as [d| | |]; cbn [bind]; try (split; congruence). destruct (U d). destruct (url_decode d); cbn [bind]; split; congruence.
    - match goal with |- context[mapM ?f ?l] => assert (M : mapM f l <> Panic /\ mapM f l <> NoFuel) end.
      { apply mapM_not. intros t. destruct (QD t). destruct (quoted_data t) as [d| | |]; cbn [bind]; try (split; congruence). apply U. }
      destruct (mapM _ _); cbn [bind]; destruct M; split; congruence.
    - match goal with |- context[mapM ?f ?l] => assert (M : mapM f l <> Panic /\ mapM f l <> NoFuel) end.
      { apply mapM_not. intros t. destruct (QD t). destruct (quoted_data t) as [d| | |]; cbn [bind]; split; congruence. }
      destruct (mapM _ _); cbn [bind]; destruct M; split; congruence.
    - split; discriminate.
    - destruct (QD (pvalue_token (cp_first x))). destruct (quoted_data _) as [d| | |]; cbn [bind]; split; congruence.
    - destruct (index_of _ _); [split; discriminate|]. destruct o; split; discriminate.
    - destruct (beq _ _); split; discriminate.
    - destruct (regex_match _); split; discriminate.
    - unfold boolean_decode. destruct (parse_bool _); cbn [of_option bind]; split; discriminate. }
  destruct (param_decode _ _); [left|right| |]; eauto; destruct T; congruence.
Qed.

(** ** The parameters of a struct *)
Definition start (ps : list paramid) : pstate := PState (map (fun _ => None) ps) None [].
Lemma params_app pid ps vs : forall a b st, struct_params_m pid ps vs st (a ++ b) = mbind (struct_params_m pid ps vs st a) (fun st => struct_params_m pid ps vs st b).
Proof. induction a as [|g a IH]; intros b st; [reflexivity|]. cbn [app struct_params_m]. destruct (struct_param_m pid ps vs st g); cbn [mbind]; auto. Qed.
Lemma params_split pid ps vs : forall cps st m, struct_params_m pid ps vs st (map group_of cps) = MErr m <->
  exists pre x post st1, cps = pre ++ x :: post /\ struct_params_m pid ps vs st (map group_of pre) = MOk st1 /\ struct_param_m pid ps vs st1 (group_of x) = MErr m.
Proof.
  intros cps st m. split.
  - revert st. induction cps as [|x cps IH]; intros st; cbn [map struct_params_m]; [discriminate|]. destruct (struct_param_m pid ps vs st (group_of x)) as [st1|m'| |] eqn:G; cbn [mbind]; intros H; try discriminate.
    + destruct (IH _ H) as (pre & y & post & st2 & -> & A & B). exists (x :: pre), y, post, st2. split; [reflexivity|]. split; [|exact B]. cbn [map struct_params_m]. rewrite G. exact A.
    + exists [], x, cps, st. split; [reflexivity|]. split; [reflexivity|]. congruence.
  - intros (pre & x & post & st1 & -> & A & B). rewrite map_app, params_app, A. cbn [mbind map struct_params_m]. rewrite B. reflexivity.
Qed.

(** The state after parameters that are all right. *)
Lemma vtype_given pid ps vs cps st : snd (prop_spec pid) = MStruct ps vs -> several vs = true -> struct_params ps vs (start ps) (map group_of cps) = Ok st ->
  (ps_vtype st = None <-> given (bs "VALUE") cps = []).
Proof.
  intros E SV HS. destruct (struct_facts _ _ _ E) as [ND NV]. pose proof (fun L0 => struct_params_spec ps vs ND _ _ _ L0 HS) as SPEC. cbn [start ps_params ps_vtype] in SPEC.
  destruct (SPEC (map_length _ _)) as (_ & _ & HT). destruct (proj2 (HT SV NV) eq_refl) as [[A B]|(a & g & b & t & j & G & K & NA & NB & T & IX & A)]; rewrite A.
  - split; [intros _; apply given_nil, B|reflexivity].
  - destruct (given_one _ _ _ _ _ G K NA NB) as (y & GY & _). rewrite GY. split; discriminate.
Qed.
Lemma types_row pid ps vs : snd (prop_spec pid) = MStruct ps vs -> rfc_words pid = [] /\ api_struct pid = Some ps /\ (several vs = true <-> several_types pid) /\ (several_types pid -> vs = rfc_types pid) /\
  (forall cps, (exists a w k b, type_read cps vs a w k b) <-> (exists a w k b, type_read cps (rfc_types pid) a w k b)) /\
  (forall cps a w k b, type_read cps vs a w k b -> exists w', type_read cps (rfc_types pid) a w' k b) /\ (forall cps a w k b, type_read cps (rfc_types pid) a w k b -> exists w', type_read cps vs a w' k b).
Proof.
  intros E. pose proof (prop_row pid) as R. rewrite E in R. destruct R as (A & B & R). split; [exact A|]. split; [exact B|]. unfold several_types, several. destruct R as [<-|(w & w' & k & -> & ->)].
  - split; [apply Nat.ltb_lt|]. split; [reflexivity|]. split; [reflexivity|]. split; eauto.
  - split; [cbn; split; [discriminate|lia]|]. split; [cbn; lia|]. split; [|split; intros; eexists; eapply type_one; eassumption].
    intros cps. split; intros (a & x & kk & b & T); do 4 eexists; eapply type_one, T.
Qed.
Lemma fine_state pid ps vs cps : snd (prop_spec pid) = MStruct ps vs ->
  (params_fine pid ps cps <-> exists st, struct_params_m pid ps vs (start ps) (map group_of cps) = MOk st).
Proof.
  intros E. destruct (types_row _ _ _ E) as (_ & _ & _ & _ & TT & _). split.
  - intros [F T]. apply TT in T as (a & w & k & b & T). destruct (struct_facts _ _ _ E) as [ND NV].
    assert (HS : exists st, struct_params ps vs (start ps) (map group_of cps) = Ok st).
    { apply struct_complete; cbn [start ps_params ps_vtype]; [exact ND|exact NV|apply map_length| |].
      - intros i q N. rewrite of_name_given. rewrite Forall_forall in F. destruct (F q (nth_error_In _ _ N)) as (o & P). apply param_means_iff in P. destruct P as [[G _]|(x & y & G & D & _)]; unfold keyword; rewrite G.
        + left. reflexivity.
        + right. split; [apply nth_none|]. exists (group_of x), y. split; [reflexivity|]. exact D.
      - intros SV. rewrite of_name_given. destruct T as [EV [[-> [G|G]]|(x & G & M & W)]].
        + rewrite G. left. reflexivity.
        + unfold several in SV. apply Nat.ltb_lt in SV. lia.
        + rewrite G. right. split; [reflexivity|]. exists (group_of x), (pvalue_token (cp_first x)), (length a). split; [reflexivity|]. split; [unfold group_of; cbn [snd]; rewrite M; reflexivity|]. rewrite token_text, W, EV. apply (index_at fst a (w, k) b). rewrite <- EV. exact (struct_words _ _ _ E SV). }
    destruct HS as (st & HS). exists st. apply erase_ok. rewrite struct_params_erase. exact HS.
  - intros (st & HS). apply (f_equal erase) in HS. rewrite struct_params_erase in HS. cbn [erase] in HS. rewrite <- groups_params in HS. destruct (struct_state _ _ _ _ _ E HS) as (F2 & a & w & k & b & _ & _ & _ & T). split.
    + apply Forall_forall. intros q Q. destruct (Forall2_in _ _ _ F2 q Q) as (o & P). exists o. apply param_means_iff, P.
    + apply TT. eauto.
Qed.

(** ** One parameter after others that are all right *)
Inductive step_says (pid : propid) (ps : list paramid) (pre : list cparam) (x : cparam) : gmsg -> Prop :=
| St_twice q : In q ps -> upper (cp_name x) = fst (rfc_param q) -> given (fst (rfc_param q)) pre <> [] ->
    step_says pid ps pre x (Wrap (DecodingProp (prop_word pid) (param_word q)) (Root ErrDuplicateParam))
| St_param q : In q ps -> upper (cp_name x) = fst (rfc_param q) -> given (fst (rfc_param q)) pre = [] -> (forall v, ~ form_means (snd (rfc_param q)) x v) ->
    step_says pid ps pre x (Wrap (DecodingProp (prop_word pid) (param_word q)) (Wrap (DecodingType (param_word q)) (form_cause (snd (rfc_param q)) x)))
| St_types : several_types pid -> upper (cp_name x) = bs "VALUE" -> cp_more x <> [] ->
    step_says pid ps pre x (Wrap (DecodingProp (prop_word pid) (bs "Value")) (Root ErrInvalidValue))
| St_type_twice : several_types pid -> upper (cp_name x) = bs "VALUE" -> cp_more x = [] -> given (bs "VALUE") pre <> [] ->
    step_says pid ps pre x (Wrap (DecodingProp (prop_word pid) (bs "Value")) (Root ErrDuplicateParam))
| St_type : several_types pid -> upper (cp_name x) = bs "VALUE" -> cp_more x = [] -> given (bs "VALUE") pre = [] ->
    ~ In (upper (pvalue_text (cp_first x))) (map fst (rfc_types pid)) ->
    step_says pid ps pre x (Wrap (DecodingType (prop_word pid)) (Root ErrInvalidValue)).

Lemma keyword_name q : keyword q = fst (rfc_param q).
Proof. unfold keyword. rewrite param_table. reflexivity. Qed.
Lemma kind_name q : pkind_of q = kind_form (snd (rfc_param q)).
Proof. unfold pkind_of. rewrite param_table. reflexivity. Qed.
Lemma step_iff pid ps vs pre st x m : snd (prop_spec pid) = MStruct ps vs -> struct_params_m pid ps vs (start ps) (map group_of pre) = MOk st ->
  (struct_param_m pid ps vs st (group_of x) = MErr m <-> step_says pid ps pre x m).
Proof.
  intros E HM. assert (HS : struct_params ps vs (start ps) (map group_of pre) = Ok st) by (apply (f_equal erase) in HM; rewrite struct_params_erase in HM; exact HM). clear HM.
  destruct (struct_facts _ _ _ E) as [ND NV]. destruct (types_row _ _ _ E) as (_ & _ & SEV & TYPES & _). pose proof HS as HS0. rewrite <- groups_params in HS0. destruct (struct_state _ _ _ _ _ E HS0) as (F2 & _).
  unfold struct_param_m, group_of. fold (param_values x). rewrite prop_names. change value_label with (bs "Value"). destruct (param_index (upper (cp_name x)) ps) as [i|] eqn:PI.
  - apply index_of_some in PI. rewrite nth_error_map in PI. destruct (nth_error ps i) as [q|] eqn:Q; [|discriminate]. injection PI as PI. rewrite (nth_error_nth _ _ PmAgentID Q).
    assert (PR : param_read pre q (nth i (ps_params st) None)).
    { clear - F2 Q. revert i Q. induction F2 as [|a b l r P _ IH]; intros [|i] Q; cbn [nth_error nth] in *; try discriminate; [congruence|auto]. }
    assert (SAME : forall q', In q' ps -> upper (cp_name x) = fst (rfc_param q') -> q' = q).
    { intros q' I U. apply In_nth_error in I as [j J]. rewrite NoDup_nth_error in ND. assert (i = j); [|congruence]. apply ND; [rewrite map_length; apply nth_error_Some; congruence|]. rewrite !nth_error_map, Q, J. cbn. rewrite (keyword_name q'). congruence. }
    assert (NVAL : upper (cp_name x) <> bs "VALUE") by (intros V; apply NV; rewrite <- V, <- PI; apply in_map; eapply nth_error_In, Q).
    assert (Iq : In q ps) by (eapply nth_error_In, Q). rewrite keyword_name in PI. rewrite param_names.
    destruct (nth i (ps_params st) None) as [v0|] eqn:N.
    + assert (G : given (fst (rfc_param q)) pre <> []). { destruct PR as [[_ ?]|(y & v & G & _)]; [discriminate|]. rewrite <- keyword_name. unfold keyword. rewrite G. discriminate. }
      split.
      * intros H. injection H as <-. apply St_twice; auto.
      * intros H. destruct H as [q' I U G'|q' I U G'|S1 V|S1 V|S1 V]; try contradiction; apply SAME in U; auto; subst q'; [reflexivity|contradiction].
    + assert (G : given (fst (rfc_param q)) pre = []). { rewrite <- keyword_name. destruct PR as [[G _]|(y & v & _ & _ & ?)]; [exact G|discriminate]. }
      unfold param_decode_m. rewrite kind_name, param_names. destruct (form_decided (snd (rfc_param q)) x) as [(v & D)|(e & D)]; rewrite D; cbn [lift wrap mbind].
      * split; [discriminate|]. intros H. exfalso. destruct H as [q' I U G'|q' I U G' NF|S1 V|S1 V|S1 V]; try contradiction; apply SAME in U; auto; subst q'; [contradiction|]. apply (NF v). apply form_iff; [apply choices_distinct|exact D].
      * rewrite (form_refused _ _ _ D). split.
        -- intros H. injection H as <-. apply St_param; auto. intros v FM. apply form_iff in FM; [|apply choices_distinct]. congruence.
        -- intros H. destruct H as [q' I U G'|q' I U G'|S1 V|S1 V|S1 V]; try contradiction; apply SAME in U; auto; subst q'; [contradiction|reflexivity].
  - apply index_of_none in PI. assert (NQ : forall q, In q ps -> upper (cp_name x) <> fst (rfc_param q)) by (intros q I U; apply PI; rewrite U, <- keyword_name; apply in_map, I).
    change (Nat.ltb 1 (length vs)) with (several vs). destruct (several vs) eqn:SV; cbn [andb].
    + pose proof (proj1 SEV eq_refl) as SEV1. pose proof (vtype_given _ _ _ _ _ E SV HS) as VT. destruct (beq (upper (cp_name x)) (bs "VALUE")) eqn:B; [apply beq_eq in B|apply beq_neq in B].
      * unfold param_values. cbn [map]. destruct (cp_more x) as [|y r] eqn:M; cbn [map].
        -- destruct (ps_vtype st) as [j|] eqn:T.
           ++ assert (G : given (bs "VALUE") pre <> []) by (intros G; apply VT in G; discriminate). split.
              ** intros H. injection H as <-. apply St_type_twice; auto.
              ** intros H. destruct H as [q I U|q I U|S1 V M'|S1 V M' G'|S1 V M' G']; try (destruct (NQ q I U)); congruence.
           ++ pose proof (proj1 VT eq_refl) as G. rewrite token_text. rewrite (TYPES SEV1). destruct (index_of _ _) as [j|] eqn:IX.
              ** split; [discriminate|]. intros H. exfalso. destruct H as [q I U|q I U|S1 V M'|S1 V M' G'|S1 V M' G' NI]; try (destruct (NQ q I U)); try congruence. apply NI. apply index_of_some in IX. eapply nth_error_In, IX.
              ** apply index_of_none in IX. split.
                 --- intros H. injection H as <-. apply St_type; auto.
                 --- intros H. destruct H as [q I U|q I U|S1 V M'|S1 V M' G'|S1 V M' G']; try (destruct (NQ q I U)); congruence.
        -- split.
           ++ intros H. injection H as <-. apply St_types; auto. rewrite M. discriminate.
           ++ intros H. destruct H as [q I U|q I U|S1 V M'|S1 V M' G'|S1 V M' G']; try (destruct (NQ q I U)); congruence.
      * split; [discriminate|]. intros H. exfalso. destruct H as [q I U|q I U|S1 V M'|S1 V M' G'|S1 V M' G']; try (destruct (NQ q I U)); congruence.
    + assert (SEV1 : ~ several_types pid) by (intros S1; apply SEV in S1; discriminate). split; [discriminate|]. intros H. exfalso.
      destruct H as [q I U|q I U|S1 V M'|S1 V M' G'|S1 V M' G']; try (destruct (NQ q I U)); contradiction.
Qed.

(** ** Lines *)
Lemma other_params pid ps vs cps st : snd (prop_spec pid) = MStruct ps vs -> struct_params ps vs (start ps) (map group_of cps) = Ok st -> agree used (ps_other st) (value_params cps).
Proof.
  intros E HS n U. rewrite (other_spec _ _ _ _ _ HS n (struct_used _ _ _ E n U)), (value_params_get _ _ U), last_given_groups. destruct (rev _); reflexivity.
Qed.
Lemma plain_params cps : agree used (fold_left (fun (m : pmap) g => (fst g, join_values (snd g)) :: m) (map group_of cps) []) (value_params cps).
Proof.
  intros n U. rewrite (value_params_get _ _ U), last_given_groups. generalize (map group_of cps) as gs. intros gs.
  assert (G : forall gs m, pmap_get (fold_left (fun (m : pmap) g => (fst g, join_values (snd g)) :: m) gs m) n = match rev (of_name n gs) with [] => pmap_get m n | g :: _ => Some (join_values (snd g)) end).
  { clear gs. induction gs as [|g gs IH]; intros m; [reflexivity|]. cbn [fold_left]. rewrite IH. unfold of_name. cbn [filter]. fold (of_name n gs). destruct (beq (fst g) n) eqn:B.
    - cbn [rev]. destruct (rev (of_name n gs)) as [|x r]; cbn [app]; [|reflexivity]. apply beq_eq in B. cbn [pmap_get]. rewrite B, beq_refl. reflexivity.
    - destruct (rev (of_name n gs)) as [|x r]; [|reflexivity]. cbn [pmap_get]. destruct (beq n (fst g)) eqn:B2; [apply beq_eq in B2; apply beq_neq in B; congruence|reflexivity]. }
  rewrite G. destruct (rev _); reflexivity.
Qed.
Lemma msg_ext m m' k d e : agree used m m' -> value_msg k m d e = value_msg k m' d e.
Proof.
  intros A. assert (TZ : pmap_get m (bs "TZID") = pmap_get m' (bs "TZID")) by (apply A; left; reflexivity).
  assert (DT : forall id x, datetime_decode id m x = datetime_decode id m' x) by (intros id x; unfold datetime_decode; rewrite TZ; reflexivity).
  assert (DM : forall x, datetime_msg m x e = datetime_msg m' x e) by (intros x; unfold datetime_msg; rewrite TZ; reflexivity).
  destruct k; cbn [value_msg]; try reflexivity; [apply DM| |unfold clock_msg; rewrite TZ; reflexivity].
  unfold period_msg. destruct (cut _ _) as [[a [|c b]]|]; try reflexivity. rewrite DT. destruct (datetime_decode 0 m' a); [destruct (_ || _)|..]; rewrite ?DM; reflexivity.
Qed.
Lemma value_err k m m' d x : agree used m m' -> (value_decode_m k m d = MErr x <-> exists e, value_decode k m' d = Err e /\ value_says m' d k e x).
Proof.
  intros A. unfold value_decode_m. rewrite (value_ext _ _ k d A). destruct (value_decode k m' d) as [v|e| |] eqn:V; cbn [lift].
  - split; [discriminate|intros (e & H & _); discriminate].
  - rewrite (msg_ext _ _ k d e A). split.
    + intros H. injection H as <-. exists e. split; [reflexivity|]. apply value_says_iff; auto.
    + intros (e' & H & S1). injection H as <-. apply value_says_iff in S1; [|exact V]. congruence.
  - split; [discriminate|intros (e & H & _); discriminate].
  - split; [discriminate|intros (e & H & _); discriminate].
Qed.

Theorem line_says_iff pid cps d m : prop_decode_m pid (params_tokens cps) d = MErr m <-> line_says pid cps d m.
Proof.
  pose proof (prop_row pid) as R. unfold prop_decode_m. rewrite prop_names, groups_params. destruct (snd (prop_spec pid)) as [ps vs|ws|k] eqn:E.
  - destruct (types_row _ _ _ E) as (RW & RS & SEV & TYPES & TT & TF & TB). fold (start ps). cbv zeta. destruct (struct_params_m pid ps vs (start ps) (map group_of cps)) as [st|m'| |] eqn:SM; cbn [mbind].
    + assert (HS : struct_params ps vs (start ps) (map group_of cps) = Ok st) by (apply (f_equal erase) in SM; rewrite struct_params_erase in SM; exact SM).
      assert (FINE : params_fine pid ps cps) by (eapply fine_state; eauto). pose proof (other_params _ _ _ _ _ E HS) as AG.
      pose proof HS as HS0. rewrite <- groups_params in HS0. destruct (struct_state _ _ _ _ _ E HS0) as (_ & a & w & k & b & N & EV & LA & T). rewrite (nth_error_nth _ _ _ N). cbn [snd].
      assert (KL : kind_label k = kind_word k) by (eapply kind_names; [exact E|eapply nth_error_In, N]). rewrite KL. destruct (TF _ _ _ _ _ T) as (w' & T').
      assert (NOSTEP : forall pre x post m', cps = pre ++ x :: post -> params_fine pid ps pre -> step_says pid ps pre x m' -> False).
      { intros pre x post m0 C F S1. apply (fine_state _ _ _ _ E) in F as (st1 & F). apply (step_iff _ _ _ _ _ _ _ E F) in S1.
        assert (X : struct_params_m pid ps vs (start ps) (map group_of cps) = MErr m0) by (apply params_split; eauto 10). congruence. }
      split.
      * intros H. destruct (value_decode_m k (ps_other st) d) as [v|m'| |] eqn:V; cbn [wrap mbind] in H; try discriminate. injection H as <-. apply (value_err _ _ _ _ _ AG) in V as (e & V & VS). eapply Ls_value; eauto.
      * intros H. destruct H as [ps' pre x post q _ A C F I U G|ps' pre x post q _ A C F I U G NF|ps' pre x post _ A C F S1 U M|ps' pre x post _ A C F S1 U M G|ps' pre x post _ A C F S1 U M G NI|ps' a' w2 k' b' e m _ A F T2 V VS|W|w2 k' e m _ A]; try congruence.
        -- exfalso. assert (ps' = ps) by congruence. subst ps'. eapply NOSTEP; [exact C|exact F|eapply St_twice; eassumption].
        -- exfalso. assert (ps' = ps) by congruence. subst ps'. eapply NOSTEP; [exact C|exact F|eapply St_param; eassumption].
        -- exfalso. assert (ps' = ps) by congruence. subst ps'. eapply NOSTEP; [exact C|exact F|eapply St_types; eassumption].
        -- exfalso. assert (ps' = ps) by congruence. subst ps'. eapply NOSTEP; [exact C|exact F|eapply St_type_twice; eassumption].
        -- exfalso. assert (ps' = ps) by congruence. subst ps'. eapply NOSTEP; [exact C|exact F|eapply St_type; eassumption].
        -- destruct (TB _ _ _ _ _ T2) as (w3 & T3). destruct (type_read_fun _ _ _ _ _ _ _ _ _ _ (struct_words _ _ _ E) T T3) as (_ & <- & _).
           rewrite (proj2 (value_err k _ _ d m AG)) by eauto. reflexivity.
    + split.
      * intros H. injection H as ->. apply params_split in SM as (pre & x & post & st1 & C & A & B). assert (F : params_fine pid ps pre) by (eapply fine_state; eauto). apply (step_iff _ _ _ _ _ _ _ E A) in B.
        destruct B; [eapply Ls_twice|eapply Ls_param|eapply Ls_types|eapply Ls_type_twice|eapply Ls_type]; eassumption.
      * intros H. assert (STEP : forall pre x post m0, cps = pre ++ x :: post -> params_fine pid ps pre -> step_says pid ps pre x m0 -> m' = m0).
        { intros pre x post m0 C F S1. apply (fine_state _ _ _ _ E) in F as (st1 & F). apply (step_iff _ _ _ _ _ _ _ E F) in S1.
          assert (X : struct_params_m pid ps vs (start ps) (map group_of cps) = MErr m0) by (apply params_split; eauto 10). congruence. }
        f_equal. destruct H as [ps' pre x post q _ A C F I U G|ps' pre x post q _ A C F I U G NF|ps' pre x post _ A C F S1 U M|ps' pre x post _ A C F S1 U M G|ps' pre x post _ A C F S1 U M G NI|ps' a' w2 k' b' e m _ A F T2 V VS|W|w2 k' e m _ A]; try congruence; assert (ps' = ps) by congruence; subst ps'.
        -- eapply STEP; [exact C|exact F|eapply St_twice; eassumption].
        -- eapply STEP; [exact C|exact F|eapply St_param; eassumption].
        -- eapply STEP; [exact C|exact F|eapply St_types; eassumption].
        -- eapply STEP; [exact C|exact F|eapply St_type_twice; eassumption].
        -- eapply STEP; [exact C|exact F|eapply St_type; eassumption].
        -- apply (fine_state _ _ _ _ E) in F as (st & F). congruence.
    + exfalso. apply (f_equal erase) in SM. rewrite struct_params_erase in SM. cbn [erase] in SM. clear - SM. revert SM. generalize (start ps). induction cps as [|x cps IH]; intros st; cbn [map struct_params]; [discriminate|].
      destruct (struct_param ps vs st (group_of x)) as [st1| | |] eqn:G; cbn [bind]; intros H; try discriminate; [eapply IH, H|]. revert G. unfold struct_param, group_of. destruct (param_index _ _) as [i|].
      * destruct (nth i _ None); [discriminate|]. fold (param_values x). rewrite kind_name. destruct (form_decided (snd (rfc_param (nth i ps PmAgentID))) x) as [(v & D)|(e & D)]; rewrite D; discriminate.
      * destruct (_ && _); [|discriminate]. cbn [map]. destruct (map pvalue_token (cp_more x)); [|discriminate]. destruct (ps_vtype st); [discriminate|]. destruct (index_of _ _); discriminate.
    + exfalso. apply (f_equal erase) in SM. rewrite struct_params_erase in SM. cbn [erase] in SM. clear - SM. revert SM. generalize (start ps). induction cps as [|x cps IH]; intros st; cbn [map struct_params]; [discriminate|].
      destruct (struct_param ps vs st (group_of x)) as [st1| | |] eqn:G; cbn [bind]; intros H; try discriminate; [eapply IH, H|]. revert G. unfold struct_param, group_of. destruct (param_index _ _) as [i|].
      * destruct (nth i _ None); [discriminate|]. fold (param_values x). rewrite kind_name. destruct (form_decided (snd (rfc_param (nth i ps PmAgentID))) x) as [(v & D)|(e & D)]; rewrite D; discriminate.
      * destruct (_ && _); [|discriminate]. cbn [map]. destruct (map pvalue_token (cp_more x)); [|discriminate]. destruct (ps_vtype st); [discriminate|]. destruct (index_of _ _); discriminate.
  - destruct R as [RW NE]. destruct (index_of (upper d) ws) as [n|] eqn:IX.
    + split; [discriminate|]. intros H. exfalso. apply index_of_some in IX. apply nth_error_In in IX. rewrite <- RW in *. destruct H; try contradiction; congruence.
    + apply index_of_none in IX. split.
      * intros H. injection H as <-. apply Ls_word; rewrite RW; assumption.
      * intros H. rewrite <- RW in NE. destruct H; try contradiction; reflexivity.
  - destruct R as (RW & RS & w & RT). cbv zeta. pose proof (plain_params cps) as AG. split.
    + intros H. destruct (value_decode_m k _ d) as [v|m'| |] eqn:V; cbn [wrap mbind] in H; try discriminate. injection H as <-. apply (value_err _ _ _ _ _ AG) in V as (e & V & VS). eapply Ls_plain; eauto.
    + intros H. destruct H as [ps' pre x post q _ A C F I U G|ps' pre x post q _ A C F I U G NF|ps' pre x post _ A C F S1 U M|ps' pre x post _ A C F S1 U M G|ps' pre x post _ A C F S1 U M G NI|ps' a' w2 k' b' e m _ A F T2 V VS|W|w2 k' e m _ A RT' V VS]; try congruence.
      assert (k' = k) by congruence. subst k'. match goal with |- context[value_decode_m k ?M d] => assert (X : value_decode_m k M d = MErr m) by (apply (value_err k M _ d m AG); eauto); rewrite X end. reflexivity.
Qed.
End ML.
