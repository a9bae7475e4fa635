(** Decode reads what the tables written by hand say. *)
From Coq Require Import String Ascii ZArith Bool List Lia.
From Verif Require Import Base Lib GoStrings Tokeniser SpecContent GoTime Types Params ParamTable PropTable Props SecTable Sections Codec SpecTree TreeProofs ExactProofs SpecRules ShapeProofs RulesProofs HangProofs GroupProofs SpecRfc SpecLine LineProofs SpecComp.
Import ListNotations.

Section C.
Context {env : Env}.

Lemma fields_table id : map fd_type (fields_of id) = api_fields id.
Proof. destruct id; reflexivity. Qed.
Definition type_name (t : ftype) : bytes := match t with FTProp pid => read_name pid | FTSec sid => comp_name sid | FTAlarm => bs "VALARM" end.
Lemma names_tables : forallb (fun id => forallb (fun fd => beq (fd_key fd) (type_name (fd_type fd))) (fields_of id)) all_secs = true.
Proof. vm_compute. reflexivity. Qed.
Lemma names_table id fd : In fd (fields_of id) -> fd_key fd = type_name (fd_type fd).
Proof. intros I. pose proof names_tables as T. rewrite forallb_forall in T. specialize (T id (all_secs_in id)). cbv beta in T. rewrite forallb_forall in T. apply beq_eq, T, I. Qed.
Lemma comp_names sid : sp_name (sec_spec sid) = comp_name sid.
Proof. destruct sid; reflexivity. Qed.
Lemma alarm_name w sid : action_is w sid -> comp_name sid = bs "VALARM".
Proof. unfold action_is. cbn [In]. intros H. repeat destruct H as [H|H]; try contradiction; injection H as <- <-; reflexivity. Qed.

Lemma for_field_spec id fd i : In fd (fields_of id) -> shape_ok id i -> (for_field (fd_type fd) i = true <-> belongs fd i).
Proof.
  intros I Sh. pose proof (names_table id fd I) as K. destruct i as [l|b body e|b body e|b body e]; cbn [belongs]; destruct (fd_type fd); cbn [for_field type_name] in *; unfold line_is; rewrite ?K, ?beq_eq; try tauto; try (split; [discriminate|contradiction]).
  inversion Sh; subst. tauto.
Qed.

(** [holds] as a relation between lists. *)
Lemma holds_filter id fd : In fd (fields_of id) -> forall items vs, Forall (shape_ok id) items ->
  (holds fd items vs <-> Forall2 (item_means (fd_type fd)) (filter (for_field (fd_type fd)) items) vs).
Proof.
  intros I. induction items as [|i items IH]; intros vs F; cbn [filter].
  - split; intros H; inversion H; constructor.
  - inversion F as [|? ? Sh F']; subst. pose proof (for_field_spec id fd i I Sh) as FS. destruct (for_field (fd_type fd) i) eqn:E.
    + split; intros H.
      * inversion H as [|? ? ? ? NB H'|? ? ? v vs' B M H']; subst; [destruct NB; apply FS; reflexivity|]. constructor; [exact M|]. apply IH; assumption.
      * inversion H; subst. apply H_take; [apply FS; reflexivity|assumption|]. apply IH; assumption.
    + split; intros H.
      * inversion H as [|? ? ? ? NB H'|? ? ? v vs' B M H']; subst; [apply IH; assumption|]. apply FS in B. discriminate.
      * apply H_skip; [|apply IH; assumption]. intros B. apply FS in B. discriminate.
Qed.

Lemma Forall2_nth {A B} (R : A -> B -> Prop) (d : B) : forall l l', Forall2 R l l' <-> (length l' = length l /\ forall i a, nth_error l i = Some a -> R a (nth i l' d)).
Proof.
  induction l as [|a l IH]; intros l'; split.
  - intros H. inversion H. split; [reflexivity|]. intros [|i] ? N; discriminate.
  - intros [L _]. destruct l'; [constructor|discriminate].
  - intros H. inversion H as [|? b ? l'' R1 H']; subst. apply IH in H' as [L N]. split; [cbn [length]; congruence|]. intros [|i] x E; cbn [nth_error nth] in *; [injection E as <-; exact R1|auto].
  - intros [L N]. destruct l' as [|b l']; [discriminate|]. constructor; [exact (N 0 a eq_refl)|]. apply IH. split; [injection L as L; exact L|]. intros i x E. exact (N (S i) x E).
Qed.
Lemma Forall2_map_l {A B C} (f : A -> B) (R : B -> C -> Prop) : forall l l', Forall2 R (map f l) l' <-> Forall2 (fun a c => R (f a) c) l l'.
Proof. induction l as [|a l IH]; intros l'; cbn [map]; split; intros H; inversion H; subst; constructor; try assumption; apply IH; assumption. Qed.
Lemma Forall2_in_imp {A B} (R R' : A -> B -> Prop) l l' : (forall a b, In a l -> In b l' -> R a b -> R' a b) -> Forall2 R l l' -> Forall2 R' l l'.
Proof. intros I F. induction F as [|a b l l' H F IH]; constructor; [apply I; [left; reflexivity|left; reflexivity|exact H]|]. apply IH. intros. apply I; [right; assumption|right; assumption|assumption]. Qed.

Lemma shape_item id i : shape_ok id i -> item_ok id i.
Proof.
  intros H. inversion H; subst; cbn [item_ok].
  - assumption.
  - split; [assumption|]. match goal with C : In _ (children id) |- _ => apply child_field in C as (fd & I & T & K) end. exists fd, sid. cbn [belongs]. rewrite T. auto.
  - split; [assumption|]. destruct (proj1 (alarm_field id (upper (cl_value b)))) as (fd & I & T & K); [auto|]. exists fd. cbn [belongs]. rewrite T. auto.
  - repeat (split; [assumption|]). intros fd I NP K. destruct (fd_type fd) as [pid|sid|] eqn:T.
    + exact (NP pid eq_refl).
    + match goal with N : ~ In _ (map fst _) |- _ => apply N end. apply in_map_iff. exists (fd_key fd, sid). split; [symmetry; exact K|]. apply child_field. exists fd. auto.
    + match goal with N : ~ (has_alarms id = true /\ _) |- _ => apply N end. apply alarm_field. exists fd. rewrite K. auto.
Qed.

(** ** Rules between properties, the other way round *)
Lemma field_prop id i fd pid items vs : nth_error (fields_of id) i = Some fd -> fd_type fd = FTProp pid -> holds fd items vs -> (vs <> [] <-> own_lines (fd_key fd) items <> []).
Proof. intros N T H. pose proof (holds_lines _ _ _ H pid T) as Q. destruct vs, (own_lines (fd_key fd) items); cbn [length] in Q; try discriminate Q; split; congruence. Qed.
Lemma rules_extra id items fs : length fs = length (fields_of id) -> (forall i fd, nth_error (fields_of id) i = Some fd -> holds fd items (nth i fs [])) ->
  cross_ok id items -> one_of_two id items -> Forall (extra_ok (present fs)) (sp_reqs (sec_spec id)).
Proof.
  intros L H C O.
  assert (HP : forall i fd pid, nth_error (fields_of id) i = Some fd -> fd_type fd = FTProp pid -> (present fs i = true <-> own_lines (fd_key fd) items <> [])).
  { intros i fd pid N T. rewrite <- (field_prop _ _ _ _ _ _ N T (H i fd N)). unfold present. destruct (nth i fs []); split; congruence. }
  assert (HS : forall i fd sid, nth_error (fields_of id) i = Some fd -> fd_type fd = FTSec sid -> (present fs i = true <-> own_comps (fd_key fd) items <> [])).
  { intros i fd sid N T. pose proof (holds_comps _ _ _ (H i fd N) sid T) as Q. unfold present. destruct (nth i fs []), (own_comps (fd_key fd) items); cbn [length] in Q; try discriminate Q; split; congruence. }
  clear H. unfold gives in *. destruct id; cbn [sec_spec sp_reqs]; cbn [cross_ok one_of_two] in C, O; unfold gives in C, O; repeat (apply Forall_cons); try (apply Forall_nil); cbn [extra_ok].
  - pose proof (HP 18 _ _ eq_refl eq_refl) as A. pose proof (HP 19 _ _ eq_refl eq_refl) as B. cbn [fd_key] in A, B.
    destruct (present fs 18), (present fs 19); auto. destruct C. split; [apply A|apply B]; reflexivity.
  - pose proof (HP 19 _ _ eq_refl eq_refl) as A. pose proof (HP 6 _ _ eq_refl eq_refl) as B. cbn [fd_key] in A, B. intros Q. apply B, (proj2 C), A, Q.
  - pose proof (HP 18 _ _ eq_refl eq_refl) as A. pose proof (HP 19 _ _ eq_refl eq_refl) as B. cbn [fd_key] in A, B.
    destruct (present fs 18), (present fs 19); auto. destruct (proj1 C). split; [apply A|apply B]; reflexivity.
  - pose proof (HS 3 _ _ eq_refl eq_refl) as A. pose proof (HS 4 _ _ eq_refl eq_refl) as B. cbn [fd_key] in A, B. destruct C as [C|C]; [left; apply A, C|right; apply B, C].
  - pose proof (HP 10 _ _ eq_refl eq_refl) as A. pose proof (HP 9 _ _ eq_refl eq_refl) as B. cbn [fd_key] in A, B. intros Q. apply B, C, A, Q.
  - pose proof (HP 10 _ _ eq_refl eq_refl) as A. pose proof (HP 9 _ _ eq_refl eq_refl) as B. cbn [fd_key] in A, B. intros Q. apply B, C, A, Q.
  - pose proof (HP 12 _ _ eq_refl eq_refl) as A. pose proof (HP 11 _ _ eq_refl eq_refl) as B. cbn [fd_key] in A, B. intros Q. apply B, C, A, Q.
  - pose proof (HP 4 _ _ eq_refl eq_refl) as A. pose proof (HP 5 _ _ eq_refl eq_refl) as B. cbn [fd_key] in A, B. rewrite <- A, <- B in O. destruct (present fs 4), (present fs 5); cbn [negb]; try reflexivity; exfalso; destruct O as [O1 O2]; [apply O1; reflexivity|]. assert (false = true) by (apply O2; discriminate). discriminate.
  - pose proof (HP 9 _ _ eq_refl eq_refl) as A. pose proof (HP 8 _ _ eq_refl eq_refl) as B. cbn [fd_key] in A, B. intros Q. apply B, C, A, Q.
  - pose proof (HP 1 _ _ eq_refl eq_refl) as A. pose proof (HP 2 _ _ eq_refl eq_refl) as B. cbn [fd_key] in A, B. rewrite <- A, <- B in O. destruct (present fs 1), (present fs 2); cbn [negb]; try reflexivity; exfalso; destruct O as [O1 O2]; [apply O1; reflexivity|]. assert (false = true) by (apply O2; discriminate). discriminate.
Qed.
Lemma count_rule id items i fd vs : nth_error (fields_of id) i = Some fd -> holds fd items vs ->
  (forall n, In n (required id) -> length (own_lines n items) = 1) -> (forall n, In n (optional id) -> length (own_lines n items) <= 1) -> count_ok (fd_mode fd) (length vs).
Proof.
  intros N H R O. pose proof (nth_error_In _ _ N) as I. destruct (fd_type fd) as [pid|sid|] eqn:T.
  - rewrite (holds_lines _ _ _ H pid T). destruct (fd_mode fd) eqn:M; cbn [count_ok]; [|apply O|exact Logic.I].
    + apply R, (proj1 (rules_table id)), mode_name. exists fd, pid. auto.
    + apply (proj1 (proj2 (rules_table id))), mode_name. exists fd, pid. auto.
  - assert (M : fd_mode fd = FMany); [|rewrite M; exact Logic.I]. revert I T. clear. destruct id; cbn [fields_of sec_spec sp_fields In]; intros I T; repeat destruct I as [I|I]; try contradiction; subst fd; try discriminate T; reflexivity.
  - assert (M : fd_mode fd = FMany); [|rewrite M; exact Logic.I]. revert I T. clear. destruct id; cbn [fields_of sec_spec sp_fields In]; intros I T; repeat destruct I as [I|I]; try contradiction; subst fd; try discriminate T; reflexivity.
Qed.

Theorem means_exact x : forall id items, means id items x <-> comp_means id items x.
Proof.
  induction x as [id0 fs IH] using sec_induct. intros id items.
  assert (V : forall t i v vs, In vs fs -> In v vs -> shape_ok id i -> (item_means t i v <-> item_value t i v)).
  { intros t i v vs I J Sh. split; intros H; inversion H; subst.
    - apply IV_prop, line_exact. assumption.
    - apply IV_sec; [apply (IH vs x I (or_introl J)); assumption|]. rewrite <- comp_names. assumption.
    - apply (IV_alarm b body e sid sub x).
      + split; [eauto|]. split; [eapply means_shape; eauto|eauto].
      + intros e2 more2 Q. match goal with Q1 : body ++ [e] = _ |- _ => rewrite Q1 in Q; cbn [app] in Q; apply app_inv_head in Q; injection Q as <- _ end. rewrite <- (alarm_name w sid) by assumption. rewrite <- comp_names. assumption.
      + apply (IH vs x I (or_intror J)). assumption.
    - apply IM_prop, line_exact. assumption.
    - inversion Sh; subst. apply IM_sec; [apply (IH vs x I (or_introl J)); assumption|assumption|]. rewrite comp_names. assumption.
    - inversion Sh; subst. match goal with A : alarm_content _ _ _ _ |- _ => destruct A as ((us & w & A & Fu & Aw) & Sh' & e' & more & Q & E') end.
      apply (IM_alarm b body e us w sid sub e' more x); try assumption.
      + rewrite comp_names, (alarm_name w sid Aw). match goal with K : forall e' more, _ -> _ |- _ => exact (K _ _ Q) end.
      + apply (IH vs x I (or_intror J)). assumption. }
  assert (SUB : Forall (shape_ok id) items -> forall f, forall i, In i (filter f items) -> shape_ok id i).
  { intros F f i I. apply filter_In in I as [I _]. rewrite Forall_forall in F. auto. }
  split; intros M.
  - pose proof (means_shape _ _ _ _ (le_n _) M) as Sh. pose proof (fun n => means_required _ _ _ n M) as R. pose proof (fun n => means_optional _ _ _ n M) as O. pose proof (means_cross _ _ _ M) as C.
    assert (W : one_of_two id items) by (unfold one_of_two; destruct id; try exact Logic.I; [apply (means_repeat SAlarmEmail _ _ (or_introl eq_refl) M)|apply (means_repeat SAlarmURI _ _ (or_intror eq_refl) M)]).
    inversion M as [? ? ? F L H X]; subst. constructor; try assumption.
    rewrite <- fields_table. apply Forall2_map_l. apply (Forall2_nth _ []). split; [exact L|]. intros i fd N. destruct (H i fd N) as [Ho _].
    apply (holds_filter id0 fd (nth_error_In _ _ N) _ _ Sh) in Ho. assert (I : In (nth i fs []) fs) by (apply nth_In; rewrite L; apply nth_error_Some; congruence).
    revert Ho. apply Forall2_in_imp.
    intros a b Ia Ib K. apply (V _ _ _ _ I Ib (SUB Sh _ _ Ia)). exact K.
  - inversion M as [? ? ? Sh R O C W F2]; subst. rewrite <- fields_table in F2. apply Forall2_map_l in F2. apply (Forall2_nth _ []) in F2 as [L N].
    assert (HO : forall i fd, nth_error (fields_of id0) i = Some fd -> holds fd items (nth i fs [])).
    { intros i fd E. assert (I : In (nth i fs []) fs) by (apply nth_In; rewrite L; apply nth_error_Some; congruence). apply (holds_filter id0 fd (nth_error_In _ _ E) _ _ Sh).
      pose proof (N i fd E) as K. revert K. apply Forall2_in_imp. intros a b Ia Ib K. apply (V _ _ _ _ I Ib (SUB Sh _ _ Ia)). exact K. }
    constructor.
    + rewrite Forall_forall in *. intros i I. apply shape_item, Sh, I.
    + exact L.
    + intros i fd E. split; [auto|]. eapply count_rule; eauto.
    + eapply rules_extra; eauto.
Qed.

Theorem decode_text_means s cal : decode_bytes s = Ok cal <-> text_means s cal.
Proof.
  split.
  - intros D. apply decode_has_frame in D as (b & items & e & tail & F & T & -> & M & Ve). exists b, items, e, tail. repeat (split; [assumption|]). split; [reflexivity|]. apply means_exact, M.
  - intros (b & items & e & tail & F & Ve & T & -> & M). apply decode_frame; [assumption|assumption|]. split; [apply means_exact, M|exact Ve].
Qed.
End C.
