(** Which errors come from which part of a text. *)
From Coq Require Import String Ascii ZArith Bool List Lia.
From Verif Require Import Base Lib GoStrings Strtok Tokeniser SpecContent GoTime Types Params ParamTable PropTable Props SecTable Sections Codec SpecTree TreeProofs ExactProofs SpecBadLine SpecFail FailProofs FailTextProofs SpecErrors SpecTrunc DecodedProofs.
Import ListNotations.

Section Errors.
Context {env : Env}.

Definition only {A} (es : list gerr) (r : res A) : Prop := forall e, r = Err e -> In e es.
Lemma only_ok {A} es (a : A) : only es (Ok a). Proof. intros e H. discriminate. Qed.
Lemma only_nofuel {A} es : only es (@NoFuel A). Proof. intros e H. discriminate. Qed.
Lemma only_panic {A} es : only es (@Panic A). Proof. intros e H. discriminate. Qed.
Lemma only_err {A} es e : In e es -> only es (@Err A e). Proof. intros I e' H. injection H as <-. exact I. Qed.
Lemma only_bind {A B} es (r : res A) (f : A -> res B) : only es r -> (forall a, only es (f a)) -> only es (bind r f).
Proof. intros H F e E. destruct r; cbn [bind] in E; [exact (F a e E)|injection E as <-; apply H; reflexivity|discriminate|discriminate]. Qed.
Lemma only_rmap {A B} es (f : A -> B) r : only es r -> only es (rmap f r).
Proof. intros H. apply only_bind; [exact H|]. intros. apply only_ok. Qed.
Lemma only_option {A} es e (o : option A) : In e es -> only es (of_option e o).
Proof. intros I. destruct o; [apply only_ok|apply only_err; exact I]. Qed.
Lemma only_incl {A} es es' (r : res A) : incl es es' -> only es r -> only es' r.
Proof. intros I H e E. apply I, H, E. Qed.
Lemma only_mapM {A B} es (f : A -> res B) l : (forall a, only es (f a)) -> only es (mapM f l).
Proof. intros H. induction l as [|a l IH]; cbn [mapM]; [apply only_ok|]. apply only_bind; [apply H|]. intros b. apply only_bind; [exact IH|]. intros. apply only_ok. Qed.

Ltac member := unfold param_errors; cbn [In]; tauto.
Ltac step :=
  match goal with
  | |- only _ (Ok _) => apply only_ok
  | |- only _ (Err _) => apply only_err; member
  | |- only _ NoFuel => apply only_nofuel
  | |- only _ Panic => apply only_panic
  | |- only _ (of_option _ _) => apply only_option; member
  | |- only _ (rmap _ _) => apply only_rmap
  | |- only _ (bind _ _) => apply only_bind; [|intros ?]
  | |- only _ (mapM _ _) => apply only_mapM; intros ?
  | |- only _ (let '(_, _) := ?x in _) => destruct x
  | |- only _ (if ?b then _ else _) => destruct b
  | |- only _ (match ?b with _ => _ end) => destruct b
  end.
Ltac steps := repeat (cbv zeta; step).

Lemma duration_loop_only : forall f d level t, only [ErrInvalidDuration; ErrStd] (duration_loop f d level t).
Proof. induction f as [|f IH]; intros d level t; cbn [duration_loop]; steps; apply IH. Qed.
Lemma duration_only s : only [ErrInvalidDuration; ErrStd] (duration_decode s).
Proof. unfold duration_decode. steps. apply duration_loop_only. Qed.
Lemma decode_text_only es : forall f d t, only es (decode_text f d t).
Proof. induction f as [|f IH]; intros d t; cbn [decode_text]; steps; apply IH. Qed.
Lemma text_only s : only [ErrInvalidText] (text_decode s).
Proof. unfold text_decode. apply only_bind; [apply decode_text_only|]. intros a. steps. Qed.
Lemma mtext_loop_only : forall f n acc t, only [ErrInvalidText] (mtext_loop f n acc t).
Proof. induction f as [|f IH]; intros n acc t; cbn [mtext_loop]; [apply only_nofuel|]. apply only_bind; [apply decode_text_only|]. intros a. steps. apply IH. Qed.
Lemma datetime_only id m s : only [ErrStd] (datetime_decode id m s).
Proof. unfold datetime_decode. steps. Qed.
Lemma clock_only m s : only [ErrStd] (clock_decode m s).
Proof. unfold clock_decode. steps. Qed.
Lemma binary_only m s : only [ErrInvalidEncoding; ErrStd] (binary_decode m s).
Proof. unfold binary_decode. steps. Qed.
Lemma tfloat_only s : only [ErrInvalidTFloat; ErrStd] (tfloat_decode s).
Proof. unfold tfloat_decode. steps. Qed.
Lemma period_only m s : only [ErrInvalidPeriod; ErrInvalidDuration; ErrStd] (period_decode m s).
Proof.
  unfold period_decode. destruct (cut _ s) as [[a b]|]; [|steps]. destruct b as [|c b]; [steps|].
  assert (I1 : incl [ErrStd] [ErrInvalidPeriod; ErrInvalidDuration; ErrStd]) by (intros e; member).
  assert (I2 : incl [ErrInvalidDuration; ErrStd] [ErrInvalidPeriod; ErrInvalidDuration; ErrStd]) by (intros e; member).
  apply only_bind; [exact (only_incl _ _ _ I1 (datetime_only 0 m a))|]. intros st. destruct (beqc c "P" || beqc c "+"); (apply only_bind; [|intros; apply only_ok]).
  - exact (only_incl _ _ _ I2 (duration_only _)).
  - exact (only_incl _ _ _ I1 (datetime_only 1 m _)).
Qed.
Lemma offset_only s : only [ErrInvalidOffset] (utcoffset_decode s).
Proof. unfold utcoffset_decode. steps. Qed.
Lemma parse_day_only w : only [ErrInvalidRecur] (parse_day w).
Proof. unfold parse_day. steps. Qed.
Lemma recur_rule_only m r freq k v : only [ErrInvalidRecur] (recur_rule m r freq k v).
Proof.
  unfold recur_rule, parse_ulist, parse_slist. destruct r.
  repeat match goal with |- only _ (if beq k _ then _ else _) => destruct (beq k _) end; steps; apply parse_day_only.
Qed.
Lemma recur_rules_only m : forall l r freq, only [ErrInvalidRecur] (recur_rules m r freq l).
Proof. induction l as [|x l IH]; intros r freq; cbn [recur_rules]; [apply only_ok|]. destruct (cut _ x) as [[k v]|]; [|steps]. apply only_bind; [apply recur_rule_only|]. intros [r' fr]. apply IH. Qed.
Lemma recur_only m s : only [ErrInvalidRecur] (recur_decode m s).
Proof. unfold recur_decode. apply only_bind; [apply recur_rules_only|]. intros [r fr]. steps. Qed.

Lemma value_only k m s : only (value_errors k) (value_decode k m s).
Proof.
  destruct k; cbn [value_decode value_errors]; apply only_rmap; unfold url_decode, date_decode, float_decode, integer_decode, boolean_decode;
    try (apply only_option; member);
    auto using duration_only, text_only, datetime_only, clock_only, binary_only, tfloat_only, period_only, offset_only, recur_only.
  apply mtext_loop_only.
Qed.

Lemma param_only k vs : only param_errors (param_decode k vs).
Proof.
  assert (Q : forall t, only param_errors (quoted_data t)) by (intros t; unfold quoted_data; steps).
  assert (O : only param_errors (one_value vs)) by (unfold one_value; steps).
  destruct k; cbn [param_decode]; unfold url_decode, boolean_decode; repeat first [apply Q|apply O|step].
Qed.
Lemma struct_params_only ps vs : forall gs st, only param_errors (struct_params ps vs st gs).
Proof.
  induction gs as [|g gs IH]; intros st; cbn [struct_params]; [apply only_ok|]. apply only_bind; [|intros; apply IH]. unfold struct_param. destruct g as [n tv].
  repeat first [apply param_only|step].
Qed.

Lemma struct_params_vtype ps vs : forall gs st st', struct_params ps vs st gs = Ok st' -> (forall i, ps_vtype st = Some i -> i < length vs) ->
  forall i, ps_vtype st' = Some i -> i < length vs.
Proof.
  induction gs as [|g gs IH]; intros st st' H V; cbn [struct_params] in H; [apply Ok_inj in H; subst st'; exact V|].
  destruct (struct_param ps vs st g) as [st1| | |] eqn:E; cbn [bind] in H; try discriminate H. apply (IH st1 st' H). clear IH H.
  unfold struct_param in E. destruct g as [n tv]. destruct (param_index n ps) as [j|].
  - destruct (nth j (ps_params st) None); [discriminate E|]. destruct (param_decode _ tv); cbn [bind] in E; try discriminate E. apply Ok_inj in E. subst st1. exact V.
  - destruct (Nat.ltb 1 (length vs) && beq n (bs "VALUE")); [|apply Ok_inj in E; subst st1; exact V]. destruct tv as [|t [|? ?]]; try discriminate E.
    destruct (ps_vtype st); [discriminate E|]. destruct (index_of (upper (t_data t)) (map fst vs)) as [j|] eqn:J; [|discriminate E]. apply Ok_inj in E. subst st1. cbn [ps_vtype].
    intros i Q. injection Q as <-. apply index_small in J. rewrite map_length in J. exact J.
Qed.

Lemma prop_tables : forall pid, match snd (prop_spec pid) with MStruct _ vs => vs <> [] | _ => True end.
Proof. intros pid. destruct pid; try exact Logic.I; discriminate. Qed.

Theorem prop_only pid ps s e : prop_decode pid ps s = Err e -> In e (prop_errors (snd (prop_spec pid))).
Proof.
  revert e. change (only (prop_errors (snd (prop_spec pid))) (prop_decode pid ps s)). unfold prop_decode. pose proof (prop_tables pid) as T.
  destruct (snd (prop_spec pid)) as [prs vs|ws|k]; cbn [prop_errors].
  - assert (I1 : incl param_errors (param_errors ++ flat_map (fun v => value_errors (snd v)) vs)) by (intros x X; apply in_or_app; left; exact X).
    intros e E. destruct (struct_params prs vs _ (groups ps)) as [st|e'| |] eqn:D; cbn [bind] in E; try discriminate E.
    + set (i := match ps_vtype st with Some i => i | None => 0 end) in E. assert (L : i < length vs).
      { assert (V := struct_params_vtype _ _ _ _ _ D). subst i. destruct (ps_vtype st) as [i|]; [apply V; [intros ? Q; discriminate Q|reflexivity]|].
        destruct vs; [congruence|cbn [length]; lia]. }
      destruct (value_decode (snd (nth i vs ([], KText))) (ps_other st) s) as [v|e'| |] eqn:W; cbn [bind] in E; try discriminate E. injection E as <-. apply value_only in W.
      apply in_or_app. right. apply in_flat_map. exists (nth i vs ([], KText)). split; [apply nth_In; exact L|exact W].
    + injection E as <-. apply I1. exact (struct_params_only _ _ _ _ _ D).
  - steps.
  - apply only_bind; [apply value_only|]. intros. apply only_ok.
Qed.

(** ** The errors of a text *)
Lemma bad_value_error s e : bad_value s e -> In e line_errors.
Proof. intros []; cbn [In line_errors]; tauto. Qed.
Lemma bad_rest_error s e : bad_rest s e -> In e line_errors.
Proof. induction 1; try assumption; try (eapply bad_value_error; eassumption); cbn [In line_errors]; tauto. Qed.
Lemma bad_line_error s e : bad_line s e -> In e line_errors.
Proof. intros []; [| |eapply bad_rest_error; eassumption]; cbn [In line_errors]; tauto. Qed.

Lemma prop_errors_apart : forall pid e, In e (prop_errors (snd (prop_spec pid))) -> ~ In e structure_errors.
Proof.
  assert (V : forall k e, In e (value_errors k) -> ~ In e structure_errors).
  { intros k e H. destruct k; cbn [value_errors In] in H; unfold structure_errors; cbn [In]; repeat (destruct H as [<-|H]; [intuition discriminate|]); destruct H. }
  intros pid e H. destruct (snd (prop_spec pid)) as [ps vs|ws|k]; cbn [prop_errors] in H.
  - apply in_app_or in H as [H|H].
    + unfold param_errors in H. cbn [In] in H. unfold structure_errors. cbn [In]. repeat (destruct H as [<-|H]; [intuition discriminate|]). destruct H.
    + apply in_flat_map in H as (v & _ & H). exact (V _ _ H).
  - cbn [In] in H. unfold structure_errors. cbn [In]. repeat (destruct H as [<-|H]; [intuition discriminate|]). destruct H.
  - exact (V _ _ H).
Qed.

(** Why a component fails with [e]. *)
Definition cause (ls : list cline) (en : ending) (e : gerr) : Prop :=
  (In e line_errors /\ en = AtBad e) \/ (In e structure_errors /\ ~ In e line_errors /\ e <> ErrInvalidCalendar) \/
  exists l pid, In l ls /\ prop_decode pid (params_tokens (cl_params l)) (cl_value l) = Err e.
Definition bad_end_ok (en : ending) : Prop := forall e, en = AtBad e -> In e line_errors.
Lemma cause_more ls ls' en e : incl ls ls' -> cause ls en e -> cause ls' en e.
Proof. intros I [H|[H|(l & pid & H & D)]]; [left; exact H|right; left; exact H|]. right. right. exists l, pid. auto. Qed.
Lemma cause_structure ls en e : In e structure_errors -> ~ In e line_errors -> e <> ErrInvalidCalendar -> cause ls en e.
Proof. intros A B C. right. left. auto. Qed.
Ltac structural := apply cause_structure; [unfold structure_errors; cbn [In]; tauto|unfold line_errors; cbn [In]; intuition discriminate|discriminate].

Lemma end_cause ls en e : bad_end_ok en -> end_fail en = Failed e -> cause ls en e.
Proof. intros B E. destruct en as [|e0|]; cbn [end_fail] in E; injection E as <-; [structural| |structural]. left. split; [apply B; reflexivity|reflexivity]. Qed.
Lemma skip_cause n ls en f : skip_fault n ls en f -> bad_end_ok en -> forall e, f = Failed e -> cause ls en e.
Proof.
  induction 1 as [n ds en K|n ds x more en K E V|n ds b ls en f K B H IH]; intros BE e Q.
  - apply end_cause; assumption.
  - injection Q as <-. structural.
  - apply (cause_more ls); [|apply IH; assumption]. intros x I. apply in_or_app. right. right. exact I.
Qed.

Lemma fault_cause : forall id ls en f, fault id ls en f -> bad_end_ok en -> forall e, f = Failed e -> cause ls en e.
Proof.
  set (P := fun (id : secid) ls en f (_ : fault id ls en f) => bad_end_ok en -> forall e, f = Failed e -> cause ls en e).
  set (Q := fun (id : secid) (fs : list (list fval)) ls en f (_ : breaks id fs ls en f) => bad_end_ok en -> forall e, f = Failed e -> cause ls en e).
  set (R := fun ls en f (_ : alarm_fault ls en f) => bad_end_ok en -> forall e, f = Failed e -> cause ls en e).
  intros id ls en f H. change (P id ls en f H). revert id ls en f H. apply (fault_ind2 env P Q R); unfold P, Q, R.
  - intros id items fs rest en f _ _ IH BE e E. apply (cause_more rest); [|apply IH; assumption]. intros x I. apply in_or_app. right. exact I.
  - intros id fs en BE e E. apply end_cause; assumption.
  - intros. match goal with H : Failed _ = Failed _ |- _ => injection H as <- end. structural.
  - intros id fs l more en i fd pid f N Bl Ty M D BE e ->. right. right. exists l, pid. split; [apply in_eq|exact D].
  - intros. match goal with H : Failed _ = Failed _ |- _ => injection H as <- end. structural.
  - intros. match goal with H : Failed _ = Failed _ |- _ => injection H as <- end. structural.
  - intros. match goal with H : Failed _ = Failed _ |- _ => injection H as <- end. structural.
  - intros id fs b ls en fd sid f B I Ty K _ IH BE e E. apply (cause_more ls); [intros x J; right; exact J|apply IH; assumption].
  - intros id fs b ls en fd f B I Ty K _ IH BE e E. apply (cause_more ls); [intros x J; right; exact J|apply IH; assumption].
  - intros id fs b ls en f B NF S BE e E. apply (cause_more ls); [intros x J; right; exact J|]. eapply skip_cause; eassumption.
  - intros body ty en Al A BE e E. destruct en as [|e0|]; cbn [alarm_end_fail] in E; [discriminate E| |]; injection E as <-; [|structural]. left. split; [apply BE; reflexivity|reflexivity].
  - intros. match goal with H : Failed _ = Failed _ |- _ => injection H as <- end. structural.
  - intros. match goal with H : Failed _ = Failed _ |- _ => injection H as <- end. structural.
  - intros. match goal with H : Failed _ = Failed _ |- _ => injection H as <- end. structural.
  - intros body sid x more en f Al A E' _ IH BE e E. destruct (IH ltac:(intros e0 Q0; discriminate Q0) e E) as [[_ X]|[X|(l & pid & I & D)]]; [discriminate X|right; left; exact X|].
    right. right. exists l, pid. split; [|exact D]. apply in_app_or in I as [I|[<-|[]]]; apply in_or_app; [left; exact I|right; apply in_eq].
Qed.

Theorem decode_causes s e : decode_bytes s = Err e -> exists ls en, cut_into s ls en /\
  ((e = ErrInvalidCalendar /\ exists l ls', ls = l :: ls' /\ ~ opens_calendar l) \/
   (In e line_errors /\ en = AtBad e) \/
   (In e structure_errors /\ ~ In e line_errors /\ e <> ErrInvalidCalendar) \/
   (~ In e structure_errors /\ exists l pid, In l ls /\ prop_decode pid (params_tokens (cl_params l)) (cl_value l) = Err e /\ In e (prop_errors (snd (prop_spec pid))))).
Proof.
  intros H. apply (decode_fails s (Failed e)) in H. remember (Failed e) as f eqn:Q.
  assert (BE : forall s ls en, cut_into s ls en -> bad_end_ok en).
  { intros s0 ls en C e0 ->. inversion C; subst. eapply bad_line_error; eassumption. }
  assert (FIN : forall ls en, cut_into s ls en -> cause ls en e -> exists ls en, cut_into s ls en /\
    ((e = ErrInvalidCalendar /\ exists l ls', ls = l :: ls' /\ ~ opens_calendar l) \/ (In e line_errors /\ en = AtBad e) \/
     (In e structure_errors /\ ~ In e line_errors /\ e <> ErrInvalidCalendar) \/
     (~ In e structure_errors /\ exists l pid, In l ls /\ prop_decode pid (params_tokens (cl_params l)) (cl_value l) = Err e /\ In e (prop_errors (snd (prop_spec pid)))))).
  { intros ls en C [X|[X|(l & pid & I & D)]]; exists ls, en; (split; [exact C|]); [auto|auto|]. right. right. right. pose proof (prop_only _ _ _ _ D) as E. split; [eapply prop_errors_apart; exact E|].
    exists l, pid. auto. }
  destruct H as [s en C|s l ls en C N|s b ls en f C Op F].
  - apply (FIN [] en C). apply end_cause; [eapply BE; eauto|exact Q].
  - injection Q as <-. exists (l :: ls), en. split; [exact C|]. left. split; [reflexivity|]. eauto.
  - apply (FIN (b :: ls) en C). apply (cause_more ls); [intros x I; right; exact I|]. eapply fault_cause; eauto.
Qed.

Theorem invalid_calendar s : decode_bytes s = Err ErrInvalidCalendar <-> exists l ls en, cut_into s (l :: ls) en /\ ~ opens_calendar l.
Proof.
  split.
  - intros H. destruct (decode_causes s _ H) as (ls & en & C & [(_ & l & ls' & -> & N)|[(I & _)|[(_ & _ & X)|(X & _)]]]).
    + eauto.
    + unfold line_errors in I. cbn [In] in I. intuition discriminate.
    + congruence.
    + destruct X. unfold structure_errors. cbn [In]. tauto.
  - intros (l & ls & en & C & N). apply (decode_fails s (Failed ErrInvalidCalendar)). eapply Fl_first; eauto.
Qed.
Theorem line_error s e : In e line_errors -> decode_bytes s = Err e -> exists ls r, Forall (fun l => cline_wf l = true) ls /\ s = lines_text ls ++ r /\ bad_line r e.
Proof.
  intros I H. destruct (decode_causes s _ H) as (ls & en & C & [(-> & _)|[(_ & ->)|[(_ & X & _)|(X & _)]]]).
  - unfold line_errors in I. cbn [In] in I. intuition discriminate.
  - inversion C as [| |ls' r e' W B]; subst. eauto.
  - contradiction.
  - destruct X. unfold structure_errors. unfold line_errors in I. cbn [In] in *. tauto.
Qed.

(** ** The end of the text *)
Lemma plain_app_r a b : plain_begins (a ++ b) -> plain_begins b.
Proof. intros P l I. apply P. apply in_or_app. right. exact I. Qed.
Lemma plain_cons a b : plain_begins (a :: b) -> plain_begins b.
Proof. intros P l I. apply P. right. exact I. Qed.

(** Without a BEGIN there is only what the property lines say. *)
Lemma list_no_eof sid body e f : alarm_lines body -> cl_name e = bs "END" -> plain_begins (body ++ [e]) -> fault sid (body ++ [e]) AtList f -> f <> Failed ErrUnexpectedEOF.
Proof.
  intros Al E P H.
  assert (NB : forall l, In l (body ++ [e]) -> ~ is_begin l).
  { intros l I B. pose proof (P l I B) as N. apply in_app_or in I as [I|[<-|[]]]; [|rewrite E in N; discriminate N]. unfold alarm_lines in Al. rewrite Forall_forall in Al. destruct (Al l I) as [X _]. contradiction. }
  assert (IE : is_end e) by (unfold is_end, line_is; rewrite E; reflexivity).
  inversion H as [id items fs rest en f' SF Br Q1 Q2]; subst. rewrite <- Q2 in NB.
  assert (NB' : forall l r, rest = l :: r -> ~ is_begin l) by (intros l r ->; apply NB; apply in_or_app; right; apply in_eq).
  inversion Br; subst; try discriminate; try (exfalso; eapply NB'; [reflexivity|assumption]).
  - exfalso. rewrite app_nil_r in Q2. destruct SF as (OK & _). assert (IN : In e (flat_map ilines items)) by (rewrite Q2; apply in_or_app; right; apply in_eq).
    apply in_flat_map in IN as (i & Ii & Il). rewrite Forall_forall in OK. specialize (OK i Ii). destruct i as [l|b x y|b x y|b x y].
    + destruct Il as [<-|[]]. cbn [item_ok] in OK. destruct OK as [_ OK]. contradiction.
    + apply (NB b); [|exact (proj1 OK)]. apply in_or_app. left. apply in_flat_map. exists (IComp b x y). split; [exact Ii|apply in_eq].
    + apply (NB b); [|exact (proj1 OK)]. apply in_or_app. left. apply in_flat_map. exists (IAlarm b x y). split; [exact Ii|apply in_eq].
    + apply (NB b); [|exact (proj1 OK)]. apply in_or_app. left. apply in_flat_map. exists (IOther b x y). split; [exact Ii|apply in_eq].
  - intros ->. match goal with H : prop_decode _ _ _ = _ |- _ => apply prop_only, prop_errors_apart in H; apply H end. unfold structure_errors. cbn [In]. tauto.
Qed.

Lemma end_eof en : end_fail en = Failed ErrUnexpectedEOF -> bad_end_ok en -> en = AtEnd \/ en = AtList.
Proof. destruct en as [|e|]; intros Q B; [auto| |auto]. cbn [end_fail] in Q. injection Q as ->. specialize (B _ eq_refl). unfold line_errors in B. cbn [In] in B. intuition discriminate. Qed.
Lemma skip_eof n ls en f : skip_fault n ls en f -> bad_end_ok en -> f = Failed ErrUnexpectedEOF -> en = AtEnd \/ en = AtList.
Proof. induction 1 as [n ds en K|n ds x more en K E V|n ds b ls en f K B H IH]; intros BE Q; [apply end_eof; assumption|discriminate Q|auto]. Qed.
Lemma fault_eof : forall id ls en f, fault id ls en f -> bad_end_ok en -> en <> AtList -> plain_begins ls -> f = Failed ErrUnexpectedEOF -> en = AtEnd.
Proof.
  set (P := fun (id : secid) ls en f (_ : fault id ls en f) => bad_end_ok en -> en <> AtList -> plain_begins ls -> f = Failed ErrUnexpectedEOF -> en = AtEnd).
  set (Q := fun (id : secid) (fs : list (list fval)) ls en f (_ : breaks id fs ls en f) => bad_end_ok en -> en <> AtList -> plain_begins ls -> f = Failed ErrUnexpectedEOF -> en = AtEnd).
  set (R := fun ls en f (_ : alarm_fault ls en f) => bad_end_ok en -> en <> AtList -> plain_begins ls -> f = Failed ErrUnexpectedEOF -> en = AtEnd).
  intros id ls en f H. change (P id ls en f H). revert id ls en f H. apply (fault_ind2 env P Q R); unfold P, Q, R; try (intros; discriminate).
  - intros id items fs rest en f _ _ IH BE NL PB E. apply IH; try assumption. eapply plain_app_r; eassumption.
  - intros id fs en BE NL PB E. destruct (end_eof en E BE); [assumption|contradiction].
  - intros id fs l more en i fd pid f N Bl Ty M D BE NL PB ->. exfalso. apply prop_only, prop_errors_apart in D. apply D. unfold structure_errors. cbn [In]. tauto.
  - intros id fs b ls en fd sid f B I Ty K _ IH BE NL PB E. apply IH; try assumption. eapply plain_cons; eassumption.
  - intros id fs b ls en fd f B I Ty K _ IH BE NL PB E. apply IH; try assumption. eapply plain_cons; eassumption.
  - intros id fs b ls en f B NF S BE NL PB E. destruct (skip_eof _ _ _ _ S BE E); [assumption|contradiction].
  - intros body ty en Al A BE NL PB E. destruct en; [reflexivity| |contradiction NL; reflexivity]. cbn [alarm_end_fail] in E. apply (end_eof (AtBad e)) in BE; [destruct BE; discriminate|exact E].
  - intros body sid x more en f Al A E' F IH BE NL PB E. exfalso. revert E. apply (list_no_eof sid body x); try assumption. intros l I. apply PB. apply in_or_app.
    apply in_app_or in I as [I|[<-|[]]]; [left; exact I|right; apply in_eq].
Qed.

Theorem eof_means_end s : decode_bytes s = Err ErrUnexpectedEOF -> (forall ls en, cut_into s ls en -> plain_begins ls) -> exists ls, cut_into s ls AtEnd.
Proof.
  intros H PB. apply (decode_fails s (Failed ErrUnexpectedEOF)) in H. remember (Failed ErrUnexpectedEOF) as f eqn:Q.
  assert (BE : forall s ls en, cut_into s ls en -> bad_end_ok en /\ en <> AtList).
  { intros s0 ls en C. split; [|inversion C; discriminate]. intros e0 ->. inversion C; subst. eapply bad_line_error; eassumption. }
  destruct H as [s en C|s l ls en C N|s b ls en f C Op F].
  - destruct (BE _ _ _ C) as [B NL]. destruct (end_eof en Q B) as [->| ->]; [eauto|contradiction NL; reflexivity].
  - discriminate Q.
  - destruct (BE _ _ _ C) as [B NL]. rewrite (fault_eof _ _ _ _ F B NL) in C; [eauto|eapply plain_cons; eauto|exact Q].
Qed.
End Errors.
