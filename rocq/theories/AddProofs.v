(** Unknown lines and components do not matter. *)
From Coq Require Import String Ascii ZArith Bool List Lia.
From Verif Require Import Base Lib Strtok Tokeniser SpecContent TokeniserProofs GoTime Types Params ParamTable PropTable Props SecTable Sections Codec SpecTree TreeProofs ExactProofs SpecRules ShapeProofs RulesProofs SpecEdits.
Import ListNotations.

Section Add.
Context {env : Env}.

Lemma holds_app fd : forall a b vs, holds fd (a ++ b) vs <-> exists va vb, vs = va ++ vb /\ holds fd a va /\ holds fd b vb.
Proof.
  induction a as [|i a IH]; intros b vs; cbn [app].
  - split; [intros H; exists [], vs; repeat split; [constructor|exact H]|]. intros (va & vb & -> & H1 & H2). inversion H1; subst. exact H2.
  - split.
    + intros H. inversion H as [|? ? ? ? NB H1|? ? ? v vs1 B M H1]; subst; apply IH in H1 as (va & vb & -> & Ha & Hb).
      * exists va, vb. repeat split; [apply H_skip; assumption|exact Hb].
      * exists (v :: va), vb. repeat split; [apply H_take; assumption|exact Hb].
    + intros (va & vb & -> & Ha & Hb). inversion Ha as [|? ? ? ? NB H1|? ? ? v vs1 B M H1]; subst.
      * apply H_skip; [exact NB|]. apply IH. eauto.
      * cbn [app]. apply H_take; [exact B|exact M|]. apply IH. eauto.
Qed.
Lemma holds_one fd i vs : holds fd [i] vs <-> (~ belongs fd i /\ vs = []) \/ (exists v, belongs fd i /\ item_means (fd_type fd) i v /\ vs = [v]).
Proof.
  split.
  - intros H. inversion H as [|? ? ? ? NB H1|? ? ? v vs1 B M H1]; subst; inversion H1; subst; [left; auto|right; eauto].
  - intros [[NB ->]|(v & B & M & ->)]; [apply H_skip; [exact NB|constructor]|apply H_take; [exact B|exact M|constructor]].
Qed.
Lemma holds_mid fd pre i post vs : holds fd (pre ++ i :: post) vs <-> exists va vi vb, vs = va ++ vi ++ vb /\ holds fd pre va /\ holds fd [i] vi /\ holds fd post vb.
Proof.
  rewrite holds_app. change (i :: post) with ([i] ++ post). split.
  - intros (va & vb & -> & Ha & Hb). apply holds_app in Hb as (vi & vc & -> & Hi & Hc). exists va, vi, vc. auto.
  - intros (va & vi & vb & -> & Ha & Hi & Hb). exists va, (vi ++ vb). split; [reflexivity|]. split; [exact Ha|]. apply holds_app. eauto.
Qed.

(** What is needed for two contents to mean the same. *)
Definition same_as (id : secid) (items items' : list item) : Prop :=
  (Forall (item_ok id) items <-> Forall (item_ok id) items') /\
  forall fd vs, In fd (fields_of id) -> (holds fd items vs <-> holds fd items' vs).
Lemma same_as_means id items items' x : same_as id items items' -> (means id items x <-> means id items' x).
Proof.
  assert (H : forall items items', same_as id items items' -> means id items x -> means id items' x).
  { intros a b [Ok H] M. destruct M as [id a fs F L Ho X]. constructor; [apply Ok; exact F|exact L| |exact X].
    intros i fd N. destruct (Ho i fd N) as [H1 H2]. split; [|exact H2]. apply H; [eapply nth_error_In; eauto|exact H1]. }
  intros Sa. split; [apply H; exact Sa|]. apply H. destruct Sa as [Ok Ho]. split; [symmetry; exact Ok|]. intros. symmetry. auto.
Qed.

Lemma same_drop id pre i post : item_ok id i -> (forall fd, In fd (fields_of id) -> ~ belongs fd i) -> same_as id (pre ++ post) (pre ++ i :: post).
Proof.
  intros Ok NB. split.
  - rewrite !Forall_app, Forall_cons_iff. tauto.
  - intros fd vs I. rewrite holds_mid, holds_app. specialize (NB fd I). split.
    + intros (va & vb & -> & Ha & Hb). exists va, [], vb. split; [reflexivity|]. split; [exact Ha|]. split; [|exact Hb]. apply holds_one. auto.
    + intros (va & vi & vb & -> & Ha & Hi & Hb). apply holds_one in Hi as [[_ ->]|(v & B & _)]; [|contradiction]. exists va, vb. auto.
Qed.
Lemma same_swap id pre i i' post : (item_ok id i <-> item_ok id i') -> (forall fd, In fd (fields_of id) -> belongs fd i <-> belongs fd i') ->
  (forall fd v, In fd (fields_of id) -> belongs fd i -> (item_means (fd_type fd) i v <-> item_means (fd_type fd) i' v)) ->
  same_as id (pre ++ i :: post) (pre ++ i' :: post).
Proof.
  intros Ok Be Me. split.
  - rewrite !Forall_app, !Forall_cons_iff. tauto.
  - intros fd vs I. rewrite !holds_mid. specialize (Be fd I). assert (One : forall vi, holds fd [i] vi <-> holds fd [i'] vi).
    { intros vi. rewrite !holds_one. split.
      - intros [[N ->]|(v & B & M & ->)]; [left; tauto|right]. exists v. split; [tauto|]. split; [apply Me; assumption|reflexivity].
      - intros [[N ->]|(v & B & M & ->)]; [left; tauto|right]. exists v. split; [tauto|]. split; [apply Me; tauto|reflexivity]. }
    split; intros (va & vi & vb & -> & Ha & Hi & Hb); exists va, vi, vb; (split; [reflexivity|]); (split; [exact Ha|]); (split; [apply One; exact Hi|exact Hb]).
Qed.

(** ** Fields and names *)
Lemma field_known id fd pid : In fd (fields_of id) -> fd_type fd = FTProp pid -> In (fd_key fd) (known id).
Proof.
  intros I T. unfold known. rewrite !in_app_iff. destruct (rules_table id) as (R & O & M).
  destruct (fd_mode fd) eqn:Md; [left; apply R|right; left; apply O|right; right; apply M]; apply mode_name; exists fd, pid; auto.
Qed.
Lemma known_field id n : In n (known id) -> exists fd pid, In fd (fields_of id) /\ fd_type fd = FTProp pid /\ fd_key fd = n.
Proof.
  unfold known. rewrite !in_app_iff. destruct (rules_table id) as (R & O & M).
  intros [H|[H|H]]; [apply R in H|apply O in H|apply M in H]; apply mode_name in H as (fd & pid & A & B & _ & C); eauto.
Qed.
Lemma unknown_no_field id l fd : ~ In (upper (cl_name l)) (known id) -> In fd (fields_of id) -> ~ belongs fd (ILine l).
Proof.
  intros N I B. cbn [belongs] in B. destruct (fd_type fd) as [pid| |] eqn:T; try contradiction. apply N. rewrite B. eapply field_known; eauto.
Qed.
Lemma other_no_field fd b body e : ~ belongs fd (IOther b body e).
Proof. cbn [belongs]. auto. Qed.
Lemma shape_item id i : shape_ok id i -> item_ok id i.
Proof.
  intros Sh. destruct Sh as [id l P|id b body e sid B C _ _|id b body e B A V F E|id b body e B E V F N M]; cbn [item_ok].
  - exact P.
  - split; [exact B|]. apply child_field in C as (fd & I & T & K). exists fd, sid. cbn [belongs]. rewrite T. auto.
  - split; [exact B|]. destruct (proj1 (alarm_field id (upper (cl_value b))) (conj A V)) as (fd & I & T & K). exists fd. cbn [belongs]. rewrite T. auto.
  - do 4 (split; [assumption|]). intros fd I T Q. destruct (fd_type fd) as [pid|sid|] eqn:Ty; [destruct (T pid eq_refl)| |].
    + apply N. apply in_map_iff. exists (upper (cl_value b), sid). split; [reflexivity|]. apply child_field. eauto.
    + apply M. apply alarm_field. eauto.
Qed.

(** ** Lines of an alarm *)
Lemma plain_dline_add l : is_plain l -> forall n ds a b, length (flat_map dlines ds) <= n -> Forall skippable ds -> a ++ b = flat_map dlines ds ->
  exists ds', a ++ l :: b = flat_map dlines ds' /\ Forall skippable ds'.
Proof.
  intros P. induction n as [|n IH]; intros ds a b L F Q.
  - destruct ds as [|[|] ds]; cbn [flat_map dlines app length] in L; try lia. cbn [flat_map] in Q. apply app_eq_nil in Q as [-> ->].
    exists [DLine l]. split; [reflexivity|]. constructor; [constructor; exact P|constructor].
  - destruct ds as [|d ds].
    { cbn [flat_map] in Q. apply app_eq_nil in Q as [-> ->]. exists [DLine l]. split; [reflexivity|]. constructor; [constructor; exact P|constructor]. }
    destruct a as [|x a]. { exists (DLine l :: d :: ds). cbn [app] in Q. rewrite Q. split; [reflexivity|]. constructor; [constructor; exact P|exact F]. }
    inversion F as [|? ? Sd Fs]; subst. cbn [flat_map] in Q, L. rewrite app_length in L. destruct Sd as [l0 P0|b0 body0 e0 B0 E0 V0 G0].
    + cbn [dlines app length] in Q, L. injection Q as -> Q. destruct (IH ds a b ltac:(lia) Fs Q) as (ds' & Q' & F'). exists (DLine l0 :: ds'). cbn [flat_map dlines app].
      rewrite Q'. split; [reflexivity|]. constructor; [constructor; exact P0|exact F'].
    + cbn [dlines app length] in Q, L. rewrite app_length in L. cbn [length] in L. injection Q as -> Q. rewrite <- app_assoc in Q. cbn [app] in Q.
      destruct (app_eq_app _ _ _ _ Q) as (k & [[-> K]|[K ->]]).
      * destruct k as [|k0 k].
        -- cbn [app] in K. subst b. rewrite app_nil_r. destruct (IH body0 (flat_map dlines body0) [] ltac:(lia) G0 (app_nil_r _)) as (body' & Qb & Fb).
           exists (DComp b0 body' e0 :: ds). cbn [flat_map dlines app]. rewrite <- Qb, <- !app_assoc. split; [reflexivity|]. constructor; [constructor; assumption|exact Fs].
        -- cbn [app] in K. injection K as <- K. destruct (IH ds k b ltac:(lia) Fs (eq_sym K)) as (ds' & Q' & F').
           exists (DComp b0 body0 e0 :: ds'). cbn [flat_map dlines app]. rewrite <- Q', <- !app_assoc. cbn [app]. split; [reflexivity|]. constructor; [constructor; assumption|exact F'].
      * destruct (IH body0 a k ltac:(lia) G0 (eq_sym K)) as (body' & Qb & Fb).
        exists (DComp b0 body' e0 :: ds). cbn [flat_map dlines app]. rewrite <- Qb, <- !app_assoc. cbn [app]. rewrite <- ?app_assoc. split; [reflexivity|]. constructor; [constructor; assumption|exact Fs].
Qed.
Lemma plain_dline_del l : is_plain l -> forall n ds a b, length (flat_map dlines ds) <= n -> Forall skippable ds -> a ++ l :: b = flat_map dlines ds ->
  exists ds', a ++ b = flat_map dlines ds' /\ Forall skippable ds'.
Proof.
  intros P. induction n as [|n IH]; intros ds a b L F Q.
  - destruct ds as [|[|] ds]; cbn [flat_map dlines app length] in L; try lia. cbn [flat_map] in Q. apply app_eq_nil in Q as [_ Q]. discriminate.
  - destruct ds as [|d ds]. { cbn [flat_map] in Q. apply app_eq_nil in Q as [_ Q]. discriminate. }
    inversion F as [|? ? Sd Fs]; subst. cbn [flat_map] in Q, L. rewrite app_length in L. destruct Sd as [l0 P0|b0 body0 e0 B0 E0 V0 G0].
    + cbn [dlines app length] in Q, L. destruct a as [|x a]; cbn [app] in Q; injection Q as -> Q; [exists ds; auto|].
      destruct (IH ds a b ltac:(lia) Fs Q) as (ds' & Q' & F'). exists (DLine l0 :: ds'). cbn [flat_map dlines app].
      rewrite Q'. split; [reflexivity|]. constructor; [constructor; exact P0|exact F'].
    + cbn [dlines app length] in Q, L. rewrite app_length in L. cbn [length] in L. destruct a as [|x a]; cbn [app] in Q; [injection Q as -> _; destruct P; contradiction|].
      injection Q as -> Q. rewrite <- app_assoc in Q. cbn [app] in Q.
      destruct (app_eq_app _ _ _ _ Q) as (k & [[-> K]|[K K']]).
      * destruct k as [|k0 k].
        -- cbn [app] in K. injection K as -> _. destruct P; contradiction.
        -- cbn [app] in K. injection K as <- K. destruct (IH ds k b ltac:(lia) Fs (eq_sym K)) as (ds' & Q' & F').
           exists (DComp b0 body0 e0 :: ds'). cbn [flat_map dlines app]. rewrite <- Q', <- !app_assoc. cbn [app]. split; [reflexivity|]. constructor; [constructor; assumption|exact F'].
      * destruct k as [|k0 k]; cbn [app] in K'; injection K' as -> K'; [destruct P; contradiction|]. subst b.
        destruct (IH body0 a k ltac:(lia) G0 (eq_sym K)) as (body' & Qb & Fb).
        exists (DComp b0 body' e0 :: ds). cbn [flat_map dlines app]. rewrite app_assoc, Qb, <- !app_assoc. split; [reflexivity|]. constructor; [constructor; assumption|exact Fs].
Qed.

(** Content without components that are read. *)
Definition plain_sec (id : secid) : Prop := children id = [] /\ has_alarms id = false.
Lemma alarm_plain w sid : action_is w sid -> plain_sec sid /\ In sid alarm_ids.
Proof.
  unfold action_is, plain_sec, alarm_ids. cbn [In]. intros A. repeat destruct A as [A|A]; try (injection A as _ <-; split; [split; reflexivity|tauto]). destruct A.
Qed.

Lemma same_as_refl id items : same_as id items items.
Proof. split; [tauto|]. intros. tauto. Qed.
Lemma same_as_cons id i a b : same_as id a b -> same_as id (i :: a) (i :: b).
Proof.
  intros [Ok H]. split; [rewrite !Forall_cons_iff; tauto|]. intros fd vs I. change (i :: a) with ([i] ++ a). change (i :: b) with ([i] ++ b). rewrite !holds_app.
  split; intros (va & vb & -> & Ha & Hb); exists va, vb; (split; [reflexivity|]); (split; [exact Ha|apply H; assumption]).
Qed.

Lemma plain_item_add id l : plain_sec id -> is_plain l -> ~ In (upper (cl_name l)) (known id) -> forall items a b, Forall (shape_ok id) items -> a ++ b = flat_map ilines items ->
  exists items', a ++ l :: b = flat_map ilines items' /\ Forall (shape_ok id) items' /\ same_as id items items'.
Proof.
  intros [NC NA] P U. induction items as [|i items IH]; intros a b F Q.
  - cbn [flat_map] in Q. apply app_eq_nil in Q as [-> ->]. exists [ILine l]. split; [reflexivity|]. split; [constructor; [constructor; exact P|constructor]|].
    apply (same_drop id [] (ILine l) []); [exact P|]. intros. eapply unknown_no_field; eauto.
  - destruct a as [|x a].
    { exists (ILine l :: i :: items). cbn [app] in Q. rewrite Q. split; [reflexivity|]. split; [constructor; [constructor; exact P|exact F]|].
      apply (same_drop id [] (ILine l) (i :: items)); [exact P|]. intros. eapply unknown_no_field; eauto. }
    inversion F as [|? ? Si Fs]; subst. cbn [flat_map] in Q. inversion Si as [? l0 P0|? b0 body0 e0 sid0 B0 C0 G0 E0|? b0 body0 e0 B0 A0 V0 G0 E0|? b0 body0 e0 B0 E0 V0 G0 N0 M0]; subst.
    + cbn [ilines app] in Q. injection Q as -> Q. destruct (IH a b Fs Q) as (is' & Q' & F' & Sa). exists (ILine l0 :: is'). cbn [flat_map ilines app]. rewrite Q'.
      split; [reflexivity|]. split; [constructor; assumption|]. apply same_as_cons. exact Sa.
    + rewrite NC in C0. destruct C0.
    + congruence.
    + cbn [ilines app] in Q. injection Q as -> Q. rewrite <- app_assoc in Q. cbn [app] in Q. destruct (app_eq_app _ _ _ _ Q) as (k & [[-> K]|[K ->]]).
      * destruct k as [|k0 k].
        -- cbn [app] in K. subst b. rewrite app_nil_r. destruct (plain_dline_add l P _ body0 (flat_map dlines body0) [] (le_n _) G0 (app_nil_r _)) as (body' & Qb & Fb).
           exists (IOther b0 body' e0 :: items). cbn [flat_map ilines app]. rewrite <- Qb, <- !app_assoc. split; [reflexivity|]. split; [constructor; [constructor; assumption|exact Fs]|].
           apply (same_swap id [] (IOther b0 body0 e0) (IOther b0 body' e0) items).
           ++ split; intros _; apply shape_item; constructor; assumption.
           ++ intros fd _. cbn [belongs]. tauto.
           ++ intros fd v _ [].
        -- cbn [app] in K. injection K as <- K. destruct (IH k b Fs (eq_sym K)) as (is' & Q' & F' & Sa).
           exists (IOther b0 body0 e0 :: is'). cbn [flat_map ilines app]. rewrite <- Q', <- !app_assoc. cbn [app]. split; [reflexivity|]. split; [constructor; assumption|].
           apply same_as_cons. exact Sa.
      * destruct (plain_dline_add l P _ body0 a k (le_n _) G0 (eq_sym K)) as (body' & Qb & Fb).
        exists (IOther b0 body' e0 :: items). cbn [flat_map ilines app]. rewrite <- Qb, <- !app_assoc. cbn [app]. rewrite <- ?app_assoc. split; [reflexivity|]. split; [constructor; [constructor; assumption|exact Fs]|].
        apply (same_swap id [] (IOther b0 body0 e0) (IOther b0 body' e0) items).
        ++ split; intros _; apply shape_item; constructor; assumption.
        ++ intros fd _. cbn [belongs]. tauto.
        ++ intros fd v _ [].
Qed.
Lemma plain_item_del id l : plain_sec id -> is_plain l -> ~ In (upper (cl_name l)) (known id) -> forall items a b, Forall (shape_ok id) items -> a ++ l :: b = flat_map ilines items ->
  exists items', a ++ b = flat_map ilines items' /\ Forall (shape_ok id) items' /\ same_as id items' items.
Proof.
  intros [NC NA] P U. induction items as [|i items IH]; intros a b F Q.
  - cbn [flat_map] in Q. apply app_eq_nil in Q as [_ Q]. discriminate.
  - inversion F as [|? ? Si Fs]; subst. cbn [flat_map] in Q. inversion Si as [? l0 P0|? b0 body0 e0 sid0 B0 C0 G0 E0|? b0 body0 e0 B0 A0 V0 G0 E0|? b0 body0 e0 B0 E0 V0 G0 N0 M0]; subst.
    + cbn [ilines app] in Q. destruct a as [|x a]; cbn [app] in Q; injection Q as -> Q.
      * exists items. cbn [app]. split; [exact Q|]. split; [exact Fs|]. apply (same_drop id [] (ILine l0) items); [exact P|]. intros. eapply unknown_no_field; eauto.
      * destruct (IH a b Fs Q) as (is' & Q' & F' & Sa). exists (ILine l0 :: is'). cbn [flat_map ilines app]. rewrite Q'.
        split; [reflexivity|]. split; [constructor; assumption|]. apply same_as_cons. exact Sa.
    + rewrite NC in C0. destruct C0.
    + congruence.
    + cbn [ilines app] in Q. destruct a as [|x a]; cbn [app] in Q; [injection Q as -> _; destruct P; contradiction|].
      injection Q as -> Q. rewrite <- app_assoc in Q. cbn [app] in Q. destruct (app_eq_app _ _ _ _ Q) as (k & [[-> K]|[K K']]).
      * destruct k as [|k0 k].
        -- cbn [app] in K. injection K as -> _. destruct P; contradiction.
        -- cbn [app] in K. injection K as <- K. destruct (IH k b Fs (eq_sym K)) as (is' & Q' & F' & Sa).
           exists (IOther b0 body0 e0 :: is'). cbn [flat_map ilines app]. rewrite <- Q', <- !app_assoc. cbn [app]. split; [reflexivity|]. split; [constructor; assumption|].
           apply same_as_cons. exact Sa.
      * destruct k as [|k0 k]; cbn [app] in K'; injection K' as -> K'; [destruct P; contradiction|]. subst b.
        destruct (plain_dline_del k0 P _ body0 a k (le_n _) G0 (eq_sym K)) as (body' & Qb & Fb).
        exists (IOther b0 body' e0 :: items). cbn [flat_map ilines app]. rewrite app_assoc, Qb, <- !app_assoc. cbn [app]. split; [reflexivity|]. split; [constructor; [constructor; assumption|exact Fs]|].
        apply (same_swap id [] (IOther b0 body' e0) (IOther b0 body0 e0) items).
        ++ split; intros _; apply shape_item; constructor; assumption.
        ++ intros fd _. cbn [belongs]. tauto.
        ++ intros fd v _ [].
Qed.

Lemma named_skip n l a b : cl_name l <> n -> values_named n (a ++ l :: b) = values_named n (a ++ b).
Proof. intros N. unfold values_named. rewrite !filter_app. cbn [filter]. apply beq_neq in N. rewrite N. reflexivity. Qed.
Lemma plain_name l : is_plain l -> cl_name l <> bs "BEGIN" /\ cl_name l <> bs "END".
Proof. intros [A B]. unfold is_begin, is_end, line_is in *. split; intros Q; rewrite Q in *; [apply A|apply B]; reflexivity. Qed.

Lemma alarm_add b l1 l l2 e v : unknown_alarm_line (l1 ++ l2) l -> (item_means FTAlarm (IAlarm b (l1 ++ l2) e) v <-> item_means FTAlarm (IAlarm b (l1 ++ l :: l2) e) v).
Proof.
  intros (P & NA & U). split; intros IM; inversion IM as [| |? ? ? us w sid sub e' more x Fb Ne A Fu Aw Q E V M]; subst; destruct (alarm_plain _ _ Aw) as [PS Ia];
    pose proof (means_shape _ _ _ _ (le_n _) M) as Sh; rewrite ?named_skip in A by exact NA; assert (Iw : In w (values_named (bs "ACTION") (l1 ++ l2))) by (rewrite A; apply in_or_app; right; left; reflexivity); specialize (U w sid Iw Aw).
  - rewrite <- app_assoc in Q. cbn [app] in Q. assert (G : exists sub' more', (l1 ++ l :: l2) ++ [e] = flat_map ilines sub' ++ [e'] ++ more' /\ means sid sub' x).
    { rewrite <- app_assoc. cbn [app]. destruct (app_eq_app _ _ _ _ Q) as (k & [[-> K]|[K ->]]).
      - destruct k as [|k0 k].
        + cbn [app] in K. rewrite app_nil_r. destruct (plain_item_add sid l PS P U sub (flat_map ilines sub) [] Sh (app_nil_r _)) as (sub' & Q' & _ & Sa).
          exists sub', more. split; [|apply (same_as_means _ _ _ _ Sa); exact M]. cbn [app]. rewrite <- Q', <- K, <- app_assoc. reflexivity.
        + cbn [app] in K. injection K as <- K. exists sub, (k ++ l :: l2 ++ [e]). split; [|exact M]. rewrite <- app_assoc. reflexivity.
      - destruct (plain_item_add sid l PS P U sub l1 k Sh (eq_sym K)) as (sub' & Q' & _ & Sa). exists sub', more. split; [|apply (same_as_means _ _ _ _ Sa); exact M].
        cbn [app]. rewrite <- Q', <- app_assoc. reflexivity. }
    destruct G as (sub' & more' & Q' & M'). eapply IM_alarm with (us := us) (w := w); eauto.
    + rewrite Forall_app in *. destruct Fb. split; [assumption|]. constructor; [apply plain_name; exact P|assumption].
    + rewrite named_skip by exact NA. exact A.
  - rewrite <- app_assoc in Q. cbn [app] in Q. assert (G : exists sub' more', (l1 ++ l2) ++ [e] = flat_map ilines sub' ++ [e'] ++ more' /\ means sid sub' x).
    { rewrite <- app_assoc. cbn [app]. destruct (app_eq_app _ _ _ _ Q) as (k & [[-> K]|[K K']]).
      - destruct k as [|k0 k]; cbn [app] in K.
        + injection K as -> _. destruct P; contradiction.
        + injection K as <- K. exists sub, (k ++ l2 ++ [e]). split; [|exact M]. rewrite <- app_assoc. reflexivity.
      - destruct k as [|k0 k]; cbn [app] in K'; injection K' as -> K'; [destruct P; contradiction|].
        destruct (plain_item_del sid k0 PS P U sub l1 k Sh (eq_sym K)) as (sub' & Q' & _ & Sa). exists sub', more. split; [|apply (same_as_means _ _ _ _ Sa); exact M].
        cbn [app]. rewrite <- Q', K', <- app_assoc. reflexivity. }
    destruct G as (sub' & more' & Q' & M'). eapply IM_alarm with (us := us) (w := w); eauto.
    + rewrite Forall_app in *. destruct Fb as [F1 F2]. split; [assumption|]. inversion F2; assumption.
Qed.

(** ** Additions at any depth *)
Lemma added_means (ok : secid -> item -> Prop) (okl : list cline -> cline -> Prop) : (forall id i, ok id i -> item_ok id i /\ forall fd, In fd (fields_of id) -> ~ belongs fd i) -> (forall ls l, okl ls l -> unknown_alarm_line ls l) ->
  forall id items items', added ok okl id items items' -> same_as id items items'.
Proof.
  intros OK OKL. induction 1 as [id pre i post Hi|id pre b body body' e post sid C _ IH|id pre b l1 l l2 e post Hl].
  - destruct (OK _ _ Hi). apply same_drop; assumption.
  - apply same_swap.
    + cbn [item_ok]. split; intros (B & fd & s & I & T & Be); (split; [exact B|]); exists fd, s; (split; [exact I|]); (split; [exact T|]); cbn [belongs] in *; exact Be.
    + intros fd _. cbn [belongs]. tauto.
    + intros fd v I Be. cbn [belongs] in Be. destruct (fd_type fd) as [|s|] eqn:T; try contradiction.
      assert (s = sid). { eapply children_one; [|exact C]. apply child_field. eauto. } subst s.
      split; intros IM; inversion IM as [|? ? ? ? y My Ey Vy|]; subst; constructor; try assumption; eapply same_as_means; eauto.
      split; [symmetry; apply IH|]. intros. symmetry. apply IH. assumption.
  - apply same_swap.
    + cbn [item_ok]. split; intros (B & fd & I & T & Be); (split; [exact B|]); exists fd; (split; [exact I|]); (split; [exact T|]); cbn [belongs] in *; exact Be.
    + intros fd _. cbn [belongs]. tauto.
    + intros fd v I Be. cbn [belongs] in Be. destruct (fd_type fd); try contradiction. apply alarm_add. auto.
Qed.

Definition same_result (r r' : res sec) : Prop := forall cal, r = Ok cal <-> r' = Ok cal.
Lemma frames_same_result b items e tail items' : framed b items e -> framed b items' e -> rest_ok tail -> same_as SCalendar items items' ->
  same_result (decode_bytes (frame_text b items e ++ tail)) (decode_bytes (frame_text b items' e ++ tail)).
Proof. intros F F' T Sa cal. rewrite !decode_frame by assumption. rewrite (same_as_means _ _ _ _ Sa). tauto. Qed.

Lemma decode_unknown_line b items items' e tail : framed b items e -> framed b items' e -> rest_ok tail ->
  added unknown_line unknown_alarm_line SCalendar items items' ->
  same_result (decode_bytes (frame_text b items e ++ tail)) (decode_bytes (frame_text b items' e ++ tail)).
Proof.
  intros F F' T A. apply frames_same_result; try assumption. eapply added_means; [| |exact A]; [|auto]. intros id i (l & -> & P & U). split; [exact P|].
  intros. eapply unknown_no_field; eauto.
Qed.
Lemma decode_unknown_comp b items items' e tail : framed b items e -> framed b items' e -> rest_ok tail ->
  added unknown_comp no_line SCalendar items items' ->
  same_result (decode_bytes (frame_text b items e ++ tail)) (decode_bytes (frame_text b items' e ++ tail)).
Proof.
  intros F F' T A. apply frames_same_result; try assumption. eapply added_means; [| |exact A]; [|intros ls l []]. intros id i (b0 & body & e0 & -> & Sh).
  split; [apply shape_item; exact Sh|]. intros. apply other_no_field.
Qed.
End Add.
