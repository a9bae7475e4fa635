(** The order of different properties and components does not matter. *)
From Coq Require Import String Ascii ZArith Bool List Lia Permutation.
From Verif Require Import Base Lib Strtok Tokeniser SpecContent TokeniserProofs GoTime Types Params ParamTable PropTable Props SecTable Sections Codec SpecTree TreeProofs ExactProofs SpecRules ShapeProofs RulesProofs SpecEdits AddProofs SpecOrder.
Import ListNotations.

Section Order.
Context {env : Env}.

Definition named_of (i : item) : item -> bool :=
  match i with ILine l => line_named (upper (cl_name l)) | IComp b _ _ | IAlarm b _ _ | IOther b _ _ => comp_named (upper (cl_value b)) end.
Lemma named_of_self i : named_of i i = true.
Proof. destruct i; cbn [named_of line_named comp_named]; apply beq_refl. Qed.
Lemma same_names_of items items' : same_names items items' -> forall i, filter (named_of i) items = filter (named_of i) items'.
Proof. intros H i. destruct i; cbn [named_of]; apply H. Qed.
Lemma same_names_sym items items' : same_names items items' -> same_names items' items.
Proof. intros H n. destruct (H n). auto. Qed.
Lemma same_names_in items items' i : same_names items items' -> In i items -> In i items'.
Proof.
  intros H I. assert (J : In i (filter (named_of i) items)) by (apply filter_In; split; [exact I|apply named_of_self]).
  rewrite (same_names_of _ _ H) in J. apply filter_In in J. tauto.
Qed.
Lemma same_names_forall (P : item -> Prop) items items' : same_names items items' -> Forall P items -> Forall P items'.
Proof. rewrite !Forall_forall. intros H F i I. apply F. eapply same_names_in; [apply same_names_sym; exact H|exact I]. Qed.
Lemma lines_forall (P : cline -> Prop) items : Forall P (flat_map ilines items) <-> Forall (fun i => Forall P (ilines i)) items.
Proof. induction items as [|i items IH]; cbn [flat_map]; [split; constructor|]. rewrite Forall_app, Forall_cons_iff, IH. tauto. Qed.

(** A field only looks at the items under its name. *)
Lemma holds_filter fd (p : item -> bool) : (forall i, belongs fd i -> p i = true) -> forall items vs, holds fd items vs <-> holds fd (filter p items) vs.
Proof.
  intros B. induction items as [|i items IH]; intros vs; cbn [filter]; [tauto|]. destruct (p i) eqn:P.
  - split; intros H; inversion H as [|? ? ? ? NB H1|? ? ? v vs1 Bi M H1]; subst; constructor; try assumption; apply IH; assumption.
  - rewrite <- IH. split; intros H.
    + inversion H as [|? ? ? ? NB H1|? ? ? v vs1 Bi M H1]; subst; [exact H1|]. apply B in Bi. congruence.
    + constructor; [|exact H]. intros Bi. apply B in Bi. congruence.
Qed.
Lemma field_filter fd : exists p, (forall i, belongs fd i -> p i = true) /\ (forall items items', same_names items items' -> filter p items = filter p items').
Proof.
  destruct (fd_type fd) as [pid|sid|] eqn:T.
  - exists (line_named (fd_key fd)). split; [|intros items items' H; apply H]. intros i. unfold belongs. rewrite T. destruct i; try contradiction.
    unfold line_is. intros <-. apply beq_refl.
  - exists (comp_named (fd_key fd)). split; [|intros items items' H; apply H]. intros i. unfold belongs. rewrite T. destruct i; try contradiction.
    intros <-. apply beq_refl.
  - exists (comp_named (fd_key fd)). split; [|intros items items' H; apply H]. intros i. unfold belongs. rewrite T. destruct i; try contradiction.
    intros <-. apply beq_refl.
Qed.
Lemma same_names_same id items items' : same_names items items' -> same_as id items items'.
Proof.
  intros H. split.
  - split; apply same_names_forall; [exact H|apply same_names_sym; exact H].
  - intros fd vs _. destruct (field_filter fd) as (p & B & Q). rewrite (holds_filter fd p B items), (holds_filter fd p B items'), (Q _ _ H). tauto.
Qed.

(** ** Lines of an alarm *)
Lemma plain_item_first id items l rest : is_plain l -> Forall (shape_ok id) items -> l :: rest = flat_map ilines items ->
  exists items', items = ILine l :: items' /\ rest = flat_map ilines items'.
Proof.
  intros P F Q. destruct items as [|i items]; [discriminate|]. cbn [flat_map] in Q. apply Forall_cons_iff in F as [Si _].
  inversion Si as [? l0 P0|? b0 body0 e0 sid0 B0 C0 G0 E0|? b0 body0 e0 B0 A0 V0 G0 E0|? b0 body0 e0 B0 E0 V0 G0 N0 M0]; subst; cbn [ilines app] in Q; injection Q as -> Q;
    try (destruct P; contradiction). eauto.
Qed.
Lemma plain_item_swap id l l' : plain_sec id -> is_plain l -> is_plain l' -> upper (cl_name l) <> upper (cl_name l') -> forall items a b, Forall (shape_ok id) items ->
  a ++ l :: l' :: b = flat_map ilines items ->
  exists items', a ++ l' :: l :: b = flat_map ilines items' /\ same_as id items items'.
Proof.
  intros [NC NA] P P' D. induction items as [|i items IH]; intros a b F Q.
  - cbn [flat_map] in Q. apply app_eq_nil in Q as [_ Q]. discriminate.
  - inversion F as [|? ? Si Fs]; subst. cbn [flat_map] in Q. inversion Si as [? l0 P0|? b0 body0 e0 sid0 B0 C0 G0 E0|? b0 body0 e0 B0 A0 V0 G0 E0|? b0 body0 e0 B0 E0 V0 G0 N0 M0]; subst.
    + cbn [ilines app] in Q. destruct a as [|x a]; cbn [app] in Q; injection Q as -> Q.
      * destruct (plain_item_first id items l' b P' Fs Q) as (rest & -> & ->). exists (ILine l' :: ILine l0 :: rest). split; [reflexivity|].
        apply same_names_same. intros n. cbn [filter line_named comp_named]. split; [|reflexivity].
        destruct (beq (upper (cl_name l0)) n) eqn:A; [|reflexivity]. destruct (beq (upper (cl_name l')) n) eqn:B; [|reflexivity].
        apply beq_eq in A, B. congruence.
      * destruct (IH a b Fs Q) as (is' & Q' & Sa). exists (ILine l0 :: is'). cbn [flat_map ilines app]. rewrite Q'.
        split; [reflexivity|]. apply same_as_cons. exact Sa.
    + rewrite NC in C0. destruct C0.
    + congruence.
    + cbn [ilines app] in Q. destruct a as [|x a]; cbn [app] in Q; [injection Q as -> _; destruct P; contradiction|].
      injection Q as -> Q. rewrite <- app_assoc in Q. cbn [app] in Q. destruct (app_eq_app _ _ _ _ Q) as (k & [[-> K]|[K K']]).
      * destruct k as [|k0 k].
        -- cbn [app] in K. injection K as -> _. destruct P; contradiction.
        -- cbn [app] in K. injection K as <- K. destruct (IH k b Fs (eq_sym K)) as (is' & Q' & Sa).
           exists (IOther b0 body0 e0 :: is'). cbn [flat_map ilines app]. rewrite <- Q', <- !app_assoc. cbn [app]. split; [reflexivity|].
           apply same_as_cons. exact Sa.
      * destruct k as [|k0 k]; cbn [app] in K'; injection K' as -> K'; [destruct P; contradiction|].
        destruct k as [|k1 k]; cbn [app] in K'; injection K' as -> K'; [destruct P'; contradiction|]. subst b.
        destruct (plain_dline_del k0 P _ body0 a (k1 :: k) (le_n _) G0 (eq_sym K)) as (body1 & Q1 & F1).
        destruct (plain_dline_add k0 P _ body1 (a ++ [k1]) k (le_n _) F1) as (body' & Qb & Fb). { rewrite <- app_assoc. exact Q1. }
        exists (IOther b0 body' e0 :: items). rewrite <- app_assoc in Qb. cbn [app] in Qb. cbn [flat_map ilines app]. rewrite <- Qb, <- !app_assoc. cbn [app]. rewrite <- ?app_assoc. split; [reflexivity|].
        apply (same_swap id [] (IOther b0 body0 e0) (IOther b0 body' e0) items).
        ++ split; intros _; apply shape_item; constructor; assumption.
        ++ intros fd _. cbn [belongs]. tauto.
        ++ intros fd v _ [].
Qed.
Lemma named_swap n l l' a b : upper (cl_name l) <> upper (cl_name l') -> values_named n (a ++ l :: l' :: b) = values_named n (a ++ l' :: l :: b).
Proof.
  intros D. unfold values_named. rewrite !filter_app. cbn [filter]. destruct (beq (cl_name l) n) eqn:A; [|reflexivity]. destruct (beq (cl_name l') n) eqn:B; [|reflexivity].
  apply beq_eq in A, B. congruence.
Qed.
Lemma alarm_swap b l1 l l' l2 e v : is_plain l -> is_plain l' -> upper (cl_name l) <> upper (cl_name l') ->
  item_means FTAlarm (IAlarm b (l1 ++ l :: l' :: l2) e) v -> item_means FTAlarm (IAlarm b (l1 ++ l' :: l :: l2) e) v.
Proof.
  intros P P' D IM. inversion IM as [| |? ? ? us w sid sub e' more x Fb Ne A Fu Aw Q E V M]; subst. destruct (alarm_plain _ _ Aw) as [PS Ia].
  pose proof (means_shape _ _ _ _ (le_n _) M) as Sh. rewrite (named_swap _ _ _ _ _ D) in A.
  rewrite <- app_assoc in Q. cbn [app] in Q. assert (G : exists sub' more', (l1 ++ l' :: l :: l2) ++ [e] = flat_map ilines sub' ++ [e'] ++ more' /\ means sid sub' x).
  { rewrite <- app_assoc. cbn [app]. destruct (app_eq_app _ _ _ _ Q) as (k & [[-> K]|[K K']]).
    - destruct k as [|k0 k]; cbn [app] in K.
      + injection K as -> _. destruct P; contradiction.
      + injection K as <- K. exists sub, (k ++ l' :: l :: l2 ++ [e]). split; [|exact M]. rewrite <- app_assoc. reflexivity.
    - destruct k as [|k0 k]; cbn [app] in K'; injection K' as -> K'; [destruct P; contradiction|].
      destruct k as [|k1 k]; cbn [app] in K'; injection K' as -> K'; [destruct P'; contradiction|].
      destruct (plain_item_swap sid k0 k1 PS P P' D sub l1 k Sh (eq_sym K)) as (sub' & Q' & Sa). exists sub', more. split; [|apply (same_as_means _ _ _ _ Sa); exact M].
      cbn [app]. rewrite <- Q', K', <- app_assoc. reflexivity. }
  destruct G as (sub' & more' & Q' & M'). eapply IM_alarm with (us := us) (w := w); eauto.
  rewrite Forall_app in *. destruct Fb as [F1 F2]. split; [exact F1|]. apply Forall_cons_iff in F2 as [G1 F2]. apply Forall_cons_iff in F2 as [G2 F2]. auto.
Qed.

(** ** At any depth *)
Lemma same_as_sym id items items' : same_as id items items' -> same_as id items' items.
Proof. intros [A B]. split; [symmetry; exact A|]. intros. symmetry. auto. Qed.
Lemma same_as_trans id a b c : same_as id a b -> same_as id b c -> same_as id a c.
Proof. intros [A B] [C D]. split; [rewrite A; exact C|]. intros fd vs I. rewrite B by exact I. auto. Qed.
Lemma moved_same : forall items items', moved items items' -> forall id, same_as id items items'.
Proof.
  induction 1 as [items items' H|pre b body body' e post _ IH|pre b l1 l l' l2 e post P P' D]; intros id.
  - apply same_names_same. exact H.
  - apply same_swap.
    + cbn [item_ok]. split; intros (B & fd & s & I & T & Be); (split; [exact B|]); exists fd, s; (split; [exact I|]); (split; [exact T|]); cbn [belongs] in *; exact Be.
    + intros fd _. cbn [belongs]. tauto.
    + intros fd v I Be. cbn [belongs] in Be. destruct (fd_type fd) as [|s|] eqn:T; try contradiction.
      split; intros IM; inversion IM as [|? ? ? ? y My Ey Vy|]; subst; constructor; try assumption; eapply same_as_means; eauto.
      apply same_as_sym. apply IH.
  - apply same_swap.
    + cbn [item_ok]. split; intros (B & fd & I & T & Be); (split; [exact B|]); exists fd; (split; [exact I|]); (split; [exact T|]); cbn [belongs] in *; exact Be.
    + intros fd _. cbn [belongs]. tauto.
    + intros fd v I Be. cbn [belongs] in Be. destruct (fd_type fd); try contradiction. split; apply alarm_swap; auto.
Qed.
Lemma reordered_same items items' : reordered items items' -> forall id, same_as id items items'.
Proof. induction 1 as [items|items items' items'' M _ IH]; intros id; [apply same_as_refl|]. eapply same_as_trans; [apply moved_same; exact M|apply IH]. Qed.

(** The shape is kept. *)
Lemma moved_shape : forall items items', moved items items' -> forall id, Forall (shape_ok id) items -> Forall (shape_ok id) items'.
Proof.
  induction 1 as [items items' H|pre b body body' e post _ IH|pre b l1 l l' l2 e post P P' D]; intros id F.
  - eapply same_names_forall; eassumption.
  - rewrite Forall_app, Forall_cons_iff in *. destruct F as (F1 & F2 & F3). split; [exact F1|]. split; [|exact F3].
    inversion F2; subst. econstructor; eauto.
  - rewrite Forall_app, Forall_cons_iff in *. destruct F as (F1 & F2 & F3). split; [exact F1|]. split; [|exact F3].
    inversion F2 as [| |? ? ? ? B0 A0 V0 G0 E0|]; subst. constructor; try assumption. rewrite Forall_app, !Forall_cons_iff in *. tauto.
Qed.
Lemma moved_lines (Q : cline -> Prop) : forall items items', moved items items' -> Forall Q (flat_map ilines items) -> Forall Q (flat_map ilines items').
Proof.
  induction 1 as [items items' H|pre b body body' e post _ IH|pre b l1 l l' l2 e post P P' D]; rewrite !lines_forall.
  - apply same_names_forall. exact H.
  - rewrite !Forall_app, !Forall_cons_iff. cbn [ilines]. rewrite !Forall_cons_iff, !Forall_app. tauto.
  - rewrite !Forall_app, !Forall_cons_iff. cbn [ilines]. rewrite !Forall_cons_iff, !Forall_app, !Forall_cons_iff. tauto.
Qed.
Lemma reordered_framed b e items items' : reordered items items' -> framed b items e -> framed b items' e.
Proof.
  induction 1 as [items|items items' items'' M _ IH]; [auto|]. intros (B & V & F & E & W). apply IH. split; [exact B|]. split; [exact V|].
  split; [eapply moved_shape; eassumption|]. split; [exact E|]. rewrite !Forall_cons_iff, !Forall_app in *. destruct W as (W1 & W2 & W3). split; [exact W1|]. split; [|exact W3].
  eapply moved_lines; eassumption.
Qed.

Lemma decode_reordered b items items' e tail : framed b items e -> rest_ok tail -> reordered items items' ->
  framed b items' e /\ forall cal, decode_bytes (frame_text b items e ++ tail) = Ok cal <-> decode_bytes (frame_text b items' e ++ tail) = Ok cal.
Proof.
  intros F T R. pose proof (reordered_framed _ _ _ _ R F) as F'. split; [exact F'|]. apply frames_same_result; try assumption. apply reordered_same. exact R.
Qed.
End Order.
