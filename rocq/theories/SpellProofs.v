(** The spelling of a calendar. *)
From Coq Require Import String Ascii ZArith Bool List Lia.
From Verif Require Import Base Lib GoStrings Strtok Tokeniser SpecContent TokeniserProofs GoTime Types Params ParamTable PropTable Props SecTable Sections Codec SpecTree TreeProofs ExactProofs SpecRules ShapeProofs RulesProofs SpecEdits AddProofs SpecProps SpecRfc SpecLine LineProofs CaseProofs SpecSpell.
Import ListNotations.

Section Spell.
Context {env : Env}.
(** ** Parameters *)
Lemma F2_nil {A B} (R : A -> B -> Prop) l : Forall2 R [] l -> l = [].
Proof. intros H. inversion H. reflexivity. Qed.
Lemma F2_one {A B} (R : A -> B -> Prop) x l : Forall2 R [x] l -> exists y, l = [y] /\ R x y.
Proof. intros H. inversion H as [|? y ? ? Q T]; subst. inversion T; subst. eauto. Qed.
Lemma texts_same n x x' : values_same n x x' -> map pvalue_text (cp_first x :: cp_more x) = map pvalue_text (cp_first x' :: cp_more x').
Proof. unfold values_same. generalize (cp_first x :: cp_more x) (cp_first x' :: cp_more x'). intros l l' F. induction F as [|v v' l l' [H _] _ IH]; [reflexivity|]. cbn [map]. rewrite H, IH. reflexivity. Qed.
Lemma quoted_same n x x' : In n quoted_params -> values_same n x x' -> cp_first x = cp_first x' /\ cp_more x = cp_more x'.
Proof.
  intros I F. assert (Q : cp_first x :: cp_more x = cp_first x' :: cp_more x').
  { revert F. unfold values_same. generalize (cp_first x :: cp_more x) (cp_first x' :: cp_more x'). intros l l' F. induction F as [|v v' l l' [_ H] _ IH]; [reflexivity|]. rewrite (H I), IH. reflexivity. }
  injection Q as Q1 Q2. auto.
Qed.
Lemma one_text_same n x x' t : values_same n x x' -> one_text x t -> one_text x' t.
Proof. intros H [A B]. apply texts_same in H. unfold one_text. rewrite A in H. cbn [map] in H. destruct (cp_more x'); [|discriminate H]. injection H as H. split; [reflexivity|congruence]. Qed.
Definition by_quotes (f : param_form) : bool := match f with OneAddress | ManyAddresses | ManyTexts | QuotedText => true | _ => false end.
Lemma form_same n f x x' v : (by_quotes f = true -> In n quoted_params) -> values_same n x x' -> form_means f x v -> form_means f x' v.
Proof.
  intros Q H F. destruct F; try (econstructor; eauto using one_text_same; fail).
  all: destruct (quoted_same n _ _ (Q eq_refl) H) as [QA QB]; econstructor; rewrite <- ?QA, <- ?QB; eauto.
Qed.
Lemma form_by_name q : by_quotes (snd (rfc_param q)) = true -> In (fst (rfc_param q)) quoted_params.
Proof. destruct q; intros H; try discriminate H; cbn; tauto. Qed.
Lemma param_same cps cps' q o : params_same cps cps' -> param_means cps q o -> param_means cps' q o.
Proof.
  intros H. specialize (H (fst (rfc_param q))). intros [[A ->]|(x & v & A & B & ->)]; rewrite A in H.
  - left. apply F2_nil in H. auto.
  - right. apply F2_one in H as (x' & G & V). exists x', v. split; [exact G|]. split; [|reflexivity]. apply (form_same (fst (rfc_param q)) _ x); auto using form_by_name.
Qed.
Lemma last_same n cps cps' : params_same cps cps' -> last_given n cps = last_given n cps'.
Proof.
  intros H. specialize (H n). unfold last_given. assert (F : Forall2 (values_same n) (rev (given n cps)) (rev (given n cps'))) by (induction H; [constructor|cbn [rev]; apply Forall2_app; auto]).
  destruct F as [|x x' l l' V _]; [reflexivity|]. rewrite (texts_same _ _ _ V). reflexivity.
Qed.
Lemma type_same cps cps' vs a w k b : params_same cps cps' -> type_read cps vs a w k b -> type_read cps' vs a w k b.
Proof.
  intros H [V T]. split; [exact V|]. specialize (H (bs "VALUE")). destruct T as [[A [G|L]]|(x & G & M & U)].
  - left. split; [exact A|]. left. rewrite G in H. apply F2_nil in H. exact H.
  - left. auto.
  - right. rewrite G in H. apply F2_one in H as (x' & G' & V'). exists x'. split; [exact G'|]. destruct (one_text_same _ _ x' (pvalue_text (cp_first x)) V') as [O1 O2]; [split; auto|]. split; [exact O1|]. rewrite O2. exact U.
Qed.
Lemma line_means_same pid cps cps' d p : params_same cps cps' -> line_means pid cps d p -> line_means pid cps' d p.
Proof.
  intros H. assert (V : value_params cps = value_params cps') by (unfold value_params; cbn [flat_map]; rewrite !(last_same _ _ _ H); reflexivity).
  unfold line_means. destruct (rfc_words pid); [|auto]. destruct (api_struct pid) as [ps|]; [|rewrite V; auto]. intros (l & a & w & k & b & v & F & T & D & Q). exists l, a, w, k, b, v.
  split; [|split; [exact (type_same _ _ _ _ _ _ _ H T)|split; [rewrite <- V; exact D|exact Q]]]. clear - F H. induction F; constructor; eauto using param_same.
Qed.
Lemma prop_decode_same pid l l' p : line_same l l' -> prop_decode pid (params_tokens (cl_params l)) (cl_value l) = Ok p -> prop_decode pid (params_tokens (cl_params l')) (cl_value l') = Ok p.
Proof. intros (_ & <- & P). rewrite !line_exact. apply line_means_same. exact P. Qed.
Lemma line_same_sym l l' : line_same l l' -> line_same l' l.
Proof.
  unfold line_same, like. intros (A & B & C). repeat split; [auto|auto|]. intros n. eapply Forall2_sym; [|exact (C n)]. intros p q _ F. eapply Forall2_sym; [|exact F]. cbv beta. intros u v _ [D E]. split; [auto|]. intros I. symmetry. auto.
Qed.
Lemma alarm_same_sym l l' : alarm_line_same l l' -> alarm_line_same l' l.
Proof. intros [A B]. pose proof A as (U & _). unfold like in U. split; [apply line_same_sym; exact A|]. destruct B as [B|B]; [left; auto|right]. rewrite <- U. exact B. Qed.
Lemma dsame_sym : forall n d d', length (dlines d) <= n -> dsame d d' -> dsame d' d.
Proof.
  induction n as [|n IH]; intros d d' L H; destruct H as [l l' H|b b' body body' e e' A B F C]; cbn [dlines length] in L; try lia; [constructor; apply line_same_sym; exact H|].
  constructor; [unfold like in *; auto|auto| |apply begin_like_sym; exact C]. eapply Forall2_sym; [|exact F]. intros x y I. apply IH. pose proof (ditem_len x body I). rewrite app_length in L. lia.
Qed.
Lemma isame_sym : forall n d d', length (ilines d) <= n -> isame d d' -> isame d' d.
Proof.
  induction n as [|n IH]; intros d d' L H; destruct H as [l l' H|b b' body body' e e' A F C|b b' body body' e e' A F C|b b' body body' e e' A F C]; cbn [ilines length] in L; try lia.
  - constructor. apply line_same_sym. exact H.
  - constructor; [apply begin_like_sym; exact A| |apply line_same_sym; exact C]. eapply Forall2_sym; [|exact F]. intros x y I. apply IH. pose proof (item_len x body I). rewrite app_length in L. lia.
  - constructor; [apply begin_like_sym; exact A| |apply alarm_same_sym; exact C]. eapply Forall2_sym; [|exact F]. intros x y _. apply alarm_same_sym.
  - constructor; [apply begin_like_sym; exact A| |apply begin_like_sym; exact C]. eapply Forall2_sym; [|exact F]. intros x y _. apply (dsame_sym _ _ _ (le_n _)).
Qed.

(** ** Skipped content *)
Lemma plain_same l l' : line_same l l' -> is_plain l -> is_plain l'.
Proof. intros (U & _) [A B]. unfold is_plain, is_begin, is_end, line_is, like in *. rewrite <- U. auto. Qed.
Lemma skippable_same : forall n d d', length (dlines d) <= n -> dsame d d' -> skippable d -> skippable d'.
Proof.
  induction n as [|n IH]; intros d d' L H Sk; destruct H as [l l' H|b b' body body' e e' A B F C]; cbn [dlines length] in L; try lia;
    [inversion Sk; subst; constructor; eapply plain_same; eauto|].
  inversion Sk as [|? ? ? Bb Ee V G]; subst. destruct C as [C1 C2]. unfold like, is_begin, is_end, line_is in *. constructor; unfold is_begin, is_end, line_is; try congruence.
  assert (LL : forall x, In x body -> length (dlines x) <= n) by (intros x I; pose proof (ditem_len x body I); rewrite app_length in L; lia).
  clear - F G IH LL. induction F as [|x y body body' H F IHF]; [constructor|]. inversion G; subst. constructor.
  - apply (IH x y); [apply LL; left; reflexivity|exact H|assumption].
  - apply IHF; [assumption|]. intros. apply LL. right. assumption.
Qed.
Lemma skippables_same ds ds' : Forall2 dsame ds ds' -> Forall skippable ds -> Forall skippable ds'.
Proof. intros F G. induction F; [constructor|]. inversion G; subst. constructor; [eapply skippable_same; eauto|auto]. Qed.

(** ** Lines back to items *)
Lemma dsame_lift : forall n ds L', length (flat_map dlines ds) <= n -> Forall2 line_same (flat_map dlines ds) L' -> exists ds', L' = flat_map dlines ds' /\ Forall2 dsame ds ds'.
Proof.
  induction n as [|n IH]; intros ds L' L F; (destruct ds as [|d ds]; [inversion F; subst; exists []; split; [reflexivity|constructor]|]).
  - destruct d; cbn [flat_map dlines app length] in L; lia.
  - cbn [flat_map] in F, L. rewrite app_length in L. apply Forall2_app_inv_l in F as (La & Lb & Fa & Fb & ->).
    assert (LD : 1 <= length (dlines d)) by (destruct d; cbn [dlines length]; lia). destruct (IH ds Lb ltac:(lia) Fb) as (ds' & -> & Fs).
    destruct d as [l|b body e]; cbn [dlines length] in Fa, L.
    + inversion Fa as [|? l' ? ? H T]; subst. inversion T; subst. exists (DLine l' :: ds'). split; [reflexivity|]. constructor; [constructor; exact H|exact Fs].
    + inversion Fa as [|? b' ? Lc H T]; subst. apply Forall2_app_inv_l in T as (Ld & Le & Fd & Fe & ->). inversion Fe as [|? e' ? ? He T]; subst. inversion T; subst.
      rewrite app_length in L. destruct (IH body Ld ltac:(lia) Fd) as (body' & -> & Fbody). exists (DComp b' body' e' :: ds'). split; [reflexivity|].
      constructor; [|exact Fs]. destruct H as (H1 & H2 & _). destruct He as (He1 & He2 & _). constructor; try assumption. split; [exact He1|]. unfold like. congruence.
Qed.
Lemma isame_lift id : plain_sec id -> forall items L', Forall (shape_ok id) items -> Forall2 line_same (flat_map ilines items) L' ->
  exists items', L' = flat_map ilines items' /\ Forall2 isame items items'.
Proof.
  intros [NC NA]. induction items as [|i items IH]; intros L' Sh F; [inversion F; subst; exists []; split; [reflexivity|constructor]|].
  inversion Sh as [|? ? Si Ss]; subst. cbn [flat_map] in F. apply Forall2_app_inv_l in F as (La & Lb & Fa & Fb & ->). destruct (IH Lb Ss Fb) as (is' & -> & Fs).
  inversion Si as [? l0 P0|? b0 body0 e0 sid0 B0 C0 G0 E0|? b0 body0 e0 B0 A0 V0 G0 E0|? b0 body0 e0 B0 E0 V0 G0 N0 M0]; subst.
  - cbn [ilines] in Fa. inversion Fa as [|? l' ? ? H T]; subst. inversion T; subst. exists (ILine l' :: is'). split; [reflexivity|]. constructor; [constructor; exact H|exact Fs].
  - rewrite NC in C0. destruct C0.
  - congruence.
  - cbn [ilines] in Fa. inversion Fa as [|? b' ? Lc H T]; subst. apply Forall2_app_inv_l in T as (Ld & Le & Fd & Fe & ->). inversion Fe as [|? e' ? ? He T]; subst. inversion T; subst.
    destruct (dsame_lift _ body0 Ld (le_n _) Fd) as (body' & -> & Fbody). exists (IOther b' body' e' :: is'). split; [reflexivity|].
    constructor; [|exact Fs]. destruct H as (H1 & H2 & _). destruct He as (He1 & He2 & _). constructor; [split; [exact H1|unfold like; congruence]|exact Fbody|split; [exact He1|unfold like; congruence]].
Qed.

Lemma alarm_names_same l l' n : alarm_line_same l l' -> In n [bs "BEGIN"; bs "END"; bs "ACTION"] -> upper n = n -> (cl_name l = n <-> cl_name l' = n).
Proof.
  intros [(U & _) [Q|N]] I Un; [rewrite Q; tauto|]. unfold like in U. split; intros Q; exfalso; apply N; [rewrite Q, Un; exact I|]. rewrite U, Q, Un. exact I.
Qed.

(** ** The same meaning *)
Lemma item_ok_same id i i' : isame i i' -> item_ok id i -> item_ok id i'.
Proof.
  intros H. destruct H as [l l' H|b b' body body' e e' [A V] F C|b b' body body' e e' [A V] F C|b b' body body' e e' [A V] F [C1 C2]]; cbn [item_ok belongs]; unfold is_begin, is_end, line_is, like in *.
  - apply plain_same. exact H.
  - rewrite A, V. tauto.
  - rewrite A, V. tauto.
  - rewrite A, V, C1, C2. intros (H1 & H2 & H3 & H4 & H5). do 3 (split; [assumption|]). split; [eapply skippables_same; eauto|exact H5].
Qed.
Lemma belongs_same fd i i' : isame i i' -> (belongs fd i <-> belongs fd i').
Proof.
  intros H. destruct H as [l l' (H & _)|b b' body body' e e' [A V] F C|b b' body body' e e' [A V] F C|b b' body body' e e' [A V] F [C1 C2]]; cbn [belongs]; unfold line_is, like in *; [rewrite H|rewrite V|rewrite V|]; tauto.
Qed.

Lemma means_same : forall n id items items' x, length (flat_map ilines items) <= n -> means id items x -> Forall2 isame items items' -> means id items' x.
Proof.
  induction n as [n IH] using lt_wf_ind. intros id items items' x L M F.
  assert (ITEM : forall i i' t v, In i items -> isame i i' -> item_means t i v -> item_means t i' v).
  { intros i i' t v I H IM. pose proof (item_len i items I) as LI. destruct H as [l l' H|b b' body body' e e' B F0 E|b b' body body' e e' B F0 E|b b' body body' e e' B F0 E];
      inversion IM as [pid ? p D|sid ? ? ? y My Ey Vy|? ? ? us w sid sub e0 more y Fb Ne A Fu Aw Q E0 V0 M0]; subst.
    - constructor. apply (prop_decode_same _ _ _ _ H). exact D.
    - cbn [ilines length] in LI. rewrite app_length in LI. cbn [length] in LI. destruct E as (E1 & E2 & _). unfold is_end, line_is, like in *. constructor; [|unfold is_end, line_is; congruence|congruence].
      apply (IH (length (flat_map ilines body)) ltac:(lia) sid body body' y (le_n _) My F0).
    - assert (NB : upper (bs "BEGIN") = bs "BEGIN") by reflexivity. assert (NE : upper (bs "END") = bs "END") by reflexivity. assert (NAc : upper (bs "ACTION") = bs "ACTION") by reflexivity.
      assert (FL : Forall2 line_same (body ++ [e]) (body' ++ [e'])).
      { apply Forall2_app; [|constructor; [apply E|constructor]]. clear - F0. induction F0; constructor; [apply H|assumption]. }
      rewrite Q in FL. apply Forall2_app_inv_l in FL as (La & Lb & Fa & Fb2 & Q'). destruct (alarm_plain _ _ Aw) as [PS _].
      destruct (isame_lift sid PS sub La (means_shape _ _ _ _ (le_n _) M0) Fa) as (sub' & -> & Fsub). cbn [app] in Fb2. inversion Fb2 as [|? e1 ? more' (He1 & He2 & _) _]; subst.
      cbn [ilines length] in LI. rewrite Q in LI. rewrite !app_length in LI. cbn [length] in LI.
      assert (M1 : means sid sub' y) by (apply (IH (length (flat_map ilines sub)) ltac:(lia) sid sub sub' y (le_n _) M0 Fsub)).
      eapply IM_alarm with (us := us) (w := w); [| |rewrite <- A|exact Fu|exact Aw|exact Q'|unfold is_end, line_is, like in *; congruence|congruence|exact M1].
      + clear - Fb F0 NB NE. induction F0 as [|a a' k k' H F0 IHF]; [constructor|]. inversion Fb as [|? ? [N1 N2] Fb']; subst. constructor; [|auto]. split; intros Q; [apply N1|apply N2];
          (eapply alarm_names_same; [exact H|cbn [In]; tauto| |exact Q]; assumption).
      + apply (proj1 (alarm_names_same _ _ (bs "END") E ltac:(cbn [In]; tauto) NE)). exact Ne.
      + clear - F0 NAc. unfold values_named. induction F0 as [|a a' k k' H F0 IHF]; [reflexivity|]. cbn [filter].
        pose proof (alarm_names_same _ _ (bs "ACTION") H ltac:(cbn [In]; tauto) NAc) as AN. destruct (beq (cl_name a) (bs "ACTION")) eqn:B1; destruct (beq (cl_name a') (bs "ACTION")) eqn:B2; cbn [map].
        * rewrite IHF. f_equal. destruct H as [(_ & V & _) _]. auto.
        * apply beq_eq in B1. apply beq_neq in B2. tauto.
        * apply beq_neq in B1. apply beq_eq in B2. tauto.
        * exact IHF. }
  destruct M as [id items fs Ok Lf H X]. constructor; [|exact Lf| |exact X].
  - clear - F Ok. induction F; [constructor|]. inversion Ok; subst. constructor; [eapply item_ok_same; eauto|auto].
  - intros i fd N. destruct (H i fd N) as [Ho C]. split; [|exact C]. generalize (nth i fs []), Ho. clear - F ITEM. induction F as [|a a' k k' HL F IHF]; intros vs Ho; [exact Ho|].
    assert (IHF' := fun vs Ho => IHF (fun i i' t v I => ITEM i i' t v (or_intror I)) vs Ho). clear IHF.
    inversion Ho as [|? ? ? ? NB H1|? ? ? v vs1 B M1 H1]; subst.
    + apply H_skip; [|auto]. rewrite <- (belongs_same fd _ _ HL). exact NB.
    + apply H_take; [rewrite <- (belongs_same fd _ _ HL); exact B| |auto]. eapply ITEM; eauto. left. reflexivity.
Qed.

Lemma decode_same b items e b' items' e' tail : framed b items e -> framed b' items' e' -> rest_ok tail ->
  begin_like b b' -> Forall2 isame items items' -> line_same e e' ->
  same_result (decode_bytes (frame_text b items e ++ tail)) (decode_bytes (frame_text b' items' e' ++ tail)).
Proof.
  intros F F' T B I E cal. rewrite !decode_frame by assumption. destruct E as (_ & -> & _). split; intros [M V]; (split; [|exact V]).
  - eapply means_same; eauto.
  - eapply means_same; [apply le_n|exact M|]. eapply Forall2_sym; [|exact I]. intros x y _. apply (isame_sym _ _ _ (le_n _)).
Qed.
(** ** Steps *)
Lemma value_same_refl n x : values_same n x x.
Proof. unfold values_same. induction (cp_first x :: cp_more x); constructor; auto. Qed.
Lemma params_same_refl ps : params_same ps ps.
Proof. intros n. induction (given n ps); constructor; auto using value_same_refl. Qed.
(** Parameters with different names change places. *)
Theorem swapped_same a x y b : upper (cp_name x) <> upper (cp_name y) -> params_same (a ++ x :: y :: b) (a ++ y :: x :: b).
Proof.
  intros N n. unfold given. rewrite !filter_app. cbn [filter]. assert (Q : (if beq (upper (cp_name x)) n then x :: (if beq (upper (cp_name y)) n then y :: filter (fun p => beq (upper (cp_name p)) n) b else filter (fun p => beq (upper (cp_name p)) n) b) else if beq (upper (cp_name y)) n then y :: filter (fun p => beq (upper (cp_name p)) n) b else filter (fun p => beq (upper (cp_name p)) n) b) =
    (if beq (upper (cp_name y)) n then y :: (if beq (upper (cp_name x)) n then x :: filter (fun p => beq (upper (cp_name p)) n) b else filter (fun p => beq (upper (cp_name p)) n) b) else if beq (upper (cp_name x)) n then x :: filter (fun p => beq (upper (cp_name p)) n) b else filter (fun p => beq (upper (cp_name p)) n) b)).
  { destruct (beq (upper (cp_name x)) n) eqn:A, (beq (upper (cp_name y)) n) eqn:B; try reflexivity. apply beq_eq in A, B. congruence. }
  rewrite Q. set (l := filter _ a ++ _). induction l; constructor; auto using value_same_refl.
Qed.
(** The first value of a parameter that may be without quotes gets quotes. *)
Theorem quoted_value_same a n t more b : ~ In (upper n) quoted_params -> params_same (a ++ CParam n (Plain t) more :: b) (a ++ CParam n (Quoted t) more :: b).
Proof.
  intros N k. unfold given. rewrite !filter_app. apply Forall2_app; [induction (filter _ a); constructor; auto using value_same_refl|]. cbn [filter cp_name].
  assert (R : forall l, Forall2 (values_same k) l l) by (induction l; constructor; auto using value_same_refl).
  destruct (beq (upper n) k) eqn:E; [|apply R]. apply beq_eq in E. subst k. constructor; [|apply R]. unfold values_same. cbn [cp_first cp_more]. constructor; [split; [reflexivity|intros I; destruct (N I)]|]. clear. induction more; constructor; auto.
Qed.
Theorem params_same_trans a b c : params_same a b -> params_same b c -> params_same a c.
Proof.
  intros A B n. specialize (A n). specialize (B n). revert B. generalize (given n c). induction A as [|x y l l' V A IH]; intros m B; inversion B as [|? z ? m' V' B']; subst; constructor; [|apply IH; exact B'].
  clear - V V'. unfold values_same in *. revert V'. generalize (cp_first z :: cp_more z). induction V as [|u v k k' [T Q] V IH]; intros m V'; inversion V' as [|? w ? m' [T' Q'] V'']; subst; constructor; [|apply IH; exact V''].
  split; [congruence|]. intros I. rewrite (Q I). auto.
Qed.
End Spell.
