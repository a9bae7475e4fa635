(** The letter case of names. *)
From Coq Require Import String Ascii ZArith Bool List Lia.
From Verif Require Import Base Lib Strtok Tokeniser SpecContent TokeniserProofs GoTime Types Params ParamTable PropTable Props SecTable Sections Codec SpecTree TreeProofs ExactProofs SpecRules ShapeProofs RulesProofs SpecEdits AddProofs.
Import ListNotations.

(** ** Parameters of a line *)
Lemma pvalue_not_name v : ttype_eqb (t_type (pvalue_token v)) tokenParamName = false.
Proof. destruct v; reflexivity. Qed.
Lemma take_values_params : forall vs ps, take_values (map pvalue_token vs ++ params_tokens ps) = (map pvalue_token vs, params_tokens ps).
Proof.
  induction vs as [|v vs IH]; intros ps; cbn [map app].
  - destruct (params_tokens_head ps) as [-> | (n & ts & ->)]; reflexivity.
  - cbn [take_values]. rewrite pvalue_not_name, IH. reflexivity.
Qed.

Section Case.
Context {env : Env}.

Definition group_of (p : cparam) : bytes * list token := (upper (cp_name p), map pvalue_token (cp_first p :: cp_more p)).
Lemma groups_fuel_params : forall ps fuel, length (params_tokens ps) <= fuel -> groups_fuel fuel (params_tokens ps) = map group_of ps.
Proof.
  induction ps as [|p ps IH]; intros fuel L; [destruct fuel; reflexivity|]. rewrite params_tokens_cons in *. destruct fuel as [|fuel]; [cbn [length] in L; lia|].
  cbn [groups_fuel]. change (pvalue_token (cp_first p) :: map pvalue_token (cp_more p) ++ params_tokens ps) with (map pvalue_token (cp_first p :: cp_more p) ++ params_tokens ps) in *.
  rewrite take_values_params. cbn [map t_data]. unfold group_of at 1. f_equal. apply IH. cbn [length app map] in L. rewrite app_length in L. lia.
Qed.
Lemma groups_params ps : groups (params_tokens ps) = map group_of ps.
Proof. apply groups_fuel_params. lia. Qed.

Lemma prop_decode_like pid l l' : line_like l l' ->
  prop_decode pid (params_tokens (cl_params l)) (cl_value l) = prop_decode pid (params_tokens (cl_params l')) (cl_value l').
Proof.
  intros (_ & <- & P). assert (Q : groups (params_tokens (cl_params l)) = groups (params_tokens (cl_params l'))).
  { rewrite !groups_params. induction P as [|p q ps qs (A & B & C) _ IH]; [reflexivity|]. cbn [map]. rewrite IH. f_equal. unfold group_of, like in *. rewrite A, B, C. reflexivity. }
  unfold prop_decode. rewrite Q. reflexivity.
Qed.

(** ** Symmetry *)
Lemma Forall2_sym {A B} (R : A -> B -> Prop) (R' : B -> A -> Prop) : forall l l', (forall a b, In a l -> R a b -> R' b a) -> Forall2 R l l' -> Forall2 R' l' l.
Proof. intros l l' H F. induction F; constructor; [apply H; [left; reflexivity|assumption]|]. apply IHF. intros. apply H; [right; assumption|assumption]. Qed.
Lemma line_like_sym l l' : line_like l l' -> line_like l' l.
Proof. unfold line_like, like. intros (A & B & C). repeat split; [auto|auto|]. eapply Forall2_sym; [|exact C]. cbv beta. intros p q _ (D & E & F). auto. Qed.
Lemma begin_like_sym l l' : begin_like l l' -> begin_like l' l.
Proof. unfold begin_like, like. intros [A B]. auto. Qed.
Lemma alarm_like_sym l l' : alarm_line_like l l' -> alarm_line_like l' l.
Proof. intros [A B]. pose proof A as (U & _). unfold like in U. split; [apply line_like_sym; exact A|]. destruct B as [B|B]; [left; auto|right]. rewrite <- U. exact B. Qed.
Lemma ditem_len (i : ditem) items : In i items -> length (dlines i) <= length (flat_map dlines items).
Proof. intros I. induction items as [|j items IH]; [destruct I|]. cbn [flat_map]. rewrite app_length. destruct I as [->|I]; [lia|specialize (IH I); lia]. Qed.
Lemma dlike_sym : forall n d d', length (dlines d) <= n -> dlike d d' -> dlike d' d.
Proof.
  induction n as [|n IH]; intros d d' L H; destruct H as [l l' H|b b' body body' e e' A B F C]; cbn [dlines length] in L; try lia; [constructor; apply line_like_sym; exact H|].
  constructor; [unfold like in *; auto|auto| |apply begin_like_sym; exact C]. eapply Forall2_sym; [|exact F]. intros x y I. apply IH. pose proof (ditem_len x body I). rewrite app_length in L. lia.
Qed.
Lemma ilike_sym : forall n d d', length (ilines d) <= n -> ilike d d' -> ilike d' d.
Proof.
  induction n as [|n IH]; intros d d' L H; destruct H as [l l' H|b b' body body' e e' A F C|b b' body body' e e' A F C|b b' body body' e e' A F C]; cbn [ilines length] in L; try lia.
  - constructor. apply line_like_sym. exact H.
  - constructor; [apply begin_like_sym; exact A| |apply line_like_sym; exact C]. eapply Forall2_sym; [|exact F]. intros x y I. apply IH. pose proof (item_len x body I). rewrite app_length in L. lia.
  - constructor; [apply begin_like_sym; exact A| |apply alarm_like_sym; exact C]. eapply Forall2_sym; [|exact F]. intros x y _. apply alarm_like_sym.
  - constructor; [apply begin_like_sym; exact A| |apply begin_like_sym; exact C]. eapply Forall2_sym; [|exact F]. intros x y _. apply (dlike_sym _ _ _ (le_n _)).
Qed.

(** ** Skipped content *)
Lemma plain_like l l' : line_like l l' -> is_plain l -> is_plain l'.
Proof. intros (U & _) [A B]. unfold is_plain, is_begin, is_end, line_is, like in *. rewrite <- U. auto. Qed.
Lemma skippable_like : forall n d d', length (dlines d) <= n -> dlike d d' -> skippable d -> skippable d'.
Proof.
  induction n as [|n IH]; intros d d' L H Sk; destruct H as [l l' H|b b' body body' e e' A B F C]; cbn [dlines length] in L; try lia;
    [inversion Sk; subst; constructor; eapply plain_like; eauto|].
  inversion Sk as [|? ? ? Bb Ee V G]; subst. destruct C as [C1 C2]. unfold like, is_begin, is_end, line_is in *. constructor; unfold is_begin, is_end, line_is; try congruence.
  assert (LL : forall x, In x body -> length (dlines x) <= n) by (intros x I; pose proof (ditem_len x body I); rewrite app_length in L; lia).
  clear - F G IH LL. induction F as [|x y body body' H F IHF]; [constructor|]. inversion G; subst. constructor.
  - apply (IH x y); [apply LL; left; reflexivity|exact H|assumption].
  - apply IHF; [assumption|]. intros. apply LL. right. assumption.
Qed.
Lemma skippables_like ds ds' : Forall2 dlike ds ds' -> Forall skippable ds -> Forall skippable ds'.
Proof. intros F G. induction F; [constructor|]. inversion G; subst. constructor; [eapply skippable_like; eauto|auto]. Qed.

(** ** Lines back to items *)
Lemma dlike_lift : forall n ds L', length (flat_map dlines ds) <= n -> Forall2 line_like (flat_map dlines ds) L' -> exists ds', L' = flat_map dlines ds' /\ Forall2 dlike ds ds'.
Proof.
  induction n as [|n IH]; intros ds L' L F; (destruct ds as [|d ds]; [inversion F; subst; exists []; split; [reflexivity|constructor]|]).
  - destruct d; cbn [flat_map dlines app length] in L; lia.
  - cbn [flat_map] in F, L. rewrite app_length in L. apply Forall2_app_inv_l in F as (La & Lb & Fa & Fb & ->).
    assert (LD : 1 <= length (dlines d)) by (destruct d; cbn [dlines length]; lia). destruct (IH ds Lb ltac:(lia) Fb) as (ds' & -> & Fs).
    destruct d as [l|b body e]; cbn [dlines length] in Fa, L.
    + inversion Fa as [|? l' ? ? H T]; subst. inversion T; subst. exists (DLine l' :: ds'). split; [reflexivity|]. constructor; [constructor; exact H|exact Fs].
    + inversion Fa as [|? b' ? Lc H T]; subst. apply Forall2_app_inv_l in T as (Ld & Le & Fd & Fe & ->). inversion Fe as [|? e' ? ? He T]; subst. inversion T; subst.
      rewrite app_length in L. destruct (IH body Ld ltac:(lia) Fd) as (body' & -> & Fbody). exists (DComp b' body' e' :: ds'). split; [reflexivity|].
      constructor; [|exact Fs]. destruct H as (H1 & H2 & _). destruct He as (He1 & He2 & _). constructor; try assumption. split; [exact He1|]. unfold like. congruence.
Qed.
Lemma ilike_lift id : plain_sec id -> forall items L', Forall (shape_ok id) items -> Forall2 line_like (flat_map ilines items) L' ->
  exists items', L' = flat_map ilines items' /\ Forall2 ilike items items'.
Proof.
  intros [NC NA]. induction items as [|i items IH]; intros L' Sh F; [inversion F; subst; exists []; split; [reflexivity|constructor]|].
  inversion Sh as [|? ? Si Ss]; subst. cbn [flat_map] in F. apply Forall2_app_inv_l in F as (La & Lb & Fa & Fb & ->). destruct (IH Lb Ss Fb) as (is' & -> & Fs).
  inversion Si as [? l0 P0|? b0 body0 e0 sid0 B0 C0 G0 E0|? b0 body0 e0 B0 A0 V0 G0 E0|? b0 body0 e0 B0 E0 V0 G0 N0 M0]; subst.
  - cbn [ilines] in Fa. inversion Fa as [|? l' ? ? H T]; subst. inversion T; subst. exists (ILine l' :: is'). split; [reflexivity|]. constructor; [constructor; exact H|exact Fs].
  - rewrite NC in C0. destruct C0.
  - congruence.
  - cbn [ilines] in Fa. inversion Fa as [|? b' ? Lc H T]; subst. apply Forall2_app_inv_l in T as (Ld & Le & Fd & Fe & ->). inversion Fe as [|? e' ? ? He T]; subst. inversion T; subst.
    destruct (dlike_lift _ body0 Ld (le_n _) Fd) as (body' & -> & Fbody). exists (IOther b' body' e' :: is'). split; [reflexivity|].
    constructor; [|exact Fs]. destruct H as (H1 & H2 & _). destruct He as (He1 & He2 & _). constructor; [split; [exact H1|unfold like; congruence]|exact Fbody|split; [exact He1|unfold like; congruence]].
Qed.

Lemma alarm_names l l' n : alarm_line_like l l' -> In n [bs "BEGIN"; bs "END"; bs "ACTION"] -> upper n = n -> (cl_name l = n <-> cl_name l' = n).
Proof.
  intros [(U & _) [Q|N]] I Un; [rewrite Q; tauto|]. unfold like in U. split; intros Q; exfalso; apply N; [rewrite Q, Un; exact I|]. rewrite U, Q, Un. exact I.
Qed.

(** ** The same meaning *)
Lemma item_ok_like id i i' : ilike i i' -> item_ok id i -> item_ok id i'.
Proof.
  intros H. destruct H as [l l' H|b b' body body' e e' [A V] F C|b b' body body' e e' [A V] F C|b b' body body' e e' [A V] F [C1 C2]]; cbn [item_ok belongs]; unfold is_begin, is_end, line_is, like in *.
  - apply plain_like. exact H.
  - rewrite A, V. tauto.
  - rewrite A, V. tauto.
  - rewrite A, V, C1, C2. intros (H1 & H2 & H3 & H4 & H5). do 3 (split; [assumption|]). split; [eapply skippables_like; eauto|exact H5].
Qed.
Lemma belongs_like fd i i' : ilike i i' -> (belongs fd i <-> belongs fd i').
Proof.
  intros H. destruct H as [l l' (H & _)|b b' body body' e e' [A V] F C|b b' body body' e e' [A V] F C|b b' body body' e e' [A V] F [C1 C2]]; cbn [belongs]; unfold line_is, like in *; [rewrite H|rewrite V|rewrite V|]; tauto.
Qed.

Lemma means_like : forall n id items items' x, length (flat_map ilines items) <= n -> means id items x -> Forall2 ilike items items' -> means id items' x.
Proof.
  induction n as [n IH] using lt_wf_ind. intros id items items' x L M F.
  assert (ITEM : forall i i' t v, In i items -> ilike i i' -> item_means t i v -> item_means t i' v).
  { intros i i' t v I H IM. pose proof (item_len i items I) as LI. destruct H as [l l' H|b b' body body' e e' B F0 E|b b' body body' e e' B F0 E|b b' body body' e e' B F0 E];
      inversion IM as [pid ? p D|sid ? ? ? y My Ey Vy|? ? ? us w sid sub e0 more y Fb Ne A Fu Aw Q E0 V0 M0]; subst.
    - constructor. rewrite <- (prop_decode_like _ _ _ H). exact D.
    - cbn [ilines length] in LI. rewrite app_length in LI. cbn [length] in LI. destruct E as (E1 & E2 & _). unfold is_end, line_is, like in *. constructor; [|unfold is_end, line_is; congruence|congruence].
      apply (IH (length (flat_map ilines body)) ltac:(lia) sid body body' y (le_n _) My F0).
    - assert (NB : upper (bs "BEGIN") = bs "BEGIN") by reflexivity. assert (NE : upper (bs "END") = bs "END") by reflexivity. assert (NAc : upper (bs "ACTION") = bs "ACTION") by reflexivity.
      assert (FL : Forall2 line_like (body ++ [e]) (body' ++ [e'])).
      { apply Forall2_app; [|constructor; [apply E|constructor]]. clear - F0. induction F0; constructor; [apply H|assumption]. }
      rewrite Q in FL. apply Forall2_app_inv_l in FL as (La & Lb & Fa & Fb2 & Q'). destruct (alarm_plain _ _ Aw) as [PS _].
      destruct (ilike_lift sid PS sub La (means_shape _ _ _ _ (le_n _) M0) Fa) as (sub' & -> & Fsub). cbn [app] in Fb2. inversion Fb2 as [|? e1 ? more' (He1 & He2 & _) _]; subst.
      cbn [ilines length] in LI. rewrite Q in LI. rewrite !app_length in LI. cbn [length] in LI.
      assert (M1 : means sid sub' y) by (apply (IH (length (flat_map ilines sub)) ltac:(lia) sid sub sub' y (le_n _) M0 Fsub)).
      eapply IM_alarm with (us := us) (w := w); [| |rewrite <- A|exact Fu|exact Aw|exact Q'|unfold is_end, line_is, like in *; congruence|congruence|exact M1].
      + clear - Fb F0 NB NE. induction F0 as [|a a' k k' H F0 IHF]; [constructor|]. inversion Fb as [|? ? [N1 N2] Fb']; subst. constructor; [|auto]. split; intros Q; [apply N1|apply N2];
          (eapply alarm_names; [exact H|cbn [In]; tauto| |exact Q]; assumption).
      + apply (proj1 (alarm_names _ _ (bs "END") E ltac:(cbn [In]; tauto) NE)). exact Ne.
      + clear - F0 NAc. unfold values_named. induction F0 as [|a a' k k' H F0 IHF]; [reflexivity|]. cbn [filter].
        pose proof (alarm_names _ _ (bs "ACTION") H ltac:(cbn [In]; tauto) NAc) as AN. destruct (beq (cl_name a) (bs "ACTION")) eqn:B1; destruct (beq (cl_name a') (bs "ACTION")) eqn:B2; cbn [map].
        * rewrite IHF. f_equal. destruct H as [(_ & V & _) _]. auto.
        * apply beq_eq in B1. apply beq_neq in B2. tauto.
        * apply beq_neq in B1. apply beq_eq in B2. tauto.
        * exact IHF. }
  destruct M as [id items fs Ok Lf H X]. constructor; [|exact Lf| |exact X].
  - clear - F Ok. induction F; [constructor|]. inversion Ok; subst. constructor; [eapply item_ok_like; eauto|auto].
  - intros i fd N. destruct (H i fd N) as [Ho C]. split; [|exact C]. generalize (nth i fs []), Ho. clear - F ITEM. induction F as [|a a' k k' HL F IHF]; intros vs Ho; [exact Ho|].
    assert (IHF' := fun vs Ho => IHF (fun i i' t v I => ITEM i i' t v (or_intror I)) vs Ho). clear IHF.
    inversion Ho as [|? ? ? ? NB H1|? ? ? v vs1 B M1 H1]; subst.
    + apply H_skip; [|auto]. rewrite <- (belongs_like fd _ _ HL). exact NB.
    + apply H_take; [rewrite <- (belongs_like fd _ _ HL); exact B| |auto]. eapply ITEM; eauto. left. reflexivity.
Qed.

Lemma decode_case b items e b' items' e' tail : framed b items e -> framed b' items' e' -> rest_ok tail ->
  begin_like b b' -> Forall2 ilike items items' -> line_like e e' ->
  same_result (decode_bytes (frame_text b items e ++ tail)) (decode_bytes (frame_text b' items' e' ++ tail)).
Proof.
  intros F F' T B I E cal. rewrite !decode_frame by assumption. destruct E as (_ & -> & _). split; intros [M V]; (split; [|exact V]).
  - eapply means_like; eauto.
  - eapply means_like; [apply le_n|exact M|]. eapply Forall2_sym; [|exact I]. intros x y _. apply (ilike_sym _ _ _ (le_n _)).
Qed.
End Case.
