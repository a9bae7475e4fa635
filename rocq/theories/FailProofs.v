(** The failures of the decoder of components, exactly. *)
From Coq Require Import String Ascii ZArith Bool List Lia.
From Verif Require Import Base Lib Strtok Tokeniser SpecContent TokeniserProofs GoTime Types Params ParamTable PropTable Props SecTable Sections Codec SpecTree TreeProofs ExactProofs SpecBadLine SpecFail.
Import ListNotations.

Section Fail.
Context {env : Env}.

Lemma bind_fail {A B} (r : res A) (k : A -> res B) f : bind r k = fail_res f -> (exists x, r = Ok x /\ k x = fail_res f) \/ r = fail_res f.
Proof. destruct r as [x|e| |]; cbn [bind]; intros H; [left; eauto|right|right|destruct f; discriminate]; destruct f; cbn [fail_res] in *; congruence. Qed.
Lemma fail_bind {A B} (k : A -> res B) f : bind (fail_res f) k = fail_res f.
Proof. destruct f; reflexivity. Qed.
Lemma fail_inj A f g : @fail_res A f = fail_res g -> f = g.
Proof. destruct f, g; cbn [fail_res]; congruence. Qed.
Lemma fail_err A e f : @Err A e = fail_res f -> f = Failed e.
Proof. intros H. apply (fail_inj A). rewrite <- H. reflexivity. Qed.
Lemma fail_panic A f : @Panic A = fail_res f -> f = Panicked.
Proof. intros H. apply (fail_inj A). rewrite <- H. reflexivity. Qed.
Lemma fail_ok A x f : @Ok A x <> fail_res f.
Proof. destruct f; discriminate. Qed.

(** ** What a source yields *)
Definition ends (s : src) (en : ending) : Prop :=
  match en with
  | AtEnd => exists s1, get_ph s = Ok (PhraseDone, s1)
  | AtBad e => (exists z, s = SrcTok z) /\ get_ph s = Err e
  | AtList => s = SrcList []
  end.
Inductive feeds : src -> list cline -> ending -> Prop :=
| feeds_nil s en : ends s en -> feeds s [] en
| feeds_cons s l s1 ls en : get_ph s = Ok (PhraseLine (cline_tokens l), s1) -> feeds s1 ls en -> feeds s (l :: ls) en.

Lemma feeds_split a : forall s b en, feeds s (a ++ b) en -> exists s1, reads s a s1 /\ feeds s1 b en.
Proof.
  induction a as [|l a IH]; intros s b en H; cbn [app] in H.
  - exists s. split; [constructor|exact H].
  - inversion H as [|? ? s1 ? ? G R]; subst. destruct (IH _ _ _ R) as (s3 & R1 & R2). exists s3. split; [econstructor; eauto|exact R2].
Qed.
Lemma feeds_reads s a s1 : reads s a s1 -> forall ls en, feeds s ls en -> exists b, ls = a ++ b /\ feeds s1 b en.
Proof.
  induction 1 as [s|s l s1 a s2 G R IH]; intros ls en H.
  - exists ls. split; [reflexivity|exact H].
  - destruct H as [s en E|s l' s3 ls en G' H].
    + exfalso. destruct en; cbn [ends] in E; [destruct E as [? E]|destruct E as [_ E]|subst s; discriminate G]; congruence.
    + rewrite G in G'. apply Ok_inj in G'. assert (T : cline_tokens l = cline_tokens l') by congruence. assert (Q : s3 = s1) by congruence.
      apply cline_tokens_inj in T. subst l' s3. destruct (IH _ _ H) as (b & -> & F). exists b. split; [reflexivity|exact F].
Qed.

Lemma feeds_list ls : feeds (SrcList (as_phrases ls)) ls AtList.
Proof. induction ls as [|l ls IH]; [constructor; reflexivity|]. econstructor; [reflexivity|exact IH]. Qed.

Lemma feeds_total s : src_ok s -> exists ls en, feeds s ls en /\ wf_lines ls.
Proof.
  remember (size s) as n eqn:N. revert s N. induction n as [n IH] using lt_wf_ind. intros s -> O.
  destruct (get_ph s) as [[[data|] s1]|e| |] eqn:G.
  - destruct (get_ph_line s data s1 O G) as (l & -> & W & O1). pose proof (get_ph_size _ _ _ O G) as L.
    destruct (IH (size s1) L s1 eq_refl O1) as (ls & en & F & Wl). exists (l :: ls), en. split; [econstructor; eauto|constructor; assumption].
  - exists [], AtEnd. split; [|constructor]. constructor. cbn [ends]. eauto.
  - destruct O as [z s R|ls W].
    + exists [], (AtBad e). split; [|constructor]. constructor. cbn [ends]. eauto.
    + exists ls, AtList. split; [apply feeds_list|exact W].
  - destruct (get_ph_total s O). congruence.
  - destruct (get_ph_total s O). congruence.
Qed.

(** ** Skipped components *)
Lemma skip_fault_line n l ls en f : is_plain l -> skip_fault n ls en f -> skip_fault n (l :: ls) en f.
Proof.
  intros P H. assert (K : skippable (DLine l)) by (constructor; exact P). destruct H as [n ds en F|n ds e more en F E V|n ds b ls en f F B H].
  - apply (Sf_end n (DLine l :: ds) en). constructor; assumption.
  - apply (Sf_name n (DLine l :: ds) e more en); [constructor; assumption|assumption|assumption].
  - apply (Sf_in n (DLine l :: ds) b ls en f); [constructor; assumption|assumption|assumption].
Qed.
Lemma skip_fault_comp n b ds0 e0 ls en f : is_begin b -> is_end e0 -> upper (cl_value e0) = cl_value b -> Forall skippable ds0 ->
  skip_fault n ls en f -> skip_fault n (b :: (flat_map dlines ds0 ++ [e0]) ++ ls) en f.
Proof.
  intros B E V F0 H. assert (K : skippable (DComp b ds0 e0)) by (constructor; assumption).
  destruct H as [n ds en F|n ds e more en F E' V'|n ds b' ls en f F B' H].
  - apply (Sf_end n (DComp b ds0 e0 :: ds) en). constructor; assumption.
  - change (b :: (flat_map dlines ds0 ++ [e0]) ++ flat_map dlines ds ++ e :: more) with (dlines (DComp b ds0 e0) ++ flat_map dlines ds ++ e :: more).
    rewrite app_assoc. apply (Sf_name n (DComp b ds0 e0 :: ds) e more en); [constructor; assumption|assumption|assumption].
  - change (b :: (flat_map dlines ds0 ++ [e0]) ++ flat_map dlines ds ++ b' :: ls) with (dlines (DComp b ds0 e0) ++ flat_map dlines ds ++ b' :: ls).
    rewrite app_assoc. apply (Sf_in n (DComp b ds0 e0 :: ds) b' ls en f); [constructor; assumption|assumption|assumption].
Qed.

Lemma end_fails {B} s en (k : phrase * src -> res B) f : ends s en -> (forall s1, k (PhraseDone, s1) = Err ErrUnexpectedEOF) ->
  (bind (get_ph s) k = fail_res f <-> f = end_fail en).
Proof.
  intros E K. destruct en as [|e|]; cbn [ends end_fail] in *.
  - destruct E as [s1 E]. rewrite E. cbn [bind]. rewrite K. split; [apply fail_err|intros ->; reflexivity].
  - destruct E as [_ E]. rewrite E. cbn [bind]. split; [apply fail_err|intros ->; reflexivity].
  - subst s. cbn [get_ph bind]. split; [apply fail_err|intros ->; reflexivity].
Qed.

Lemma skip_fail_sound : forall fuel n s ls en f, src_ok s -> feeds s ls en -> dec_dummy fuel n s = fail_res f -> skip_fault n ls en f.
Proof.
  induction fuel as [|fuel IH]; intros n s ls en f O F H; [destruct f; discriminate|]. cbn [dec_dummy] in H.
  destruct F as [s en E|s l s1 ls en G F].
  - apply (end_fails s en) in H; [|exact E|reflexivity]. subst f. apply (Sf_end n [] en). constructor.
  - rewrite G in H. cbn [bind] in H. destruct (get_ph_line s _ s1 O G) as (l' & Q & W & O1). apply cline_tokens_inj in Q. subst l'.
    rewrite parts_tokens in H. cbn [bind] in H. destruct (beq (upper (cl_name l)) (bs "BEGIN")) eqn:B.
    + apply beq_eq in B. apply bind_fail in H as [(s2 & D & H)|H].
      * apply skip_sound in D as (ds & e & R & Wd & Fd & E & V & O2); [|exact O1].
        destruct (feeds_reads _ _ _ R _ _ F) as (b & -> & Fb). apply skip_fault_comp; try assumption. eapply IH; [exact O2|exact Fb|exact H].
      * apply (Sf_in n [] l ls en f); [constructor|exact B|]. eapply IH; eauto.
    + apply beq_neq in B. destruct (beq (upper (cl_name l)) (bs "END")) eqn:E.
      * apply beq_eq in E. destruct (beq (upper (cl_value l)) n) eqn:V; [destruct (fail_ok _ _ _ H)|]. apply beq_neq in V. apply fail_err in H. subst f.
        apply (Sf_name n [] l ls en); [constructor|exact E|exact V].
      * apply beq_neq in E. apply skip_fault_line; [split; assumption|]. eapply IH; eauto.
Qed.

(** The loop after the first components of the content. *)
Lemma skip_progress : forall fuel n ds rest s en, feeds s (flat_map dlines ds ++ rest) en -> Forall skippable ds ->
  length (flat_map dlines ds ++ rest) < fuel ->
  exists fuel' s', length rest < fuel' <= fuel /\ feeds s' rest en /\ dec_dummy fuel n s = dec_dummy fuel' n s'.
Proof.
  induction fuel as [|fuel IH]; intros n ds rest s en F K L; [lia|]. destruct ds as [|d ds].
  - exists (S fuel), s. cbn [flat_map app] in *. split; [lia|]. split; [exact F|reflexivity].
  - inversion K as [|? ? K0 K1]; subst. cbn [dec_dummy]. destruct K0 as [l P|b body e B E V Kb]; cbn [flat_map dlines app] in F, L.
    + inversion F as [|? ? s1 ? ? G F1]; subst. cbn [length] in L. rewrite G. cbn [bind]. rewrite parts_tokens. cbn [bind].
      destruct (plain_tests l P) as [-> ->]. destruct (IH n ds rest s1 en F1 K1) as (f' & s' & L' & F' & Q); [lia|].
      exists f', s'. split; [lia|]. auto.
    + inversion F as [|? ? s1 ? ? G F1]; subst. rewrite G. cbn [bind]. rewrite parts_tokens. cbn [bind].
      unfold is_begin, line_is in B. rewrite B, beq_refl. rewrite <- app_assoc in F1. apply feeds_split in F1 as (s2 & R & F2).
      cbn [length] in L. repeat (rewrite app_length in L; cbn [length] in L).
      rewrite (skip_complete fuel (cl_value b) body e s1 s2 R Kb E V) by lia. cbn [bind].
      destruct (IH n ds rest s2 en F2 K1) as (f' & s' & L' & F' & Q); [rewrite app_length; lia|].
      exists f', s'. split; [lia|]. auto.
Qed.

Lemma skip_fail_complete : forall fuel n ls en f s, skip_fault n ls en f -> feeds s ls en -> length ls < fuel -> dec_dummy fuel n s = fail_res f.
Proof.
  intros fuel. induction fuel as [fuel IH] using lt_wf_ind. intros n ls en f s H F L.
  destruct H as [n ds en K|n ds e more en K E V|n ds b ls en f K B H].
  - rewrite <- (app_nil_r (flat_map dlines ds)) in F, L. destruct (skip_progress fuel n ds [] s en F K L) as (f' & s' & L' & F' & ->).
    destruct f' as [|f']; [lia|]. cbn [dec_dummy]. inversion F' as [? ? E|]; subst. apply (end_fails s' en); [exact E|reflexivity|reflexivity].
  - destruct (skip_progress fuel n ds (e :: more) s en F K L) as (f' & s' & L' & F' & ->). destruct f' as [|f']; [cbn in L'; lia|]. cbn [dec_dummy].
    inversion F' as [|? ? s1 ? ? G F1]; subst. rewrite G. cbn [bind]. rewrite parts_tokens. cbn [bind]. unfold is_end, line_is in E. rewrite E.
    change (beq (bs "END") (bs "BEGIN")) with false. rewrite beq_refl. apply beq_neq in V. rewrite V. reflexivity.
  - destruct (skip_progress fuel n ds (b :: ls) s en F K L) as (f' & s' & L' & F' & ->). cbn [length] in L'. destruct f' as [|f']; [lia|]. cbn [dec_dummy].
    inversion F' as [|? ? s1 ? ? G F1]; subst. rewrite G. cbn [bind]. rewrite parts_tokens. cbn [bind]. unfold is_begin, line_is in B. rewrite B, beq_refl.
    rewrite (IH f' ltac:(lia) (cl_value b) ls en f s1 H F1) by lia. apply fail_bind.
Qed.

(** ** Alarms: gathering the lines *)
Inductive stop_kind (ty' : option secid) (en : ending) : list cline -> fail -> Prop :=
| Sk_end : stop_kind ty' en [] (alarm_end_fail en)
| Sk_begin l more : cl_name l = bs "BEGIN" -> stop_kind ty' en (l :: more) (Failed ErrInvalidStructure)
| Sk_action l more : cl_name l = bs "ACTION" -> ty' <> None -> stop_kind ty' en (l :: more) (Failed ErrInvalidStructure).

Lemma alarm_end_fails {B} s en (k : phrase * src -> res B) f : ends s en -> (forall s1, k (PhraseDone, s1) = Panic) ->
  (bind (get_ph s) k = fail_res f <-> f = alarm_end_fail en).
Proof.
  intros E K. destruct en as [|e|]; cbn [ends alarm_end_fail] in *.
  - destruct E as [s1 E]. rewrite E. cbn [bind]. rewrite K. split; [apply fail_panic|intros ->; reflexivity].
  - destruct E as [_ E]. rewrite E. cbn [bind]. split; [apply fail_err|intros ->; reflexivity].
  - subst s. cbn [get_ph bind]. split; [apply fail_err|intros ->; reflexivity].
Qed.

Lemma ty_after_nil ty : ty_after ty [] ty.
Proof. unfold ty_after. destruct ty; [auto|]. right. split; [constructor|reflexivity]. Qed.
Lemma ty_after_nil_inv ty ty' : ty_after ty [] ty' -> ty' = ty.
Proof. unfold ty_after. destruct ty as [id|]; [intros [_ H]; exact H|]. intros [(us & w & id & H & _)|[_ H]]; [destruct us; discriminate|exact H]. Qed.

Lemma ty_after_cons w acts ty' : ty_after (alarm_of_word w) acts ty' <-> ty_after None (w :: acts) ty'.
Proof.
  unfold ty_after. destruct (alarm_of_word w) as [id|] eqn:A.
  - apply action_spec in A. split.
    + intros [-> ->]. left. exists [], w, id. split; [reflexivity|]. split; [constructor|]. auto.
    + intros [(us & u & id' & H & F & U & ->)|[F _]].
      * destruct us as [|u' us]; cbn [app] in H; injection H as -> ->; [|inversion F as [|? ? F0 F1]; subst; destruct (F0 id A)]. split; [reflexivity|].
        apply action_spec in A, U. congruence.
      * inversion F as [|? ? F0 F1]; subst. destruct (F0 id A).
  - pose proof (proj1 (action_none _) A) as A'. split.
    + intros [(us & u & id & -> & F & U & ->)|[F ->]].
      * left. exists (w :: us), u, id. split; [reflexivity|]. split; [constructor; assumption|]. auto.
      * right. split; [constructor; assumption|reflexivity].
    + intros [(us & u & id & H & F & U & ->)|[F ->]].
      * destruct us as [|u' us]; cbn [app] in H; injection H as -> ->; [destruct (A' id U)|]. inversion F as [|? ? F0 F1]; subst. left. exists us, u, id. auto.
      * inversion F; subst. right. auto.
Qed.

Lemma gather_fail_sound : forall fuel ty acc s ls en f, src_ok s -> feeds s ls en -> gather fuel ty acc s = fail_res f ->
  exists body more ty', ls = body ++ more /\ alarm_lines body /\ ty_after ty (values_named (bs "ACTION") body) ty' /\ stop_kind ty' en more f.
Proof.
  induction fuel as [|fuel IH]; intros ty acc s ls en f O F H; [destruct f; discriminate|]. cbn [gather] in H.
  destruct F as [s en E|s l s1 ls en G F].
  - apply (alarm_end_fails s en) in H; [|exact E|reflexivity]. subst f. exists [], [], ty. split; [reflexivity|]. split; [constructor|]. split; [apply ty_after_nil|constructor].
  - rewrite G in H. cbn [bind] in H. destruct (get_ph_line s _ s1 O G) as (l' & Q & W & O1). apply cline_tokens_inj in Q. subst l'.
    rewrite parts_tokens in H. cbn [bind] in H. destruct (beq (cl_name l) (bs "BEGIN")) eqn:B.
    + apply beq_eq in B. apply fail_err in H. subst f. exists [], (l :: ls), ty. split; [reflexivity|]. split; [constructor|]. split; [apply ty_after_nil|constructor; exact B].
    + apply beq_neq in B. destruct (beq (cl_name l) (bs "ACTION")) eqn:A.
      * apply beq_eq in A. destruct ty as [id|].
        -- apply fail_err in H. subst f. exists [], (l :: ls), (Some id). split; [reflexivity|]. split; [constructor|]. split; [apply ty_after_nil|apply Sk_action; [exact A|discriminate]].
        -- apply (IH _ _ _ _ _ _ O1 F) in H as (body & more & ty' & -> & Al & T & K). exists (l :: body), more, ty'. split; [reflexivity|].
           split; [constructor; [split; [exact B|rewrite A; discriminate]|exact Al]|]. split; [|exact K].
           unfold values_named. cbn [filter]. rewrite A, beq_refl. cbn [map]. apply ty_after_cons. exact T.
      * destruct (beq (cl_name l) (bs "END")) eqn:E; [destruct (fail_ok _ _ _ H)|]. apply beq_neq in E.
        apply (IH _ _ _ _ _ _ O1 F) in H as (body & more & ty' & -> & Al & T & K). exists (l :: body), more, ty'. split; [reflexivity|].
        split; [constructor; [split; assumption|exact Al]|]. split; [|exact K]. unfold values_named. cbn [filter]. rewrite A. exact T.
Qed.

Lemma gather_fail_complete : forall fuel ty acc s body more ty' en f, feeds s (body ++ more) en -> alarm_lines body ->
  ty_after ty (values_named (bs "ACTION") body) ty' -> stop_kind ty' en more f -> length body < fuel -> gather fuel ty acc s = fail_res f.
Proof.
  induction fuel as [|fuel IH]; intros ty acc s body more ty' en f F Al T K L; [lia|]. cbn [gather]. destruct body as [|l body]; cbn [app length] in *.
  - apply ty_after_nil_inv in T. subst ty'. destruct K as [|l more B|l more A N].
    + inversion F as [? ? E|]; subst. apply (alarm_end_fails s en); [exact E|reflexivity|reflexivity].
    + inversion F as [|? ? s1 ? ? G F1]; subst. rewrite G. cbn [bind]. rewrite parts_tokens. cbn [bind]. rewrite B, beq_refl. reflexivity.
    + inversion F as [|? ? s1 ? ? G F1]; subst. rewrite G. cbn [bind]. rewrite parts_tokens. cbn [bind]. rewrite A. change (beq (bs "ACTION") (bs "BEGIN")) with false. rewrite beq_refl.
      destruct ty; [reflexivity|congruence].
  - inversion F as [|? ? s1 ? ? G F1]; subst. rewrite G. cbn [bind]. rewrite parts_tokens. cbn [bind]. inversion Al as [|? ? [B E] Al1]; subst.
    apply beq_neq in B, E. rewrite B, E. unfold values_named in T. cbn [filter] in T. destruct (beq (cl_name l) (bs "ACTION")) eqn:A.
    + cbn [map] in T. destruct ty as [id|]; [destruct T; discriminate|]. apply ty_after_cons in T. eapply IH; eauto. lia.
    + eapply IH; eauto. lia.
Qed.

Lemma action_ty body ty : action_so_far body ty <-> ty_after None (values_named (bs "ACTION") body) ty.
Proof.
  unfold action_so_far, ty_after. destruct ty as [sid|]; split.
  - intros (us & w & E & F & A). left. exists us, w, sid. auto.
  - intros [(us & w & id & E & F & A & Q)|[_ Q]]; [|discriminate]. injection Q as ->. exists us, w. auto.
  - intros F. right. auto.
  - intros [(us & w & id & E & F & A & Q)|[F _]]; [discriminate|exact F].
Qed.

(** ** Components *)
Lemma sec_many id fd : In fd (fields_of id) -> sec_field fd = true -> fd_mode fd = FMany.
Proof.
  intros H Sf. assert (T : forallb (fun id => forallb (fun f => negb (sec_field f) || match fd_mode f with FMany => true | _ => false end) (fields_of id)) all_secs = true) by (vm_compute; reflexivity).
  rewrite forallb_forall in T. specialize (T id (all_secs_in id)). cbv beta in T. rewrite forallb_forall in T. specialize (T fd H). cbv beta in T. rewrite Sf in T. cbn [negb orb] in T.
  destruct (fd_mode fd); [discriminate|discriminate|reflexivity].
Qed.

Lemma present_true {A} (fs : list (list A)) i : present fs i = true <-> nth i fs [] <> [].
Proof. unfold present. destruct (nth i fs []); intuition congruence. Qed.
Lemma present_false {A} (fs : list (list A)) i : present fs i = false <-> nth i fs [] = [].
Proof. unfold present. destruct (nth i fs []); intuition congruence. Qed.
Lemma full_true fd i fs : full fd i fs = true <-> fd_mode fd <> FMany /\ present fs i = true.
Proof. rewrite full_spec, present_true. reflexivity. Qed.
Lemma full_false fd i fs : full fd i fs = false <-> fd_mode fd = FMany \/ present fs i = false.
Proof. unfold full, present. destruct (fd_mode fd), (nth i fs []); cbn [isnil negb]; intuition congruence. Qed.

Lemma finish_fails id fs f : length fs = length (fields_of id) -> (finish id fs = fail_res f <->
  (f = Failed ErrMissingRequired /\ exists i fd, nth_error (fields_of id) i = Some fd /\ fd_mode fd = FReq /\ present fs i = false) \/
  (f = Failed ErrRequirementNotMet /\ (forall i fd, nth_error (fields_of id) i = Some fd -> fd_mode fd = FReq -> present fs i = true) /\
   exists r, In r (sp_reqs (sec_spec id)) /\ ~ extra_ok (present fs) r)).
Proof.
  intros L. assert (MF : missing (fields_of id) fs = false <-> forall i fd, nth_error (fields_of id) i = Some fd -> fd_mode fd = FReq -> present fs i = true).
  { rewrite (missing_false _ _ L). split; intros H i fd N M; [apply present_true|apply present_true]; eauto. }
  assert (MT : missing (fields_of id) fs = true -> exists i fd, nth_error (fields_of id) i = Some fd /\ fd_mode fd = FReq /\ present fs i = false).
  { clear MF. revert fs L. generalize (fields_of id). induction l as [|g l IH]; intros [|v fs] L M; cbn [length missing] in *; try discriminate.
    apply orb_true_iff in M as [M|M].
    - exists 0, g. cbn [nth_error]. destruct (fd_mode g) eqn:Mg; try discriminate M. split; [reflexivity|]. split; [reflexivity|]. unfold present. cbn [nth]. destruct v; [reflexivity|discriminate].
    - destruct (IH fs ltac:(lia) M) as (i & fd & A & B & C). exists (S i), fd. cbn [nth_error]. auto. }
  unfold finish. destruct (missing (fields_of id) fs) eqn:M.
  - split.
    + intros H. apply fail_err in H. left. auto.
    + intros [[-> _]|(_ & H & _)]; [reflexivity|]. apply MF in H. congruence.
  - pose proof (proj1 MF eq_refl) as M'. destruct (forallb (req_ok fs) (sp_reqs (sec_spec id))) eqn:Q.
    + split; [intros H; destruct (fail_ok _ _ _ H)|]. intros [(_ & i & fd & A & B & C)|(_ & _ & r & I & X)].
      * rewrite (M' i fd A B) in C. discriminate.
      * rewrite forallb_forall in Q. destruct X. apply req_ok_spec, Q, I.
    + split.
      * intros H. apply fail_err in H. right. split; [exact H|]. split; [exact M'|].
        assert (X : existsb (fun r => negb (req_ok fs r)) (sp_reqs (sec_spec id)) = true).
        { destruct (existsb (fun r => negb (req_ok fs r)) (sp_reqs (sec_spec id))) eqn:X; [reflexivity|]. rewrite existsb_false in X.
          rewrite <- Q. apply forallb_forall. intros r I. specialize (X r I). cbv beta in X. destruct (req_ok fs r); [reflexivity|discriminate]. }
        apply existsb_exists in X as (r & I & X). exists r. split; [exact I|]. intros Ex. apply req_ok_spec in Ex. rewrite Ex in X. discriminate.
      * intros [(_ & i & fd & A & B & C)|(-> & _)]; [rewrite (M' i fd A B) in C; discriminate|reflexivity].
Qed.

Lemma so_far_grown id items fs : so_far id items fs <-> Forall (item_ok id) items /\ grown id (no_fields id) items fs.
Proof.
  unfold so_far, grown. split.
  - intros (I & L & H). split; [exact I|]. split; [exact L|]. intros i fd N. destruct (H i fd N) as [A B]. exists (nth i fs []). rewrite no_fields_nth. auto.
  - intros (I & L & H). split; [exact I|]. split; [exact L|]. intros i fd N. destruct (H i fd N) as (vs & A & B & C). rewrite no_fields_nth in B, C. cbn [app] in B. subst vs.
    split; [exact A|]. intros M. apply C; [exact M|cbn; lia].
Qed.

Lemma not_prop_key id fd : In fd (fields_of id) -> is_prop_field (bs "END") fd = false.
Proof. intros H. destruct (is_prop_field (bs "END") fd) eqn:P; [|reflexivity]. apply prop_field_true in P as [_ P]. destruct (proj2 (table_ok id) fd H). contradiction. Qed.

Lemma grown_refl id fs : length fs = length (fields_of id) -> grown id fs [] fs.
Proof. intros L. split; [exact L|]. intros i fd N. exists []. split; [constructor|]. rewrite app_nil_r. auto. Qed.

Lemma dec_sec_fail_sound : forall fuel id fs s ls en f, src_ok s -> length fs = length (fields_of id) -> feeds s ls en ->
  dec_sec fuel id fs s = fail_res f -> exists items fs' rest, ls = flat_map ilines items ++ rest /\ Forall (item_ok id) items /\
    grown id fs items fs' /\ breaks id fs' rest en f.
Proof.
  induction fuel as [|fuel IH]; intros id fs s ls en f O L F H; [destruct f; discriminate|].
  assert (FAULT : forall sid s ls en f, src_ok s -> feeds s ls en -> dec_sec fuel sid (no_fields sid) s = fail_res f -> fault sid ls en f).
  { clear - IH. intros sid s ls en f O F D. apply (IH _ _ _ _ _ _ O (no_fields_length sid) F) in D as (items & fs' & rest & -> & I & G & B).
    apply (Fault sid items fs'); [|exact B]. apply so_far_grown. auto. }
  assert (HERE : forall rest, breaks id fs rest en f -> exists items fs' rest0, rest = flat_map ilines items ++ rest0 /\ Forall (item_ok id) items /\
    grown id fs items fs' /\ breaks id fs' rest0 en f).
  { intros rest B. exists [], fs, rest. split; [reflexivity|]. split; [constructor|]. split; [apply grown_refl; exact L|exact B]. }
  cbn [dec_sec] in H. destruct F as [s en E|s l s1 ls en G F].
  - apply (end_fails s en) in H; [|exact E|reflexivity]. subst f. apply HERE. constructor.
  - rewrite G in H. cbn [bind] in H. destruct (get_ph_line s _ s1 O G) as (l' & Q & W & O1). apply cline_tokens_inj in Q. subst l'.
    rewrite parts_tokens in H. cbn [bind] in H. destruct (beq (upper (cl_name l)) (bs "BEGIN")) eqn:B.
    + apply beq_eq in B. destruct (find_field (is_sec_field (upper (cl_value l))) (fields_of id)) as [[i fd]|] eqn:FF.
      * apply find_field_some in FF as [N Pf]. apply sec_field_true in Pf as [Sf Kf]. pose proof (nth_error_In _ _ N) as Ifd.
        assert (Fu : full fd i fs = false) by (apply full_false; left; eapply sec_many; eauto). rewrite Fu in H.
        destruct (fd_type fd) as [pid|sid|] eqn:T; [unfold sec_field in Sf; rewrite T in Sf; discriminate| |].
        -- apply bind_fail in H as [([y s2] & D & H)|H].
           ++ apply dec_sec_means in D as (body & e & R & Wb & O2 & E & V & M); [|exact O1]. destruct (feeds_reads _ _ _ R _ _ F) as (b & -> & Fb).
              apply (IH _ _ _ _ _ _ O2 (eq_trans (add_field_length _ _ _) L) Fb) in H as (items & fs' & rest & -> & I & Gr & Br).
              assert (Bl : belongs fd (IComp l body e)) by (unfold belongs; rewrite T; auto).
              exists (IComp l body e :: items), fs', rest. split; [cbn [flat_map ilines]; rewrite <- !app_assoc; cbn [app]; rewrite <- !app_assoc; reflexivity|].
              split; [constructor; [|exact I]; cbn [item_ok]; split; [exact B|]; exists fd, sid; auto|]. split; [|exact Br].
              eapply grown_take; try eassumption. rewrite T. constructor; assumption.
           ++ apply HERE. eapply Br_comp; try eassumption; [symmetry; exact Kf|]. eapply FAULT; eauto.
        -- apply bind_fail in H as [([[pt ty] s2] & D & H)|H].
           ++ apply gather_sound in D as (body & e & R & Wb & P & Fb & Ne & Ta & O2); [|exact O1]. cbn [app] in P. subst pt.
              destruct (feeds_reads _ _ _ R _ _ F) as (b & -> & Fb2). rewrite <- app_assoc. cbn [app].
              destruct ty as [sid|].
              ** apply bind_fail in H as [([y s3] & D2 & H)|H].
                 --- apply dec_sec_means in D2 as (sub & e' & R3 & W3 & O3 & E3 & V3 & M3); [|constructor; exact Wb].
                     apply (IH _ _ _ _ _ _ O2 (eq_trans (add_field_length _ _ _) L) Fb2) in H as (items & fs' & rest & -> & I & Gr & Br).
                     assert (Bl : belongs fd (IAlarm l body e)) by (unfold belongs; rewrite T; auto). destruct (reads_as_list _ _ _ R3) as [more Q].
                     exists (IAlarm l body e :: items), fs', rest. split; [cbn [flat_map ilines]; rewrite <- !app_assoc; cbn [app]; rewrite <- ?app_assoc; reflexivity|].
                     split; [constructor; [|exact I]; cbn [item_ok]; split; [exact B|]; exists fd; auto|]. split; [|exact Br].
                     unfold ty_after in Ta. destruct Ta as [(us & w & sid' & A1 & A2 & A3 & A4)|[_ A]]; [|discriminate]. injection A4 as <-.
                     eapply grown_take; try eassumption. rewrite T. apply (IM_alarm l body e us w sid sub e' more y); try assumption. rewrite app_assoc. exact Q.
                 --- apply HERE. eapply Br_alarm; try eassumption; [symmetry; exact Kf|]. apply (Al_content body sid); try assumption; [apply action_ty; exact Ta|].
                     eapply FAULT; [|apply feeds_list|exact H]. constructor. exact Wb.
              ** apply fail_err in H. subst f. apply HERE. eapply Br_alarm; try eassumption; [symmetry; exact Kf|]. apply Al_none; try assumption. apply action_ty. exact Ta.
           ++ apply (gather_fail_sound _ _ _ _ _ _ _ O1 F) in H as (body & more & ty' & -> & Al & Ta & K). apply HERE. eapply Br_alarm; try eassumption; [symmetry; exact Kf|].
              apply action_ty in Ta. destruct K as [|l' more B'|l' more A' N'].
              ** rewrite app_nil_r. eapply Al_end; eassumption.
              ** eapply Al_begin; eassumption.
              ** destruct ty' as [sid|]; [|congruence]. eapply Al_action; eassumption.
      * pose proof (find_field_none _ _ FF) as NF0.
        assert (NF : forall fd, In fd (fields_of id) -> (forall pid, fd_type fd <> FTProp pid) -> upper (cl_value l) <> fd_key fd).
        { intros fd I N K. specialize (NF0 fd I). assert (is_sec_field (upper (cl_value l)) fd = true); [|congruence].
          apply sec_field_true. split; [|auto]. unfold sec_field. destruct (fd_type fd) eqn:T; [destruct (N p); reflexivity|reflexivity|reflexivity]. }
        apply bind_fail in H as [(s2 & D & H)|H].
        -- apply skip_sound in D as (ds & e & R & Wd & Fd & E & V & O2); [|exact O1]. destruct (feeds_reads _ _ _ R _ _ F) as (b & -> & Fb).
           apply (IH _ _ _ _ _ _ O2 L Fb) in H as (items & fs' & rest & -> & I & Gr & Br).
           exists (IOther l ds e :: items), fs', rest. split; [cbn [flat_map ilines]; rewrite <- !app_assoc; cbn [app]; rewrite <- ?app_assoc; reflexivity|].
           split; [constructor; [|exact I]; cbn [item_ok]; auto|]. split; [|exact Br].
           apply grown_skip; [|exact Gr]. intros fd I'. unfold belongs. destruct (fd_type fd); tauto.
        -- apply HERE. apply Br_skip; [exact B|exact NF|]. eapply skip_fail_sound; eauto.
    + apply beq_neq in B. destruct (find_field (is_prop_field (upper (cl_name l))) (fields_of id)) as [[i fd]|] eqn:FF.
      * apply find_field_some in FF as [N Pf]. apply prop_field_true in Pf as [Sf Kf]. unfold sec_field in Sf. destruct (fd_type fd) as [pid|sid|] eqn:T; try discriminate Sf.
        assert (Bl : belongs fd (ILine l)) by (unfold belongs; rewrite T; exact (eq_sym Kf)).
        destruct (full fd i fs) eqn:Fu.
        -- apply fail_err in H. subst f. apply full_true in Fu as [M P]. apply HERE. eapply Br_multiple; eassumption.
        -- apply bind_fail in H as [(p & D & H)|H].
           ++ apply (IH _ _ _ _ _ _ O1 (eq_trans (add_field_length _ _ _) L) F) in H as (items & fs' & rest & -> & I & Gr & Br).
              exists (ILine l :: items), fs', rest. split; [reflexivity|]. split; [|split; [|exact Br]].
              ** constructor; [|exact I]. cbn [item_ok]. destruct (proj2 (table_ok id) fd (nth_error_In _ _ N)) as [K1 K2]. split; unfold is_begin, is_end, line_is; congruence.
              ** eapply grown_take; try eassumption. rewrite T. constructor. exact D.
           ++ apply HERE. eapply Br_value; try eassumption. apply full_false. exact Fu.
      * pose proof (find_field_none _ _ FF) as NF. destruct (beq (upper (cl_name l)) (bs "END")) eqn:E.
        -- apply beq_eq in E. destruct (beq (cl_value l) (sp_name (sec_spec id))) eqn:V.
           ++ apply beq_eq in V. apply bind_fail in H as [(x & D & H)|H]; [destruct (fail_ok _ _ _ H)|]. apply finish_fails in H; [|exact L]. apply HERE.
              destruct H as [(-> & i & fd & A1 & A2 & A3)|(-> & A1 & r & A2 & A3)]; [eapply Br_missing|eapply Br_rule]; eassumption.
           ++ apply beq_neq in V. apply fail_err in H. subst f. apply HERE. apply Br_name; assumption.
        -- apply beq_neq in E. apply (IH _ _ _ _ _ _ O1 L F) in H as (items & fs' & rest & -> & I & Gr & Br).
           exists (ILine l :: items), fs', rest. split; [reflexivity|]. split; [constructor; [split; assumption|exact I]|]. split; [|exact Br].
           apply grown_skip; [|exact Gr]. intros fd I' Bl. specialize (NF fd I'). unfold belongs in Bl. destruct (fd_type fd) eqn:T; try contradiction.
           assert (is_prop_field (upper (cl_name l)) fd = true); [|congruence]. apply prop_field_true. unfold sec_field. rewrite T. split; [reflexivity|]. symmetry. exact Bl.
Qed.

Lemma fault_sound fuel sid s ls en f : src_ok s -> feeds s ls en -> dec_sec fuel sid (no_fields sid) s = fail_res f -> fault sid ls en f.
Proof.
  intros O F D. apply (dec_sec_fail_sound _ _ _ _ _ _ _ O (no_fields_length sid) F) in D as (items & fs' & rest & -> & I & G & B).
  apply (Fault sid items fs'); [|exact B]. apply so_far_grown. auto.
Qed.

(** ** ... and back *)
Definition aims (id : secid) (fs : list (list fval)) (items : list item) (fs' : list (list fval)) : Prop :=
  forall i fd, nth_error (fields_of id) i = Some fd -> exists vs, holds fd items vs /\ nth i fs' [] = nth i fs [] ++ vs /\
    (fd_mode fd <> FMany -> length (nth i fs' []) <= 1).

Lemma aims_take id fs it items fs' i fd : length fs = length (fields_of id) -> aims id fs (it :: items) fs' ->
  nth_error (fields_of id) i = Some fd -> belongs fd it ->
  exists v, item_means (fd_type fd) it v /\ full fd i fs = false /\ aims id (add_field i v fs) items fs'.
Proof.
  intros L T N B. destruct (T i fd N) as (vs & H & E & C). inversion H as [|? ? ? ? NB H'|? ? ? v vs' _ IM H']; subst; [contradiction|].
  exists v. split; [exact IM|]. split.
  - destruct (full fd i fs) eqn:F; [|reflexivity]. apply full_spec in F as [M F]. specialize (C M). rewrite E, app_length in C. cbn [length] in C.
    destruct (nth i fs []); [congruence|]. cbn [length] in C. lia.
  - intros j g Nj. destruct (Nat.eq_dec i j) as [<-|D].
    + assert (g = fd) by congruence. subst g. exists vs'. split; [exact H'|]. split; [|exact C].
      rewrite add_field_same by (rewrite L; eapply nth_error_lt; eauto). rewrite E, <- app_assoc. reflexivity.
    + destruct (T j g Nj) as (vs2 & H2 & E2 & C2). exists vs2. rewrite add_field_other by exact D. split; [|split; assumption].
      inversion H2 as [|? ? ? ? NB H3|? ? ? v2 vs3 B2 IM2 H3]; subst; [exact H3|]. destruct D. eapply belongs_one; eauto.
Qed.
Lemma aims_skip id fs it items fs' : (forall fd, In fd (fields_of id) -> ~ belongs fd it) -> aims id fs (it :: items) fs' -> aims id fs items fs'.
Proof.
  intros NB T i fd N. destruct (T i fd N) as (vs & H & E & C). exists vs. split; [|split; assumption].
  inversion H as [|? ? ? ? _ H'|? ? ? v vs' B IM H']; subst; [exact H'|]. destruct (NB fd (nth_error_In _ _ N) B).
Qed.
Lemma aims_done id fs fs' : length fs = length (fields_of id) -> length fs' = length (fields_of id) -> aims id fs [] fs' -> fs' = fs.
Proof.
  intros L L' T. apply (nth_ext _ _ [] []); [congruence|]. intros i Hi. rewrite L' in Hi. apply nth_error_Some in Hi.
  destruct (nth_error (fields_of id) i) as [fd|] eqn:N; [|congruence]. destruct (T i fd N) as (vs & H & E & C).
  inversion H; subst. rewrite app_nil_r in E. exact E.
Qed.

Lemma dec_sec_progress : forall fuel id fs items fs' rest s en, feeds s (flat_map ilines items ++ rest) en -> Forall (item_ok id) items ->
  length fs = length (fields_of id) -> length fs' = length (fields_of id) -> aims id fs items fs' -> length (flat_map ilines items ++ rest) < fuel ->
  exists fuel' s', length rest < fuel' <= fuel /\ feeds s' rest en /\ dec_sec fuel id fs s = dec_sec fuel' id fs' s'.
Proof.
  induction fuel as [|f IH]; intros id fs items fs' rest s en F I L L' T Le; [lia|]. destruct items as [|it items].
  - cbn [flat_map app] in *. apply aims_done in T; [|assumption|assumption]. subst fs'. exists (S f), s. split; [lia|]. auto.
  - assert (NEXT : forall fs1 s1, length fs1 = length (fields_of id) -> feeds s1 (flat_map ilines items ++ rest) en -> aims id fs1 items fs' ->
      length (flat_map ilines items ++ rest) < f ->
      exists fuel' s', length rest < fuel' <= S f /\ feeds s' rest en /\ dec_sec f id fs1 s1 = dec_sec fuel' id fs' s').
    { intros fs1 s1 L1 F1 T1 Le1. inversion I as [|? ? I0 I1]; subst. destruct (IH id fs1 items fs' rest s1 en F1 I1 L1 L' T1 Le1) as (f' & s' & B & F' & Q).
      exists f', s'. split; [lia|]. auto. }
    cbn [dec_sec]. inversion I as [|? ? I0 I1]; subst. cbn [flat_map] in F, Le. rewrite <- app_assoc in F, Le. rewrite app_length in Le.
    destruct it as [l|b body e'|b body e'|b body e']; cbn [ilines app length] in F, Le.
    + inversion F as [|? ? s1 ? ? G F1]; subst. rewrite G. cbn [bind]. rewrite parts_tokens. cbn [bind]. cbn [item_ok] in I0.
      destruct (plain_tests l I0) as [B0 E0]. rewrite B0, E0.
      destruct (find_field (is_prop_field (upper (cl_name l))) (fields_of id)) as [[i fd]|] eqn:FF.
      * apply find_field_some in FF as [N Pf]. apply prop_field_true in Pf as [Sf Kf]. unfold sec_field in Sf.
        destruct (fd_type fd) as [pid|sid|] eqn:Ty; try discriminate Sf.
        assert (Bl : belongs fd (ILine l)) by (unfold belongs; rewrite Ty; exact (eq_sym Kf)).
        destruct (aims_take id fs (ILine l) items fs' i fd L T N Bl) as (v & IM & Fu & T1). rewrite Fu. rewrite Ty in IM.
        inversion IM as [? ? p D| |]; subst. rewrite D. cbn [bind]. apply NEXT; try assumption; [rewrite add_field_length; exact L|lia].
      * apply aims_skip in T.
        2:{ intros fd Ifd Bl. pose proof (find_field_none _ _ FF fd Ifd) as NF. unfold belongs in Bl. destruct (fd_type fd) eqn:Ty; try contradiction.
            assert (is_prop_field (upper (cl_name l)) fd = true); [|congruence]. apply prop_field_true. unfold sec_field. rewrite Ty. split; [reflexivity|]. symmetry. exact Bl. }
        apply NEXT; try assumption. lia.
    + inversion F as [|? ? s1 ? ? G F1]; subst. rewrite G. cbn [bind]. rewrite parts_tokens. cbn [bind]. cbn [item_ok] in I0.
      destruct I0 as (B & fd & sid & Ifd & Ty & Bl). unfold is_begin, line_is in B. rewrite B, beq_refl.
      apply In_nth_error in Ifd as [i N]. pose proof Bl as K. unfold belongs in K. rewrite Ty in K.
      rewrite (sec_field_here id i fd b) by (try assumption; try (unfold sec_field; rewrite Ty; reflexivity); symmetry; exact K).
      destruct (aims_take id fs _ items fs' i fd L T N Bl) as (v & IM & Fu & T1). rewrite Fu, Ty. rewrite Ty in IM.
      inversion IM as [|? ? ? ? y M E' V'|]; subst. apply feeds_split in F1 as (s2 & R1 & R2). rewrite app_length in Le. cbn [length] in Le.
      rewrite (means_dec_sec f sid body e' s1 s2 y R1 E' V' M) by lia. cbn [bind]. apply NEXT; try assumption; [rewrite add_field_length; exact L|lia].
    + inversion F as [|? ? s1 ? ? G F1]; subst. rewrite G. cbn [bind]. rewrite parts_tokens. cbn [bind]. cbn [item_ok] in I0.
      destruct I0 as (B & fd & Ifd & Ty & Bl). unfold is_begin, line_is in B. rewrite B, beq_refl.
      apply In_nth_error in Ifd as [i N]. pose proof Bl as K. unfold belongs in K. rewrite Ty in K.
      rewrite (sec_field_here id i fd b) by (try assumption; try (unfold sec_field; rewrite Ty; reflexivity); symmetry; exact K).
      destruct (aims_take id fs _ items fs' i fd L T N Bl) as (v & IM & Fu & T1). rewrite Fu, Ty. rewrite Ty in IM.
      inversion IM as [| |? ? ? us w sid sub e2 more y Fb Ne A1 A2 A3 Q E2 V2 M2]; subst.
      apply feeds_split in F1 as (s2 & R1 & R2). rewrite app_length in Le. cbn [length] in Le.
      rewrite (gather_complete f None [] s1 body e' (Some sid) s2 R1 Fb Ne); [|left; exists us, w, sid; auto|lia]. cbn [bind app].
      assert (LQ : length (flat_map ilines sub) < f).
      { apply (f_equal (@length cline)) in Q. rewrite !app_length in Q. cbn [length] in Q. lia. }
      rewrite Q. rewrite (app_assoc (flat_map ilines sub)).
      rewrite (means_dec_sec f sid sub e2 _ (SrcList (as_phrases more)) y) by (try assumption; apply reads_list). cbn [bind].
      apply NEXT; try assumption; [rewrite add_field_length; exact L|lia].
    + inversion F as [|? ? s1 ? ? G F1]; subst. rewrite G. cbn [bind]. rewrite parts_tokens. cbn [bind]. cbn [item_ok] in I0.
      destruct I0 as (B & E' & V' & Sk & NF). unfold is_begin, line_is in B. rewrite B, beq_refl.
      rewrite find_field_absent.
      2:{ intros g Ig. destruct (is_sec_field (upper (cl_value b)) g) eqn:P; [|reflexivity]. apply sec_field_true in P as [P1 P2].
          destruct (NF g Ig); [|auto]. intros pid Q. unfold sec_field in P1. rewrite Q in P1. discriminate. }
      apply feeds_split in F1 as (s2 & R1 & R2). rewrite app_length in Le. cbn [length] in Le.
      rewrite (skip_complete f _ body e' s1 s2 R1 Sk E' V') by lia. cbn [bind].
      apply aims_skip in T; [|intros fd _; unfold belongs; destruct (fd_type fd); tauto]. apply NEXT; try assumption. lia.
Qed.

Lemma so_far_aims id items fs : so_far id items fs -> Forall (item_ok id) items /\ length fs = length (fields_of id) /\ aims id (no_fields id) items fs.
Proof.
  intros (I & L & H). split; [exact I|]. split; [exact L|]. intros i fd N. destruct (H i fd N) as [A B]. exists (nth i fs []). rewrite no_fields_nth. auto.
Qed.

Lemma breaks_complete : forall fuel id fs rest en f s, length fs = length (fields_of id) -> breaks id fs rest en f -> feeds s rest en -> length rest < fuel ->
  dec_sec fuel id fs s = fail_res f.
Proof.
  intros fuel. induction fuel as [fuel IH] using lt_wf_ind. intros id fs rest en f s L H F Le. destruct fuel as [|fu]; [lia|].
  assert (FAULT : forall sid ls en f s, fault sid ls en f -> feeds s ls en -> length ls < fu -> dec_sec fu sid (no_fields sid) s = fail_res f).
  { clear - IH. intros sid ls en f s H F Le. destruct H as [sid items fs rest en f S B]. apply so_far_aims in S as (I & L & A).
    destruct (dec_sec_progress fu sid (no_fields sid) items fs rest s en F I (no_fields_length sid) L A Le) as (f' & s' & Lf & F' & ->).
    eapply IH; try eassumption; lia. }
  cbn [dec_sec]. destruct H as [id fs en|id fs l more en i fd N Bl M P|id fs l more en i fd pid f N Bl Ty M P|id fs e more en E V|id fs e more en i fd E V N M P|id fs e more en r E V R Ir X
    |id fs b ls en fd sid f B Ifd Ty K H|id fs b ls en fd f B Ifd Ty K H|id fs b ls en f B NF H].
  - inversion F as [? ? E|]; subst. apply (end_fails s en); [exact E|reflexivity|reflexivity].
  - inversion F as [|? ? s1 ? ? G F1]; subst. rewrite G. cbn [bind]. rewrite parts_tokens. cbn [bind].
    unfold belongs in Bl. destruct (fd_type fd) as [pid|sid|] eqn:Ty; try contradiction. pose proof (proj2 (table_ok id) fd (nth_error_In _ _ N)) as [K1 K2].
    unfold line_is in Bl. rewrite Bl. apply beq_neq in K1. rewrite K1.
    rewrite (find_field_here _ _ i fd N); [|apply prop_field_true; unfold sec_field; rewrite Ty; auto|].
    2:{ intros j g Nj Pg. apply prop_field_true in Pg as [Q1 Q2]. eapply sig_unique; eauto. unfold sig, sec_field at 2. rewrite Ty, Q1, Q2. reflexivity. }
    rewrite (proj2 (full_true fd i fs)) by auto. reflexivity.
  - inversion F as [|? ? s1 ? ? G F1]; subst. rewrite G. cbn [bind]. rewrite parts_tokens. cbn [bind].
    unfold belongs in Bl. rewrite Ty in Bl. pose proof (proj2 (table_ok id) fd (nth_error_In _ _ N)) as [K1 K2].
    unfold line_is in Bl. rewrite Bl. apply beq_neq in K1. rewrite K1.
    rewrite (find_field_here _ _ i fd N); [|apply prop_field_true; unfold sec_field; rewrite Ty; auto|].
    2:{ intros j g Nj Pg. apply prop_field_true in Pg as [Q1 Q2]. eapply sig_unique; eauto. unfold sig, sec_field at 2. rewrite Ty, Q1, Q2. reflexivity. }
    rewrite (proj2 (full_false fd i fs)) by auto. rewrite Ty, P. apply fail_bind.
  - inversion F as [|? ? s1 ? ? G F1]; subst. rewrite G. cbn [bind]. rewrite parts_tokens. cbn [bind]. unfold is_end, line_is in E. rewrite E.
    change (beq (bs "END") (bs "BEGIN")) with false. cbv iota. rewrite find_field_absent by (intros g Ig; eapply not_prop_key; exact Ig).
    rewrite beq_refl. apply beq_neq in V. rewrite V. reflexivity.
  - inversion F as [|? ? s1 ? ? G F1]; subst. rewrite G. cbn [bind]. rewrite parts_tokens. cbn [bind]. unfold is_end, line_is in E. rewrite E.
    change (beq (bs "END") (bs "BEGIN")) with false. cbv iota. rewrite find_field_absent by (intros g Ig; eapply not_prop_key; exact Ig).
    rewrite beq_refl, V, beq_refl. rewrite (proj2 (finish_fails id fs (Failed ErrMissingRequired) L)); [reflexivity|]. left. split; [reflexivity|]. eauto.
  - inversion F as [|? ? s1 ? ? G F1]; subst. rewrite G. cbn [bind]. rewrite parts_tokens. cbn [bind]. unfold is_end, line_is in E. rewrite E.
    change (beq (bs "END") (bs "BEGIN")) with false. cbv iota. rewrite find_field_absent by (intros g Ig; eapply not_prop_key; exact Ig).
    rewrite beq_refl, V, beq_refl. rewrite (proj2 (finish_fails id fs (Failed ErrRequirementNotMet) L)); [reflexivity|]. right. split; [reflexivity|]. eauto.
  - inversion F as [|? ? s1 ? ? G F1]; subst. rewrite G. cbn [bind]. rewrite parts_tokens. cbn [bind]. unfold is_begin, line_is in B. rewrite B, beq_refl.
    pose proof Ifd as Ifd0. apply In_nth_error in Ifd as [i N]. assert (Sf : sec_field fd = true) by (unfold sec_field; rewrite Ty; reflexivity).
    rewrite (sec_field_here id i fd b) by (try assumption; symmetry; exact K). rewrite (proj2 (full_false fd i fs)) by (left; eapply sec_many; eauto). rewrite Ty.
    cbn [length] in Le. rewrite (FAULT sid ls en f s1 H F1) by lia. apply fail_bind.
  - inversion F as [|? ? s1 ? ? G F1]; subst. rewrite G. cbn [bind]. rewrite parts_tokens. cbn [bind]. unfold is_begin, line_is in B. rewrite B, beq_refl.
    pose proof Ifd as Ifd0. apply In_nth_error in Ifd as [i N]. assert (Sf : sec_field fd = true) by (unfold sec_field; rewrite Ty; reflexivity).
    rewrite (sec_field_here id i fd b) by (try assumption; symmetry; exact K). rewrite (proj2 (full_false fd i fs)) by (left; eapply sec_many; eauto). rewrite Ty.
    cbn [length] in Le. destruct H as [body ty en Al A|body ty l more en Al A B'|body sid l more en Al A A'|body e more en Al A E'|body sid e more en f Al A E' H]; apply action_ty in A.
    + rewrite (gather_fail_complete fu None [] s1 body [] ty en (alarm_end_fail en)); [apply fail_bind|rewrite app_nil_r; exact F1|exact Al|exact A|constructor|lia].
    + rewrite app_length in Le. cbn [length] in Le.
      rewrite (gather_fail_complete fu None [] s1 body (l :: more) ty en (Failed ErrInvalidStructure)); [reflexivity|exact F1|exact Al|exact A|constructor; exact B'|lia].
    + rewrite app_length in Le. cbn [length] in Le.
      rewrite (gather_fail_complete fu None [] s1 body (l :: more) (Some sid) en (Failed ErrInvalidStructure)); [reflexivity|exact F1|exact Al|exact A|apply Sk_action; [exact A'|discriminate]|lia].
    + rewrite app_length in Le. cbn [length] in Le. change (e :: more) with ([e] ++ more) in F1. rewrite app_assoc in F1. apply feeds_split in F1 as (s2 & R & F2).
      rewrite (gather_complete fu None [] s1 body e None s2 R Al E' A) by lia. reflexivity.
    + rewrite app_length in Le. cbn [length] in Le. change (e :: more) with ([e] ++ more) in F1. rewrite app_assoc in F1. apply feeds_split in F1 as (s2 & R & F2).
      rewrite (gather_complete fu None [] s1 body e (Some sid) s2 R Al E' A) by lia. cbn [bind app].
      rewrite (FAULT sid (body ++ [e]) AtList f _ H (feeds_list _)) by (rewrite app_length; cbn [length]; lia). apply fail_bind.
  - inversion F as [|? ? s1 ? ? G F1]; subst. rewrite G. cbn [bind]. rewrite parts_tokens. cbn [bind]. unfold is_begin, line_is in B. rewrite B, beq_refl.
    rewrite find_field_absent.
    2:{ intros g Ig. destruct (is_sec_field (upper (cl_value b)) g) eqn:P; [|reflexivity]. apply sec_field_true in P as [P1 P2].
        destruct (NF g Ig); [|auto]. intros pid Q. unfold sec_field in P1. rewrite Q in P1. discriminate. }
    cbn [length] in Le. rewrite (skip_fail_complete fu _ ls en f s1 H F1) by lia. apply fail_bind.
Qed.

Lemma fault_complete fuel sid ls en f s : fault sid ls en f -> feeds s ls en -> length ls < fuel -> dec_sec fuel sid (no_fields sid) s = fail_res f.
Proof.
  intros H F Le. destruct H as [sid items fs rest en f SF B]. apply so_far_aims in SF as (I & L & A).
  destruct (dec_sec_progress fuel sid (no_fields sid) items fs rest s en F I (no_fields_length sid) L A Le) as (f' & s' & Lf & F' & ->).
  eapply breaks_complete; try eassumption; lia.
Qed.
End Fail.
