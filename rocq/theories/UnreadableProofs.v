(** A line that cannot be read, at any place in a calendar. *)
From Coq Require Import String Ascii ZArith Bool List Lia.
From Verif Require Import Base Lib Strtok Tokeniser SpecContent TokeniserProofs GoTime Types Params ParamTable PropTable Props SecTable Sections Codec SpecTree TreeProofs ExactProofs SpecRules ShapeProofs RulesProofs SpecBadLine SpecFail FailProofs FailTextProofs FailMoreProofs SpecTrunc TruncProofs SpecRfc SpecLine SpecComp CompProofs SpecAlone SpecPlace PlaceProofs TotalProofs SpecUnreadable.
Import ListNotations.

Section Unreadable.
Context {env : Env}.
Lemma prop_field id pid : In (FTProp pid) (api_fields id) -> exists i fd, nth_error (fields_of id) i = Some fd /\ fd_type fd = FTProp pid /\ fd_key fd = read_name pid.
Proof.
  intros H. rewrite <- fields_table in H. apply in_map_iff in H as (fd & T & I). pose proof (names_table _ _ I) as K. rewrite T in K. apply In_nth_error in I as [i N]. eauto.
Qed.
Lemma here_fault id pre post x pid l f more en : means id (pre ++ post) x -> In (FTProp pid) (api_fields id) -> read_name pid = upper (cl_name l) ->
  (In (upper (cl_name l)) (required id ++ optional id) -> own_lines (upper (cl_name l)) pre = []) ->
  prop_decode pid (params_tokens (cl_params l)) (cl_value l) = fail_res f -> fault id (flat_map ilines pre ++ l :: more) en f.
Proof.
  intros M IF N O D. destruct (prop_field _ _ IF) as (i & fd & Ni & T & K). apply means_so_far in M as [fs SF]. apply (Fault id pre fs (l :: more) en f SF).
  eapply Br_value; try eassumption; [unfold belongs; rewrite T; unfold line_is; congruence|]. destruct SF as (_ & _ & SF). destruct (SF i fd Ni) as [Hd _]. pose proof (field_prop _ _ _ _ _ _ Ni T Hd) as FP. rewrite K, N in FP.
  pose proof (nth_error_In _ _ Ni) as If. unfold present. destruct (fd_mode fd) eqn:Md; [right|right|left; reflexivity].
  - rewrite O in FP; [destruct (nth i fs []); [reflexivity|]; destruct (proj1 FP); [discriminate|reflexivity]|]. apply in_app_iff. left. apply (proj1 (rules_table id)), mode_name. exists fd, pid. rewrite K. auto.
  - rewrite O in FP; [destruct (nth i fs []); [reflexivity|]; destruct (proj1 FP); [discriminate|reflexivity]|]. apply in_app_iff. right. apply (proj1 (proj2 (rules_table id))), mode_name. exists fd, pid. rewrite K. auto.
Qed.
Lemma place_fault q l pid f : is_plain l -> read_name pid = upper (cl_name l) -> prop_decode pid (params_tokens (cl_params l)) (cl_value l) = fail_res f ->
  forall id id' pre post x more en, leads id q id' pre post -> In (FTProp pid) (api_fields id') -> (In (upper (cl_name l)) (required id' ++ optional id') -> own_lines (upper (cl_name l)) pre = []) ->
  means id (fill q None) x -> fault id (flat_map ilines (fill q (Some l)) ++ more) en f.
Proof.
  intros P N D. induction q as [p0 q0|p0 b q IH e q0|p0 b ls ls' e q0]; intros id id' pre post x more en Ld IF O M; inversion Ld as [|? ? ? ? ? ? sid ? ? ? IC Ld'|? ? ? ? ? ? ? sid HA K PL E]; subst; cbn [fill app] in *.
  - rewrite flat_map_app. cbn [flat_map ilines app]. rewrite <- app_assoc. cbn [app]. eapply here_fault; eassumption.
  - pose proof (means_ok _ _ _ _ _ M) as (B & fd & sid' & Ifd & Ty & Bl). destruct (means_at _ _ _ _ _ fd M Ifd Bl) as [v IM]. unfold belongs in Bl. rewrite Ty in Bl.
    assert (sid' = sid). { eapply children_one; [|exact IC]. apply child_field. exists fd. auto. } subst sid'. rewrite Ty in IM. inversion IM as [|? ? ? ? y M2 _ _|]; subst. apply means_so_far in M as [fs SF].
    rewrite flat_map_app. cbn [flat_map ilines]. rewrite <- !app_assoc. apply (Fault id p0 fs _ en f SF). cbn [app]. eapply Br_comp; try eassumption. rewrite <- !app_assoc. eapply IH; eassumption.
  - pose proof (means_ok _ _ _ _ _ M) as (B & fd & Ifd & Ty & Bl). destruct (means_at _ _ _ _ _ fd M Ifd Bl) as [v IM]. unfold belongs in Bl. rewrite Ty in Bl.
    rewrite Ty in IM. inversion IM as [| |? ? ? us w sid' sub e' more' y Fb Ne A1 A2 A3 Q E' V' My]; subst. apply means_so_far in M as [fs SF].
    rewrite flat_map_app. cbn [flat_map ilines]. rewrite <- !app_assoc. apply (Fault id p0 fs _ en f SF). cbn [app]. eapply Br_alarm; try eassumption.
    assert (NA : cl_name l <> bs "ACTION") by (eapply no_action; eassumption).
    match goal with |- alarm_fault ?z _ _ => replace z with ((ls ++ l :: ls') ++ e :: (flat_map ilines q0 ++ more)) by (rewrite <- ?app_assoc; cbn [app]; rewrite <- ?app_assoc; cbn [app]; rewrite <- ?app_assoc; reflexivity) end.
    apply (kind_without ls l ls' id' NA) in K. assert (PL' : Forall is_plain (ls ++ l :: ls')) by (rewrite !Forall_app, ?Forall_cons_iff in *; tauto).
    apply (Al_content (ls ++ l :: ls') id').
    + eapply Forall_impl; [|exact PL']. apply plain_exact.
    + exact K.
    + exact Ne.
    + destruct K as (us' & w' & K1 & K2 & K3). assert (id' = sid').
      { assert (Kv : values_named (bs "ACTION") (ls ++ l :: ls') = values_named (bs "ACTION") (ls ++ ls')) by (unfold values_named; rewrite !filter_app; cbn [filter]; apply beq_neq in NA; rewrite NA; reflexivity).
        rewrite Kv, A1 in K1. apply app_inj_tail in K1 as [_ <-]. eapply action_one; eassumption. }
      subst sid'. assert (Sh : Forall (shape_ok id') sub) by (apply means_exact in My; exact (proj1 (means_side _ _ _ My))).
      destruct (plain_sub id' (ls ++ ls') e sub e' more' PL E Sh Q E') as (-> & _ & _). rewrite map_app in My. rewrite <- app_assoc. cbn [app].
      replace (ls ++ l :: ls' ++ [e]) with (flat_map ilines (map ILine ls) ++ l :: ls' ++ [e]) by (rewrite plain_lines; reflexivity). eapply here_fault; eassumption.
Qed.
(** The calendar without the line can be read. *)
Theorem decode_unreadable b q l e tail id pre post pid cal f : framed b (fill q (Some l)) e -> rest_ok tail -> leads SCalendar q id pre post -> is_plain l ->
  In (FTProp pid) (api_fields id) -> read_name pid = upper (cl_name l) -> (In (upper (cl_name l)) (required id ++ optional id) -> own_lines (upper (cl_name l)) pre = []) ->
  decode_bytes (frame_text b (fill q None) e ++ tail) = Ok cal -> prop_decode pid (params_tokens (cl_params l)) (cl_value l) = fail_res f ->
  decode_bytes (frame_text b (fill q (Some l)) e ++ tail) = fail_res f.
Proof.
  intros F T Ld P IF N O D0 D. assert (F' : framed b (fill q None) e).
  { destruct F as (B & V & Sh & E & W). split; [exact B|]. split; [exact V|]. split; [eapply fill_shape; eassumption|]. split; [exact E|]. rewrite Forall_cons_iff, Forall_app in W |- *. destruct W as (W1 & W2 & W3). split; [exact W1|]. split; [|exact W3]. eapply fill_lines; exact W2. }
  apply (decode_frame _ _ _ _ _ F' T) in D0 as [M _]. destruct F as (B & V & _ & _ & W). apply decode_fails. unfold frame_text. rewrite <- app_assoc. destruct (cut_total (cline_render e ++ tail)) as (lsx & enx & C).
  rewrite Forall_cons_iff, Forall_app in W. destruct W as (W1 & W2 & _).
  assert (W3 : wf_lines (b :: flat_map ilines (fill q (Some l)))) by (constructor; assumption). pose proof (cut_app _ _ _ _ W3 C) as C'. cbn [app] in C'.
  eapply Fl_inside; [exact C'|split; assumption|]. eapply place_fault; eassumption.
Qed.

(** ** A component in an alarm *)
Lemma holds_last fd i : ~ belongs fd i -> forall items v, holds fd items v -> holds fd (items ++ [i]) v.
Proof.
  intros N. induction items as [|j items IH]; intros v H; inversion H as [|? ? ? ? NB H'|? ? ? w vs B IM H']; subst; cbn [app].
  - apply H_skip; [exact N|constructor].
  - apply H_skip; [exact NB|]. apply IH, H'.
  - apply H_take; [exact B|exact IM|]. apply IH, H'.
Qed.
Lemma box_eof q x y : small_box x y -> forall id id' pre post z more en, leads id q id' pre post -> after_action q -> means id (fill q None) z ->
  fault id (lines_before q ++ x :: y :: more) en (Failed ErrUnexpectedEOF).
Proof.
  intros (X1 & X2 & Y1 & Y2). induction q as [p0 q0|p0 b q IH e q0|p0 b ls ls' e q0]; intros id id' pre post z more en Ld AA M; inversion Ld as [|? ? ? ? ? ? sid ? ? ? IC Ld'|? ? ? ? ? ? ? sid HA K PL E]; subst; cbn [fill app after_action lines_before] in *; [destruct AA| |].
  - pose proof (means_ok _ _ _ _ _ M) as (B & fd & sid' & Ifd & Ty & Bl). destruct (means_at _ _ _ _ _ fd M Ifd Bl) as [v IM]. unfold belongs in Bl. rewrite Ty in Bl.
    assert (sid' = sid). { eapply children_one; [|exact IC]. apply child_field. exists fd. auto. } subst sid'. rewrite Ty in IM. inversion IM as [|? ? ? ? w M2 _ _|]; subst. apply means_so_far in M as [fs SF].
    rewrite <- !app_assoc. apply (Fault id p0 fs _ en _ SF). cbn [app]. eapply Br_comp; try eassumption. eapply IH; eassumption.
  - pose proof (means_ok _ _ _ _ _ M) as (B & fd & Ifd & Ty & Bl). destruct (means_at _ _ _ _ _ fd M Ifd Bl) as [v IM]. unfold belongs in Bl. rewrite Ty in Bl.
    rewrite Ty in IM. inversion IM as [| |? ? ? us w sid' sub e' more' w2 Fb Ne A1 A2 A3 Q E' V' My]; subst. apply means_so_far in M as [fs SF].
    rewrite <- !app_assoc. apply (Fault id p0 fs _ en _ SF). cbn [app]. eapply Br_alarm; try eassumption.
    destruct K as (us' & w' & K1 & K2 & K3). assert (sid' = id').
    { rewrite A1 in K1. apply app_inj_tail in K1 as [_ <-]. eapply RulesProofs.action_one; eassumption. }
    subst sid'. destruct AA as (idk & us1 & w1 & L1 & L2 & L3). assert (idk = id').
    { assert (Qv : values_named (bs "ACTION") (ls ++ ls') = values_named (bs "ACTION") ls ++ values_named (bs "ACTION") ls') by (unfold values_named; rewrite filter_app, map_app; reflexivity).
      rewrite Qv, L1 in A1. destruct (values_named (bs "ACTION") ls') as [|v1 vs1] using rev_ind.
      - rewrite app_nil_r in A1. apply app_inj_tail in A1 as [_ <-]. eapply RulesProofs.action_one; eassumption.
      - rewrite app_assoc in A1. apply app_inj_tail in A1 as [A1 _]. subst us. rewrite !Forall_app, Forall_cons_iff in A2. destruct A2 as ((_ & NA & _) & _). destruct (NA _ L3). }
    subst idk. assert (Sh : Forall (shape_ok id') sub) by (apply means_exact in My; exact (proj1 (means_side _ _ _ My))).
    destruct (plain_sub id' (ls ++ ls') e sub e' more' PL E Sh Q E') as (-> & _ & _). rewrite map_app in My. pose proof PL as PL0. apply Forall_app in PL0 as [PL1 _].
    replace (ls ++ x :: y :: more) with ((ls ++ [x]) ++ y :: more) by (rewrite <- app_assoc; reflexivity).
    assert (NX : cl_name x <> bs "ACTION"). { intros Qx. unfold is_begin, line_is in X1. rewrite Qx in X1. discriminate X1. }
    apply (Al_content (ls ++ [x]) id').
    + apply Forall_app. split; [eapply Forall_impl; [|exact PL1]; apply plain_exact|]. constructor; [|constructor]. split; [exact X2|]. intros Qx. unfold is_begin, line_is in X1. rewrite Qx in X1. discriminate X1.
    + exists us1, w1. split; [|auto]. unfold values_named in *. rewrite filter_app, map_app. cbn [filter]. apply beq_neq in NX. rewrite NX. cbn [map]. rewrite app_nil_r. exact L1.
    + exact Y1.
    + apply means_so_far in My as [fs2 SF2]. assert (SF3 : so_far id' (map ILine ls ++ [IOther x [] y]) fs2).
      { destruct SF2 as (I2 & Len & H2). split; [|split; [exact Len|]].
        - apply Forall_app. split; [exact I2|]. constructor; [|constructor]. cbn [item_ok]. split; [exact X1|]. split; [unfold is_end, line_is; rewrite Y1; reflexivity|]. split; [exact Y2|]. split; [constructor|].
          intros fd2 If2 NP. exfalso. apply action_spec in L3. destruct (alarms_flat _ _ L3 fd2 If2) as (pid & Tp & _). exact (NP pid Tp).
        - intros i fd2 N2. destruct (H2 i fd2 N2) as [Hh C]. split; [|exact C]. apply holds_last; [cbn [belongs]; tauto|exact Hh]. }
      replace ((ls ++ [x]) ++ [y]) with (flat_map ilines (map ILine ls ++ [IOther x [] y]) ++ []) by (rewrite flat_map_app, plain_lines, app_nil_r, <- app_assoc; reflexivity).
      apply (Fault id' _ fs2 [] AtList _ SF3). apply (Br_end id' fs2 AtList).
Qed.
Lemma before_lines q : forall (Q : cline -> Prop), Forall Q (flat_map ilines (fill q None)) -> Forall Q (lines_before q).
Proof.
  intros Q. induction q as [p0 q0|p0 b q IH e q0|p0 b ls ls' e q0]; cbn [fill lines_before app]; rewrite !flat_map_app; cbn [flat_map ilines app]; rewrite ?Forall_app; cbn [app]; rewrite ?Forall_cons_iff, ?Forall_app; tauto.
Qed.
Theorem decode_small_box b q e tail cal id pre post x y : framed b (fill q None) e -> rest_ok tail -> decode_bytes (frame_text b (fill q None) e ++ tail) = Ok cal -> leads SCalendar q id pre post -> after_action q ->
  small_box x y -> cline_wf x = true -> cline_wf y = true -> forall r, decode_bytes (lines_text (b :: lines_before q ++ [x; y]) ++ r) = Err ErrUnexpectedEOF.
Proof.
  intros F T D Ld AA SB Wx Wy r. apply (decode_frame _ _ _ _ _ F T) in D as [M _]. destruct F as (B & V & _ & _ & W). change (Err ErrUnexpectedEOF : res sec) with (@fail_res sec (Failed ErrUnexpectedEOF)). apply decode_fails.
  destruct (cut_total r) as (lsx & enx & C). rewrite Forall_cons_iff, Forall_app in W. destruct W as (W1 & W2 & _).
  assert (W3 : wf_lines (b :: lines_before q ++ [x; y])). { constructor; [exact W1|]. apply Forall_app. split; [eapply before_lines; exact W2|]. repeat constructor; assumption. }
  pose proof (cut_app _ _ _ _ W3 C) as C'. cbn [app] in C'. eapply Fl_inside; [exact C'|split; assumption|]. rewrite <- app_assoc. cbn [app]. eapply box_eof; eassumption.
Qed.
End Unreadable.
