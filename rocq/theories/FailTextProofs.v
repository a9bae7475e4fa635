(** The failures of Decode on a text, exactly. *)
From Coq Require Import String Ascii ZArith Bool List Lia.
From Verif Require Import Base Lib Strtok Tokeniser SpecContent TokeniserProofs GoTime Types Params ParamTable PropTable Props SecTable Sections Codec SpecTree TreeProofs ExactProofs SpecBadLine BadLineProofs SpecFail FailProofs.
Import ListNotations.

Section FailText.
Context {env : Env}.

(** ** The lines of a text *)
Lemma cut_cons l s ls en : cline_wf l = true -> cut_into s ls en -> cut_into (cline_render l ++ CRLF ++ s) (l :: ls) en.
Proof.
  intros W H. destruct H as [ls F|ls l' F|ls r e F B].
  - rewrite <- lines_text_cons. constructor. constructor; assumption.
  - rewrite (app_assoc CRLF), app_assoc. rewrite <- lines_text_cons. apply (Cu_last (l :: ls) l'). constructor; assumption.
  - rewrite (app_assoc CRLF), app_assoc. rewrite <- lines_text_cons. apply (Cu_bad (l :: ls) r e); [constructor; assumption|exact B].
Qed.

Lemma feeds_cut : forall ls z s en, ready z s -> feeds (SrcTok z) ls en -> cut_into s ls en.
Proof.
  induction ls as [|l ls IH]; intros z s en R F.
  - inversion F as [? ? E|]; subst. pose proof (get_phrase_sound z s R) as P. destruct en as [|e|]; cbn [ends get_ph] in E.
    + destruct E as [s1 E]. destruct (get_phrase z) as [[[data|] z']| | |]; cbn [bind] in E; try discriminate E. destruct P as [-> _].
      apply (Cu_end []). constructor.
    + destruct E as [_ E]. destruct (get_phrase z) as [[[data|] z']|e'| |] eqn:G; cbn [bind] in E; try discriminate E. injection E as ->.
      destruct R as [s|]; [|discriminate G]. apply get_phrase_bad in G. apply (Cu_bad [] s e); [constructor|exact G].
    + discriminate E.
  - inversion F as [|? ? s1 ? ? G F1]; subst. cbn [get_ph] in G. pose proof (get_phrase_sound z s R) as P.
    destruct (get_phrase z) as [[[data|] z']| | |]; cbn [bind] in G; try discriminate G. apply Ok_inj in G. injection G as Q <-.
    destruct P as (l' & e & W & D & L & ->). rewrite Q in D. apply cline_tokens_inj in D. subst l'. destruct L as [r|].
    + change (cline_render l ++ CR :: LF :: r) with (cline_render l ++ CRLF ++ r). apply cut_cons; [exact W|]. eapply IH; [constructor|exact F1].
    + rewrite app_nil_r. inversion F1 as [? ? E|? ? s2 ? ? G F2]; subst; [|discriminate G]. destruct en as [|e|]; cbn [ends] in E; [|destruct E as [_ E]; discriminate E|discriminate E].
      apply (Cu_last [] l). constructor; [exact W|constructor].
Qed.

Lemma lines_feed : forall ls r rest en, wf_lines ls -> feeds (SrcTok (Tkz SName (Tok [] r))) rest en ->
  feeds (SrcTok (Tkz SName (Tok [] (lines_text ls ++ r)))) (ls ++ rest) en.
Proof.
  induction ls as [|l ls IH]; intros r rest en W F; [exact F|]. inversion W as [|? ? W0 W1]; subst. rewrite lines_text_cons, <- !app_assoc. change ((l :: ls) ++ rest) with (l :: ls ++ rest).
  change (CRLF ++ lines_text ls ++ r) with (CR :: LF :: lines_text ls ++ r). econstructor; [|apply IH; eassumption]. cbn [get_ph].
  rewrite (get_phrase_complete l _ _ W0 (LE_crlf _)). reflexivity.
Qed.

Lemma cut_feeds s ls en : cut_into s ls en -> feeds (SrcTok (new_tokeniser s)) ls en.
Proof.
  change (new_tokeniser s) with (Tkz SName (Tok [] s)). intros [ls' W|ls' l W|ls' r e W B].
  - pose proof (lines_feed ls' [] [] AtEnd W) as H. rewrite !app_nil_r in H. apply H. constructor. cbn [ends get_ph].
    destruct (get_phrase_done _ (R_name [])) as (z' & G & _). rewrite G. cbn [bind]. eauto.
  - apply Forall_app in W as [W Wl]. inversion Wl; subst. apply lines_feed; [exact W|]. rewrite <- (app_nil_r (cline_render l)).
    econstructor; [cbn [get_ph]; rewrite (get_phrase_complete l [] _ ltac:(assumption) LE_eof); reflexivity|]. constructor. cbn [ends get_ph].
    destruct (get_phrase_done _ R_done) as (z' & G & _). rewrite G. cbn [bind]. eauto.
  - pose proof (lines_feed ls' r [] (AtBad e) W) as H. rewrite app_nil_r in H. apply H. constructor. cbn [ends]. split; [eauto|]. cbn [get_ph].
    apply get_phrase_bad in B. rewrite B. reflexivity.
Qed.

Lemma tok_ok s : src_ok (SrcTok (new_tokeniser s)).
Proof. econstructor. constructor. Qed.
Lemma cut_total s : exists ls en, cut_into s ls en.
Proof. destruct (feeds_total _ (tok_ok s)) as (ls & en & F & _). exists ls, en. exact (feeds_cut ls (new_tokeniser s) s en (R_name s) F). Qed.
Lemma ends_unique s en en' : ends s en -> ends s en' -> en = en'.
Proof.
  destruct en as [|e|], en' as [|e'|]; cbn [ends]; intros A B; try reflexivity;
    repeat match goal with H : exists _, _ |- _ => destruct H | H : _ /\ _ |- _ => destruct H end; subst; cbn [get_ph] in *; congruence.
Qed.
Lemma feeds_unique s ls en : feeds s ls en -> forall ls' en', feeds s ls' en' -> ls = ls' /\ en = en'.
Proof.
  assert (NO : forall s l s1 en, get_ph s = Ok (PhraseLine (cline_tokens l), s1) -> ends s en -> False).
  { intros s0 l s1 en0 G H. destruct en0; cbn [ends] in H; repeat match goal with H : exists _, _ |- _ => destruct H | H : _ /\ _ |- _ => destruct H end; subst; cbn [get_ph] in *; congruence. }
  induction 1 as [s en E|s l s1 ls en G F IH]; intros ls' en' F'.
  - inversion F' as [? ? E'|? ? ? ? ? G']; subst; [split; [reflexivity|eapply ends_unique; eauto]|]. destruct (NO _ _ _ _ G' E).
  - inversion F' as [? ? E'|? l' s1' ls1 ? G' F1]; subst; [destruct (NO _ _ _ _ G E')|]. rewrite G in G'. apply Ok_inj in G'.
    assert (T : cline_tokens l = cline_tokens l') by congruence. assert (Q : s1' = s1) by congruence. apply cline_tokens_inj in T. subst. destruct (IH _ _ F1) as [-> ->]. auto.
Qed.
Lemma cut_unique s ls en ls' en' : cut_into s ls en -> cut_into s ls' en' -> ls = ls' /\ en = en'.
Proof. intros A B. eapply feeds_unique; apply cut_feeds; eassumption. Qed.

Lemma cut_length s ls en : cut_into s ls en -> length ls <= S (length s).
Proof.
  intros [ls' _|ls' l _|ls' r e _ _]; rewrite ?app_length; cbn [length]; pose proof (lines_text_long ls'); lia.
Qed.

Theorem decode_fails s f : decode_bytes s = fail_res f <-> fails s f.
Proof.
  destruct (cut_total s) as (ls & en & C). pose proof (cut_feeds s ls en C) as F. unfold decode_bytes, decode_src. split.
  - intros H. destruct ls as [|l ls].
    + inversion F as [? ? E|]; subst. apply (end_fails _ en) in H; [|exact E|reflexivity]. subst f. apply (Fl_empty s en C).
    + inversion F as [|? ? s1 ? ? G F1]; subst. rewrite G in H. cbn [bind] in H. rewrite parts_tokens in H. cbn [bind] in H.
      destruct (get_ph_line _ _ s1 (tok_ok s) G) as (_ & _ & _ & O1).
      destruct (beq (upper (cl_name l)) (bs "BEGIN") && beq (upper (cl_value l)) (bs "VCALENDAR")) eqn:B.
      * apply andb_true_iff in B as [B V]. apply beq_eq in B, V. apply bind_fail in H as [([x s2] & D & H)|H]; [destruct (fail_ok _ _ _ H)|].
        apply (Fl_inside s l ls en f C); [split; assumption|]. eapply fault_sound; eauto.
      * apply fail_err in H. subst f. apply (Fl_first s l ls en C). intros [A V]. unfold is_begin, line_is in A. rewrite A, V, !beq_refl in B. discriminate B.
  - intros H. destruct H as [s en' C'|s l ls' en' C' N|s b ls' en' f C' Op H]; destruct (cut_unique _ _ _ _ _ C C') as [-> ->].
    + inversion F as [? ? E|]; subst. apply (end_fails _ en'); [exact E|reflexivity|reflexivity].
    + inversion F as [|? ? s1 ? ? G F1]; subst. rewrite G. cbn [bind]. rewrite parts_tokens. cbn [bind].
      destruct (beq (upper (cl_name l)) (bs "BEGIN") && beq (upper (cl_value l)) (bs "VCALENDAR")) eqn:B; [|reflexivity].
      apply andb_true_iff in B as [B V]. apply beq_eq in B, V. destruct N. split; assumption.
    + inversion F as [|? ? s1 ? ? G F1]; subst. rewrite G. cbn [bind]. rewrite parts_tokens. cbn [bind].
      destruct Op as [A V]. unfold is_begin, line_is in A. rewrite A, V, !beq_refl. cbn [andb].
      rewrite (fault_complete _ SCalendar ls' en' f s1 H F1); [apply fail_bind|]. apply cut_length in C. cbn [length] in C. lia.
Qed.
End FailText.
