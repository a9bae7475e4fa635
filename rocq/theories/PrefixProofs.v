(** Texts that go on, and texts that are cut off. *)
From Coq Require Import String Ascii ZArith Bool List Lia ZifyBool.
From Verif Require Import Base Lib Strtok Tokeniser SpecContent TokeniserProofs GoTime Types Params ParamTable PropTable Props SecTable Sections Codec SpecTree TreeProofs ExactProofs SpecRules ShapeProofs.
Import ListNotations.

Lemma name_value c : name_char c = true -> value_char c = true.
Proof. unfold name_char, value_char. intros H. lia. Qed.
Lemma quoted_value c : quoted_char c = true -> value_char c = true.
Proof. unfold quoted_char. intros H. lia. Qed.
Lemma safe_value c : safe_char c = true -> value_char c = true.
Proof. unfold safe_char. intros H. apply quoted_value. lia. Qed.
Lemma forallb_imp {A} (p q : A -> bool) l : (forall x, p x = true -> q x = true) -> forallb p l = true -> forallb q l = true.
Proof. intros H. rewrite !forallb_forall. auto. Qed.
Lemma forallb_concat {A} (p : A -> bool) ls : (forall l, In l ls -> forallb p l = true) -> forallb p (concat ls) = true.
Proof. intros H. induction ls as [|l ls IH]; [reflexivity|]. cbn [concat]. rewrite forallb_app, H by (left; reflexivity). apply IH. intros. apply H. right. assumption. Qed.

Lemma pvalue_chars v : pvalue_wf v = true -> forallb value_char (pvalue_render v) = true.
Proof.
  destruct v as [v|v]; cbn [pvalue_wf pvalue_render]; intros W.
  - rewrite !forallb_app, (forallb_imp _ _ _ quoted_value W). reflexivity.
  - exact (forallb_imp _ _ _ safe_value W).
Qed.
Lemma cparam_chars p : cparam_wf p = true -> forallb value_char (cparam_render p) = true.
Proof.
  unfold cparam_wf, cparam_render, more_render. rewrite !andb_true_iff. intros [[N F] M]. rewrite !forallb_app, (forallb_imp _ _ _ name_value N), (pvalue_chars _ F). cbn [andb].
  change (forallb value_char (bs ";")) with true. change (forallb value_char (bs "=")) with true. cbn [andb]. apply forallb_concat. intros l I. apply in_map_iff in I as (v & <- & I).
  rewrite forallb_app. rewrite forallb_forall in M. rewrite (pvalue_chars _ (M v I)). reflexivity.
Qed.
Lemma cline_chars l : cline_wf l = true -> forallb value_char (cline_render l) = true.
Proof.
  unfold cline_wf, cline_render. rewrite !andb_true_iff. intros [[[_ N] P] V]. rewrite !forallb_app, !andb_true_iff. split; [exact (forallb_imp _ _ _ name_value N)|].
  split; [|split; [reflexivity|exact V]]. apply forallb_concat. intros x I. apply in_map_iff in I as (p & <- & I).
  apply cparam_chars. rewrite forallb_forall in P. auto.
Qed.

Lemma render_inj a b t t' : cline_wf a = true -> cline_wf b = true -> rest_ok t -> rest_ok t' -> cline_render a ++ t = cline_render b ++ t' -> a = b.
Proof.
  intros Wa Wb T T' Q. apply tail_line_end in T as [z T]. apply tail_line_end in T' as [z' T']. pose proof (get_phrase_complete a t z Wa T) as Ga. pose proof (get_phrase_complete b t' z' Wb T') as Gb.
  rewrite Q, Gb in Ga. apply cline_tokens_inj. congruence.
Qed.

(** A line with more at its end. *)
Lemma render_longer a b q t : cline_wf a = true -> cline_wf b = true -> rest_ok t -> cline_render a ++ q = cline_render b ++ t ->
  exists q1, q = q1 ++ t /\ b = CLine (cl_name a) (cl_params a) (cl_value a ++ q1).
Proof.
  intros Wa Wb T Q. destruct (app_eq_app _ _ _ _ Q) as (k & [[A K]|[A K]]).
  - destruct k as [|k0 k].
    + rewrite app_nil_r in A. cbn [app] in K. subst q. exists []. cbn [app]. split; [reflexivity|]. rewrite app_nil_r. assert (b = a).
      { apply (render_inj b a [] []); try assumption; try (left; reflexivity). rewrite A. reflexivity. } subst b. destruct a; reflexivity.
    + exfalso. destruct T as [->|(r & ->)]; [discriminate K|]. cbn [CRLF app] in K. injection K as <- K. pose proof (cline_chars _ Wa) as C. rewrite A, forallb_app in C. cbn [forallb] in C.
      change (value_char CR) with false in C. cbn [andb] in C. rewrite andb_false_r in C. discriminate.
  - exists k. split; [exact K|]. assert (W' : cline_wf (CLine (cl_name a) (cl_params a) (cl_value a ++ k)) = true).
    { unfold cline_wf in Wa |- *. cbn [cl_name cl_params cl_value]. rewrite !andb_true_iff in Wa |- *. destruct Wa as [[[W1 W2] W3] W4]. repeat split; try assumption. rewrite forallb_app, W4. cbn [andb].
      pose proof (cline_chars _ Wb) as C. rewrite A, forallb_app in C. apply andb_true_iff in C. apply C. }
    apply (render_inj _ _ [] []); try assumption; try (left; reflexivity). rewrite A. unfold cline_render. cbn [cl_name cl_params cl_value]. rewrite <- !app_assoc. reflexivity.
Qed.

Section Prefix.
Context {env : Env}.

Lemma decode_more s t cal : decode_bytes s = Ok cal -> decode_bytes (s ++ CRLF ++ t) = Ok cal.
Proof.
  intros D. apply decode_has_frame in D as (b & items & e & tail & F & T & -> & M & V). rewrite <- app_assoc. apply decode_frame; [exact F| |auto].
  right. destruct T as [->|(r & ->)]; [exists t; reflexivity|]. exists (r ++ CRLF ++ t). rewrite <- !app_assoc. reflexivity.
Qed.
Lemma decode_more_line s t cal : decode_bytes (s ++ CRLF) = Ok cal -> decode_bytes (s ++ CRLF ++ t) = Ok cal.
Proof.
  intros D. apply decode_has_frame in D as (b & items & e & tail & F & T & Q & M & V). destruct T as [->|(r & ->)].
  - exfalso. rewrite app_nil_r in Q. unfold frame_text, cline_render in Q. rewrite V in Q. change (bs "VCALENDAR") with (bs "VCALENDA" ++ bs "R") in Q. change CRLF with ([CR] ++ [LF]) in Q.
    rewrite !app_assoc in Q. apply app_inj_tail in Q as [_ Q]. discriminate.
  - rewrite app_assoc, Q, <- !app_assoc. apply decode_frame; [exact F| |auto]. right. exists (r ++ t). reflexivity.
Qed.

Lemma decode_cut b items e p q cal : framed b items e -> cl_value e = bs "VCALENDAR" -> frame_text b items e = p ++ q -> q <> [] -> decode_bytes p <> Ok cal.
Proof.
  intros F V Q NE D. apply decode_has_frame in D as (b' & items' & e' & tail' & F' & T' & -> & _ & V').
  assert (SAME : forall t, rest_ok t -> frame_text b items e = frame_text b' items' e' ++ t -> t = []).
  { intros t T H. assert (H' : frame_text b items e ++ [] = frame_text b' items' e' ++ t) by (rewrite app_nil_r; exact H).
    destruct (frames_same _ _ _ _ _ _ _ _ F F' (or_introl eq_refl) T H') as (-> & -> & ->). apply app_inv_head in H'. auto. }
  destruct T' as [->|(r & ->)].
  2: { rewrite <- app_assoc in Q. apply SAME in Q; [discriminate Q|]. right. exists (r ++ q). rewrite <- app_assoc. reflexivity. }
  rewrite app_nil_r in Q. assert (NQ : ~ rest_ok q) by (intros R; apply NE; apply SAME; assumption). clear SAME.
  destruct F as (B & Vb & Sh & E & W). destruct F' as (B' & Vb' & Sh' & E' & W'). unfold frame_text in Q. rewrite <- app_assoc in Q.
  (* read both sides *)
  pose proof (text_reads (b :: flat_map ilines items) e [] _ W LE_eof) as R1. rewrite app_nil_r in R1. rewrite Q in R1.
  assert (W0 : wf_lines (b' :: flat_map ilines items') /\ cline_wf e' = true).
  { split; [|rewrite Forall_forall in W'; apply W'; right; apply in_app_iff; right; left; reflexivity]. unfold wf_lines. change (b' :: flat_map ilines items' ++ [e']) with ((b' :: flat_map ilines items') ++ [e']) in W'.
    apply Forall_app in W' as [W' _]. exact W'. }
  destruct W0 as [W0 We].
  assert (R2 : reads (SrcTok (Tkz SName (Tok [] (lines_text (b' :: flat_map ilines items') ++ cline_render e' ++ q)))) (b' :: flat_map ilines items') (SrcTok (Tkz SName (Tok [] (cline_render e' ++ q))))).
  { destruct (exists_last (l := b' :: flat_map ilines items')) as (k & x & K); [discriminate|]. rewrite K in *. rewrite lines_text_app.
    assert (TL : lines_text [x] = cline_render x ++ CRLF) by (unfold lines_text; cbn [map concat]; apply app_nil_r). rewrite TL, <- !app_assoc. apply text_reads; [exact W0|constructor]. }
  destruct (reads_fun _ _ _ _ _ R2 R1) as (c & [[C RC]|[C RC]]).
  - destruct c as [|c0 c]; [inversion RC|]. inversion RC as [|? ? s1 ? ? G RC']; subst. cbn [get_ph] in G. pose proof (get_phrase_sound _ _ (R_name (cline_render e' ++ q))) as P.
    destruct (get_phrase _) as [[[data|] z]| | |]; cbn [bind] in G; try discriminate G. destruct P as (c1 & t1 & Wc & Dc & Lt & Tx).
    assert (HC : cline_tokens c1 = cline_tokens c0) by congruence. apply cline_tokens_inj in HC. subst c1. clear G Dc. apply line_end_tail in Lt.
    destruct (render_longer e' c0 q t1 We Wc Lt Tx) as (q1 & -> & ->). cbn [app] in C. injection C as -> C.
    assert (Ec : is_end (CLine (cl_name e') (cl_params e') (cl_value e' ++ q1))) by exact E'.
    destruct (shape_unique _ SCalendar items items' e _ [] c (le_n _) Sh Sh' E Ec C) as (_ & He & _). rewrite He in V. cbn [cl_value] in V. rewrite V' in V.
    assert (q1 = []) by (apply app_inv_head with (bs "VCALENDAR"); rewrite app_nil_r; exact V). subst q1. apply NQ. exact Lt.
  - destruct c as [|c0 c]; [inversion RC|]. inversion RC as [|? ? s1 ? ? G RC']; subst. cbn in G. discriminate.
Qed.
End Prefix.
