(** How the lines of a text begin and end. *)
From Coq Require Import String Ascii ZArith Bool List Lia.
From Verif Require Import Base Lib Strtok Tokeniser SpecContent TokeniserProofs GoTime Types Params ParamTable PropTable Props SecTable Sections Codec SpecTree TreeProofs ExactProofs SpecRules ShapeProofs PrefixProofs.
Import ListNotations.

Lemma render_start l : cline_wf l = true -> exists c r, cline_render l = c :: r /\ name_char c = true.
Proof.
  unfold cline_wf, cline_render. rewrite !andb_true_iff. intros [[[N W] _] _]. destruct (cl_name l) as [|c n]; [discriminate|].
  cbn [forallb] in W. apply andb_true_iff in W as [W _]. cbn [app]. eauto.
Qed.
Lemma no_cr l a k : cline_wf l = true -> cline_render l = a ++ CR :: k -> False.
Proof. intros W Q. apply cline_chars in W. rewrite Q, forallb_app in W. apply andb_true_iff in W as [_ W]. discriminate W. Qed.
Lemma no_lf l a k : cline_wf l = true -> cline_render l = a ++ LF :: k -> False.
Proof. intros W Q. apply cline_chars in W. rewrite Q, forallb_app in W. apply andb_true_iff in W as [_ W]. discriminate W. Qed.

(** A line end before something that is no name lies after the last line. *)
Lemma bad_start e tail c b : cline_wf e = true -> name_char c = false -> forall ls a, Forall (fun l => cline_wf l = true) ls ->
  lines_text ls ++ cline_render e ++ tail = a ++ CRLF ++ c :: b -> exists a', a = lines_text ls ++ cline_render e ++ a' /\ tail = a' ++ CRLF ++ c :: b.
Proof.
  intros We N. induction ls as [|l ls IH]; intros a W Q.
  - cbn [lines_text map concat app] in *. destruct (app_eq_app _ _ _ _ Q) as (k & [[A K]|[A K]]).
    + destruct k as [|x k]; [rewrite app_nil_r in A; exists []; subst a; cbn [app] in *; rewrite app_nil_r; auto|].
      cbn [CRLF app] in K. injection K as <- K. destruct (no_cr e a k We A).
    + exists k. auto.
  - inversion W as [|? ? Wl W']; subst. rewrite lines_text_cons, <- !app_assoc in Q.
    assert (S : lines_text ls ++ cline_render e ++ tail <> c :: b).
    { destruct ls as [|l' ls'].
      - cbn [lines_text map concat app]. destruct (render_start e We) as (x & r & -> & X). cbn [app]. congruence.
      - inversion W' as [|? ? Wl' _]; subst. rewrite lines_text_cons. destruct (render_start l' Wl') as (x & r & -> & X). cbn [app]. congruence. }
    destruct (app_eq_app _ _ _ _ Q) as (k & [[A K]|[A K]]).
    + destruct k as [|x k].
      * cbn [app] in K. injection K as K. destruct S. symmetry. exact K.
      * cbn [CRLF app] in K. injection K as <- K. destruct (no_cr l a k Wl A).
    + destruct k as [|x [|y k]].
      * cbn [CRLF app] in K. injection K as K. destruct (S K).
      * cbn [CRLF app] in K. discriminate K.
      * cbn [CRLF app] in K. injection K as <- <- K. destruct (IH k W' K) as (a' & -> & T). exists a'. split; [|exact T].
        rewrite A, lines_text_cons, <- !app_assoc. reflexivity.
Qed.
(** So does a line feed without a carriage return. *)
Lemma bare_lf e tail b : cline_wf e = true -> forall ls a, Forall (fun l => cline_wf l = true) ls -> (forall x, a <> x ++ [CR]) ->
  lines_text ls ++ cline_render e ++ tail = a ++ LF :: b -> exists a', a = lines_text ls ++ cline_render e ++ a' /\ tail = a' ++ LF :: b.
Proof.
  intros We. induction ls as [|l ls IH]; intros a W N Q.
  - cbn [lines_text map concat app] in *. destruct (app_eq_app _ _ _ _ Q) as (k & [[A K]|[A K]]).
    + destruct k as [|x k]; [rewrite app_nil_r in A; exists []; subst a; cbn [app] in *; rewrite app_nil_r; auto|].
      cbn [app] in K. injection K as <- K. destruct (no_lf e a k We A).
    + exists k. auto.
  - inversion W as [|? ? Wl W']; subst. rewrite lines_text_cons, <- !app_assoc in Q. destruct (app_eq_app _ _ _ _ Q) as (k & [[A K]|[A K]]).
    + destruct k as [|x k]; [discriminate K|]. cbn [app] in K. injection K as <- K. destruct (no_lf l a k Wl A).
    + destruct k as [|x [|y k]].
      * discriminate K.
      * cbn [CRLF app] in K. injection K as <- _. destruct (N _ A).
      * cbn [CRLF app] in K. injection K as <- <- K. destruct (IH k W') as (a' & -> & T); [intros z ->|exact K|].
        { apply (N (cline_render l ++ CR :: LF :: z)). rewrite A, <- app_assoc. reflexivity. }
        exists a'. split; [|exact T]. rewrite A, lines_text_cons, <- !app_assoc. reflexivity.
Qed.

Section S.
Context {env : Env}.
Theorem decode_bad_start a c b cal : name_char c = false -> decode_bytes (a ++ CRLF ++ c :: b) = Ok cal -> decode_bytes a = Ok cal.
Proof.
  intros N D. apply decode_bytes_exact in D as (bl & items & e & tail & B & V & M & E & VE & W & Q & T). apply decode_bytes_exact.
  pose proof W as W'. rewrite app_comm_cons in W'. apply Forall_app in W' as [W1 W2]. inversion W2; subst.
  destruct (bad_start e tail c b) with (ls := bl :: flat_map ilines items) (a := a) as (a' & -> & Q'); auto.
  exists bl, items, e, a'. do 6 (split; [assumption|]). split; [reflexivity|].
  destruct T as [T|(r & T)]; rewrite T in Q'; [destruct a'; discriminate Q'|]. destruct a' as [|x [|y a']]; [left; reflexivity|discriminate Q'|].
  cbn [CRLF app] in Q'. injection Q' as <- <- _. right. exists a'. reflexivity.
Qed.
Theorem decode_bare_lf a b cal : (forall x, a <> x ++ [CR]) -> decode_bytes (a ++ LF :: b) = Ok cal -> decode_bytes a = Ok cal.
Proof.
  intros N D. apply decode_bytes_exact in D as (bl & items & e & tail & B & V & M & E & VE & W & Q & T). apply decode_bytes_exact.
  pose proof W as W'. rewrite app_comm_cons in W'. apply Forall_app in W' as [W1 W2]. inversion W2; subst.
  destruct (bare_lf e tail b) with (ls := bl :: flat_map ilines items) (a := a) as (a' & -> & Q'); auto.
  exists bl, items, e, a'. do 6 (split; [assumption|]). split; [reflexivity|].
  destruct T as [T|(r & T)]; rewrite T in Q'; [destruct a'; discriminate Q'|]. destruct a' as [|x [|y a']]; [left; reflexivity|exfalso|].
  - cbn [CRLF app] in Q'. injection Q' as <- _. apply (N (lines_text (bl :: flat_map ilines items) ++ cline_render e)). rewrite <- !app_assoc. reflexivity.
  - cbn [CRLF app] in Q'. injection Q' as <- <- _. right. exists a'. reflexivity.
Qed.
End S.
