(** Folds at any place of a text. *)
From Coq Require Import String Ascii ZArith Bool List Lia.
From Verif Require Import Base Lib SpecLines Unfolder UnfolderProofs Folder FolderProofs Tokeniser GoTime PropTable Props SecTable Sections Codec DecodeProofs SpecCuts CutsProofs SampleCuts SpecAnywhere.
Import ListNotations.

Lemma folds_head ps : flat_map (fun q => fold3 ++ q) ps = [] \/ exists y, flat_map (fun q => fold3 ++ q) ps = CR :: y.
Proof. destruct ps as [|p ps]; [left; reflexivity|]. right. cbn [flat_map]. eexists. reflexivity. Qed.
Lemma fold_later c s : has_fold s -> has_fold (c :: s).
Proof. intros (a & b & ->). exists (c :: a), b. reflexivity. Qed.
Lemma unfold_piece ps : forall p, ~ has_fold p -> unfold (p ++ flat_map (fun q => fold3 ++ q) ps) = p ++ unfold (flat_map (fun q => fold3 ++ q) ps).
Proof.
  induction p as [|c p IH]; intros N; [reflexivity|]. assert (N' : ~ has_fold p) by (intros H; apply N, fold_later, H). cbn [app]. destruct (Ascii.ascii_dec c CR) as [->|C].
  - rewrite unfold_cr_other; [rewrite (IH N'); reflexivity|]. intros y Q. destruct (folds_head ps) as [H|(z & H)]; rewrite H in Q.
    + rewrite app_nil_r in Q. apply N. exists [], y. rewrite Q. reflexivity.
    + destruct p as [|a [|b p]]; cbn [app] in Q; [discriminate Q|discriminate Q|]. injection Q as -> -> _. apply N. exists [], p. reflexivity.
  - rewrite (unfold_not_cr _ _ C), (IH N'). reflexivity.
Qed.
Lemma no_fold_app a b : ~ has_fold (a ++ b) -> ~ has_fold a /\ ~ has_fold b.
Proof. intros N. split; intros (x & y & ->); apply N; [exists x, (y ++ b); rewrite <- !app_assoc; reflexivity|exists (a ++ x), y; rewrite <- !app_assoc; reflexivity]. Qed.
Theorem unfold_folded ps : ~ has_fold (concat ps) -> unfold (folded ps) = concat ps.
Proof.
  destruct ps as [|p ps]; [reflexivity|]. cbn [folded concat]. intros N. revert p N. induction ps as [|q ps IH]; intros p N; apply no_fold_app in N as [N1 N2]; rewrite (unfold_piece _ _ N1); [reflexivity|]. f_equal.
  cbn [flat_map]. rewrite <- app_assoc. change fold3 with eol. rewrite unfold_eol. exact (IH q N2).
Qed.
Section Anywhere.
Context {env : Env}.
Theorem folded_read ps w sizes : ~ has_fold (concat ps) -> ~ bad_tail (folded ps) -> (forall i, 1 <= sizes i) -> length (folded ps) <= sizes 0 ->
  exists n, forall fuel, n <= fuel -> Decode fuel sizes [folded ps] w = decode_bytes (concat ps).
Proof. intros N B S L. destruct (decode_one_read (folded ps) w sizes) as (n & H); auto. exists n. intros fuel F. rewrite (H fuel F), (unfold_folded _ N). reflexivity. Qed.
Theorem folded_reads ps sizes chunks ds : ~ has_fold (concat ps) -> concat chunks = folded ps -> (forall i, 2 <= sizes i) -> reads sizes 0 [] (Rdr chunks false REOF) ds -> no_cut ds -> Forall (fun d => ~ stuck d) ds ->
  exists n, forall fuel, n <= fuel -> Decode fuel sizes chunks false = decode_bytes (concat ps).
Proof. intros N Q S R C F. destruct (decode_clean sizes chunks ds S R C F) as (n & H). exists n. intros fuel L. rewrite (H fuel L), Q, (unfold_folded _ N). reflexivity. Qed.
End Anywhere.
