(** Proofs about media types. *)
From Coq Require Import String Ascii ZArith Bool List Lia ZifyBool.
From Verif Require Import Base Lib GoStrings GoTime Tokeniser Types Params ParamTable PropTable Props SpecContent SpecProps SpecRfc SpecValid SpecLine LineProofs ValidProofs SpecLetters SpecMedia LetterProofs SpecTree SpecParams Folder Sections Codec HangProofs.
Import ListNotations.
Local Open Scope Z_scope.

Lemma reg_media c : reg_char c -> media_char c.
Proof.
  intros [(d & [H | H]) | H].
  - right. right. apply letters_code in H as (R & _). unfold Utf8.in_range in R. lia.
  - right. left. apply letters_code in H as (R & _ & _ & Y). unfold Utf8.in_range in R. lia.
  - vm_compute in H. repeat (destruct H as [<- | H]; [vm_compute; first [left; tauto|right; left; split; intros; discriminate]|]). destruct H.
Qed.
Lemma media_type_like t : media_type t -> media_like t.
Proof.
  intros (a & b & -> & ([A _] & FA) & ([B _] & FB)). destruct b as [|y b]; [cbn [length] in B; lia|].
  destruct (exists_last (l := a)) as (a' & x & ->); [intros ->; cbn [length] in A; lia|].
  exists a', x, y, b. split; [rewrite <- app_assoc; reflexivity|]. split; apply reg_media; [|inversion FB; assumption]. apply Forall_app in FA as [_ FA]. inversion FA; assumption.
Qed.

Section M.
Context {env : Env}.
Lemma attach_read q t d u : url_parse d = Some u ->
  prop_decode PrAttachment (params_tokens (with_type q t)) d = if regex_match t then Ok (PStruct [Some (PVText t)] [Some (VURI u); None]) else Err ErrInvalidParam.
Proof.
  intros U. assert (V : value_decode KURI [] d = Ok (VURI u)) by (cbn [value_decode]; unfold url_decode; rewrite U; reflexivity).
  destruct q; unfold with_type; cbn -[regex_match value_decode].
  - destruct (regex_match t); cbn [bind ps_vtype ps_other ps_params snd]; [|reflexivity]. rewrite V. reflexivity.
  - destruct (regex_match t); cbn [bind ps_vtype ps_other ps_params snd]; [|reflexivity]. rewrite V. reflexivity.
Qed.
Theorem attach_types q t d u p : url_parse d = Some u ->
  (prop_decode PrAttachment (params_tokens (with_type q t)) d = Ok p <-> media_like t /\ p = PStruct [Some (PVText t)] [Some (VURI u); None]).
Proof.
  intros U. rewrite (attach_read q t d u U), <- regex_iff. destruct (regex_match t); split.
  - intros H. apply Ok_inj in H. split; [reflexivity|congruence].
  - intros [_ ->]. reflexivity.
  - discriminate.
  - intros [X _]. discriminate X.
Qed.
Theorem attach_valid t u : prop_valid PrAttachment (PStruct [Some (PVText t)] [Some (VURI u); None]) = None <-> media_like t.
Proof.
  rewrite <- regex_iff. cbn -[regex_match]. destruct (regex_match t); split; try reflexivity; discriminate.
Qed.
End M.
Definition slash_eq (a b : byte) : {a = b} + {a <> b} := ascii_dec a b.
Lemma reg_slash s : Forall reg_char s -> count_occ slash_eq s "/"%char = 0%nat.
Proof.
  intros F. apply count_occ_not_In. intros J. rewrite Forall_forall in F. apply F in J as [(d & [H | H]) | H].
  - apply letters_code in H as (R & _). discriminate R.
  - apply letters_code in H as (R & _ & _ & Y). unfold Utf8.in_range in R. change (code "/"%char) with 47 in Y. lia.
  - vm_compute in H. repeat (destruct H as [H|H]; [discriminate H|]). exact H.
Qed.
Theorem slashes a b : media_like (a ++ bs "///" ++ b) /\ ~ media_type (a ++ bs "///" ++ b).
Proof.
  split.
  - exists a, "/"%char, "/"%char, b. split; [reflexivity|]. split; right; left; vm_compute; split; discriminate.
  - intros (t & u & X & [_ T] & [_ U]). apply (f_equal (fun s => count_occ slash_eq s "/"%char)) in X. rewrite !count_occ_app, (reg_slash t T), (reg_slash u U) in X.
    change (count_occ slash_eq (bs "///") "/"%char) with 3%nat in X. change (count_occ slash_eq (bs "/") "/"%char) with 1%nat in X. lia.
Qed.

Theorem caret_types {env : Env} {W E : Type} (wr : W -> bytes -> W * option E) w cal t u : sec_valid cal = None -> has_prop cal PrAttachment (PStruct [Some (PVText t)] [Some (VURI u); None]) -> In "^"%char t ->
  exists w', Encode wr w cal = EncHang w'.
Proof.
  intros V H J. apply encode_hang_exact. split; [exact V|]. exists PrAttachment, (PStruct [Some (PVText t)] [Some (VURI u); None]). split; [exact H|].
  exists [PmFormatType], [(bs "URI", KURI); (bs "BINARY", KBinary)], [Some (PVText t)], [Some (VURI u); None], PmFormatType, (PVText t), t, "^"%char.
  split; [reflexivity|]. split; [reflexivity|]. split; [left; reflexivity|]. split; [constructor|]. split; [exact J|right; left; reflexivity].
Qed.
