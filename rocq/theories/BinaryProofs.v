(** Binary values. *)
From Coq Require Import String Ascii ZArith Bool List Lia ZifyBool.
From Verif Require Import Base Lib Utf8 GoStrings GoTime Types NumProofs SpecContent.
Import ListNotations.
Local Open Scope Z_scope.

Definition six : list Z := map Z.of_nat (seq 0 64).
Lemma six_forall (p : Z -> bool) : forallb p six = true -> forall v, 0 <= v < 64 -> p v = true.
Proof.
  intros H v R. rewrite forallb_forall in H. apply H. unfold six. apply in_map_iff. exists (Z.to_nat v).
  split; [lia|]. apply in_seq. lia.
Qed.

Definition b64_char (c : byte) : bool := match b64_val c with Some _ => true | None => beqc c "=" end.

Lemma b64_val_chr v : 0 <= v < 64 -> b64_val (b64_chr v) = Some v /\ beqc (b64_chr v) "=" = false.
Proof.
  intros R.
  pose proof (six_forall (fun v => match b64_val (b64_chr v) with Some x => x =? v | None => false end && negb (beqc (b64_chr v) "="))
    ltac:(vm_compute; reflexivity) v R) as H. cbv beta in H.
  destruct (b64_val (b64_chr v)); [|discriminate]. apply andb_true_iff in H as [H1 H2]. apply Z.eqb_eq in H1. subst.
  apply negb_true_iff in H2. auto.
Qed.

Lemma b64_ind (P : bytes -> Prop) : P [] -> (forall a, P [a]) -> (forall a b, P [a; b]) ->
  (forall a b c l, P l -> P (a :: b :: c :: l)) -> forall l, P l.
Proof.
  intros H0 H1 H2 H3. fix IH 1. intros [|a [|b [|c l]]]; [exact H0|apply H1|apply H2|apply H3, IH].
Qed.

Lemma chr_eq z c : z = code c -> chr z = c.
Proof. intros ->. apply chr_code. Qed.

Lemma b64_dec_enc l : b64_dec (b64_enc l) = Some l.
Proof.
  induction l as [|a|a b|a b c l IH] using b64_ind.
  - reflexivity.
  - cbn [b64_enc b64_dec]. cbv zeta. pose proof (code_range a).
    destruct (b64_val_chr (code a * 65536 / 262144)) as [-> _]; [dlia|].
    destruct (b64_val_chr (code a * 65536 / 4096 mod 64)) as [-> _]; [dlia|].
    change (beqc "=" "=") with true. cbv iota. repeat f_equal. apply chr_eq. dlia.
  - cbn [b64_enc b64_dec]. cbv zeta. pose proof (code_range a). pose proof (code_range b).
    set (v := code a * 65536 + code b * 256).
    destruct (b64_val_chr (v / 262144)) as [-> _]; [unfold v; dlia|].
    destruct (b64_val_chr (v / 4096 mod 64)) as [-> _]; [dlia|].
    destruct (b64_val_chr (v / 64 mod 64)) as [-> ->]; [dlia|].
    change (beqc "=" "=") with true. cbv iota. unfold v. repeat f_equal; apply chr_eq; dlia.
  - cbn [b64_enc b64_dec]. cbv zeta. pose proof (code_range a). pose proof (code_range b). pose proof (code_range c).
    set (v := code a * 65536 + code b * 256 + code c).
    destruct (b64_val_chr (v / 262144)) as [-> _]; [unfold v; dlia|].
    destruct (b64_val_chr (v / 4096 mod 64)) as [-> _]; [dlia|].
    destruct (b64_val_chr (v / 64 mod 64)) as [-> ->]; [dlia|].
    destruct (b64_val_chr (v mod 64)) as [-> ->]; [dlia|].
    rewrite IH. unfold v. repeat f_equal; apply chr_eq; dlia.
Qed.

Lemma b64_enc_app a b : (length a mod 3 = 0)%nat -> b64_enc (a ++ b) = b64_enc a ++ b64_enc b.
Proof.
  induction a as [|x|x y|x y z a IH] using b64_ind; intros H; try discriminate; [reflexivity|].
  cbn [b64_enc app]. cbv zeta. rewrite IH; [reflexivity|].
  cbn [length] in H. replace (S (S (S (length a)))) with (length a + 1 * 3)%nat in H by lia.
  rewrite Nat.mod_add in H by lia. exact H.
Qed.

Lemma binary_writes_concat : forall fuel l, (length l < fuel)%nat -> concat (binary_writes fuel l) = b64_enc l.
Proof.
  induction fuel as [|f IH]; intros l F; [lia|]. cbn [binary_writes].
  destruct (Nat.ltb (length l) 3) eqn:L.
  - destruct l; [reflexivity|]. cbn [concat]. apply app_nil_r.
  - apply Nat.ltb_ge in L. set (nn := Nat.min 768 (length l - Nat.modulo (length l) 3)).
    assert (M : (nn mod 3 = 0 /\ 0 < nn <= length l)%nat).
    { unfold nn. pose proof (Nat.mod_upper_bound (length l) 3 ltac:(lia)) as U.
      pose proof (Nat.div_mod (length l) 3 ltac:(lia)) as DM.
      destruct (Nat.min_spec 768 (length l - length l mod 3)) as [[X ->]|[X ->]].
      - split; [reflexivity|lia].
      - split; [|lia]. replace (length l - length l mod 3)%nat with (0 + (length l / 3) * 3)%nat by lia.
        rewrite Nat.mod_add by lia. reflexivity. }
    clearbody nn. destruct M as [M1 M2]. cbn [concat].
    rewrite IH by (rewrite skipn_length; lia). rewrite <- b64_enc_app.
    + rewrite firstn_skipn. reflexivity.
    + rewrite firstn_length_le by lia. exact M1.
Qed.

Lemma b64_chr_char v : 0 <= v < 64 -> b64_char (b64_chr v) = true.
Proof. intros R. unfold b64_char. destruct (b64_val_chr v R) as [-> _]. reflexivity. Qed.

Lemma b64_enc_chars l : forallb b64_char (b64_enc l) = true.
Proof.
  induction l as [|a|a b|a b c l IH] using b64_ind; cbn [b64_enc forallb]; cbv zeta; [reflexivity| | |].
  - pose proof (code_range a). rewrite !b64_chr_char by dlia. reflexivity.
  - pose proof (code_range a). pose proof (code_range b). rewrite !b64_chr_char by dlia. reflexivity.
  - pose proof (code_range a). pose proof (code_range b). pose proof (code_range c). rewrite !b64_chr_char by dlia. exact IH.
Qed.

Lemma b64_char_value c : b64_char c = true -> value_char c = true /\ negb (beqc c CR || beqc c LF) = true.
Proof.
  intros H. pose proof (byte_forall (fun c => implb (b64_char c) (value_char c && negb (beqc c CR || beqc c LF))) ltac:(vm_compute; reflexivity) c) as B.
  cbv beta in B. rewrite H in B. cbn [implb] in B. apply andb_true_iff in B. exact B.
Qed.

Lemma filter_all {A} (p : A -> bool) l : forallb p l = true -> filter p l = l.
Proof.
  induction l as [|a l IH]; [reflexivity|]. cbn [forallb filter]. intros H. apply andb_true_iff in H as [-> H].
  rewrite IH by exact H. reflexivity.
Qed.

Theorem binary_roundtrip m b : pmap_get m (bs "ENCODING") = Some (bs "BASE64") ->
  binary_decode m (concat (binary_encode b)) = Ok b.
Proof.
  intros H. unfold binary_decode, binary_encode. rewrite H. change (beq (bs "BASE64") (bs "BASE64")) with true. cbv iota.
  rewrite binary_writes_concat by lia. unfold b64_decode_string. rewrite filter_all.
  - rewrite b64_dec_enc. reflexivity.
  - eapply forallb_impl; [|apply b64_enc_chars]. intros c C. apply b64_char_value, C.
Qed.

Lemma binary_chars b : forallb value_char (concat (binary_encode b)) = true.
Proof.
  unfold binary_encode. rewrite binary_writes_concat by lia.
  eapply forallb_impl; [|apply b64_enc_chars]. intros c C. apply b64_char_value, C.
Qed.
