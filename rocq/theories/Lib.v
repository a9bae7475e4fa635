(** Basic lemmas on bytes, strings and outcomes. *)
From Coq Require Import String Ascii ZArith NArith Bool List Lia ZifyBool.
From Verif Require Import Base.
Import ListNotations.
Local Open Scope Z_scope.

(** ** Bytes *)

Definition all_bytes : list byte := map chr (map Z.of_nat (seq 0 256)).

Lemma code_range c : 0 <= code c < 256.
Proof.
  unfold code. destruct c as [[] [] [] [] [] [] [] []]; vm_compute; split; congruence.
Qed.

Lemma chr_code c : chr (code c) = c.
Proof. unfold chr, code. rewrite N2Z.id. apply ascii_N_embedding. Qed.

Lemma code_chr z : 0 <= z < 256 -> code (chr z) = z.
Proof.
  intros. unfold chr, code. rewrite N_ascii_embedding; lia.
Qed.

Lemma code_inj a b : code a = code b -> a = b.
Proof. intros H. rewrite <- (chr_code a), <- (chr_code b). congruence. Qed.

Lemma all_bytes_in c : In c all_bytes.
Proof.
  unfold all_bytes. apply in_map_iff. exists (code c). split; [apply chr_code|].
  apply in_map_iff. exists (Z.to_nat (code c)). pose proof (code_range c).
  split; [lia|]. apply in_seq. lia.
Qed.

(** Decide a statement about every byte by computation. *)
Lemma byte_forall (p : byte -> bool) : forallb p all_bytes = true -> forall c, p c = true.
Proof. intros H c. rewrite forallb_forall in H. apply H, all_bytes_in. Qed.

Lemma beqc_eq a b : beqc a b = true <-> a = b.
Proof. apply Ascii.eqb_eq. Qed.
Lemma beqc_neq a b : beqc a b = false <-> a <> b.
Proof. apply Ascii.eqb_neq. Qed.
Lemma beqc_refl a : beqc a a = true.
Proof. apply Ascii.eqb_refl. Qed.
Lemma beqc_sym a b : beqc a b = beqc b a.
Proof. apply Ascii.eqb_sym. Qed.
Lemma beqc_code a b : beqc a b = (code a =? code b).
Proof.
  destruct (beqc a b) eqn:E.
  - apply beqc_eq in E. subst. lia.
  - apply beqc_neq in E. symmetry. apply Z.eqb_neq. intros H. apply E, code_inj, H.
Qed.

Lemma beq_eq a b : beq a b = true <-> a = b.
Proof.
  revert b. induction a as [|x a IH]; destruct b as [|y b]; cbn; try (split; congruence).
  rewrite andb_true_iff, beqc_eq, IH. split; [intros []; congruence|intros [=]; auto].
Qed.
Lemma beq_refl a : beq a a = true.
Proof. apply beq_eq. reflexivity. Qed.
Lemma beq_neq a b : beq a b = false <-> a <> b.
Proof.
  destruct (beq a b) eqn:E.
  - apply beq_eq in E. split; congruence.
  - split; [|reflexivity]. intros _ H. apply beq_eq in H. congruence.
Qed.

Lemma inset_In c s : inset c s = true <-> In c s.
Proof.
  unfold inset. rewrite existsb_exists. split.
  - intros (x & Hx & E). apply beqc_eq in E. subst. exact Hx.
  - intros H. exists c. split; [exact H|apply beqc_refl].
Qed.
Lemma inset_nIn c s : inset c s = false <-> ~ In c s.
Proof.
  destruct (inset c s) eqn:E.
  - apply inset_In in E. split; [congruence|contradiction].
  - split; [|reflexivity]. intros _ H. apply inset_In in H. congruence.
Qed.

(** ** span *)

Lemma span_app p l : let '(a, b) := span p l in
  l = a ++ b /\ forallb p a = true /\ match b with [] => True | c :: _ => p c = false end.
Proof.
  induction l as [|c l IH]; cbn; [auto|].
  destruct (p c) eqn:E.
  - destruct (span p l) as [a b]. destruct IH as (-> & Ha & Hb). cbn. rewrite E. auto.
  - cbn. auto.
Qed.

Lemma span_all p l r : forallb p l = true -> match r with [] => True | c :: _ => p c = false end ->
  span p (l ++ r) = (l, r).
Proof.
  induction l as [|c l IH]; cbn; intros Hl Hr.
  - destruct r as [|c r]; [reflexivity|]. cbn. rewrite Hr. reflexivity.
  - apply andb_true_iff in Hl as [H1 H2]. rewrite H1, (IH H2 Hr). reflexivity.
Qed.

Lemma span_all_nil p l : forallb p l = true -> span p l = (l, []).
Proof. intros H. rewrite <- (app_nil_r l) at 1. apply span_all; [exact H|exact I]. Qed.

(** ** Lists *)

Lemma forallb_app_iff {A} (p : A -> bool) a b :
  forallb p (a ++ b) = true <-> forallb p a = true /\ forallb p b = true.
Proof. rewrite forallb_app, andb_true_iff. reflexivity. Qed.

Lemma forallb_impl {A} (p q : A -> bool) l :
  (forall x, p x = true -> q x = true) -> forallb p l = true -> forallb q l = true.
Proof. rewrite !forallb_forall. auto. Qed.

Lemma existsb_false {A} (p : A -> bool) l : existsb p l = false <-> forall x, In x l -> p x = false.
Proof.
  split.
  - intros H x Hx. destruct (p x) eqn:E; [|reflexivity].
    rewrite <- H. symmetry. apply existsb_exists. eauto.
  - intros H. destruct (existsb p l) eqn:E; [|reflexivity].
    apply existsb_exists in E as (x & Hx & E). rewrite (H x Hx) in E. discriminate.
Qed.

Lemma concat_map_single {A} (l : list A) : concat (map (fun x => [x]) l) = l.
Proof. induction l; cbn; congruence. Qed.

(** ** Outcomes *)

Lemma bind_ok {A B} (r : res A) (f : A -> res B) b :
  bind r f = Ok b <-> exists a, r = Ok a /\ f a = Ok b.
Proof.
  destruct r as [a|e| |]; cbn; split.
  - eauto.
  - intros (a' & [= ->] & H). exact H.
  - discriminate.
  - intros (a' & [=] & _).
  - discriminate.
  - intros (a' & [=] & _).
  - discriminate.
  - intros (a' & [=] & _).
Qed.

Lemma of_option_ok {A} e (o : option A) a : of_option e o = Ok a <-> o = Some a.
Proof. destruct o; cbn; split; congruence. Qed.

Lemma contains_any_false s set : contains_any s set = false <-> forall c, In c s -> ~ In c set.
Proof.
  unfold contains_any. rewrite existsb_false. split; intros H c Hc; apply inset_nIn, H, Hc.
Qed.

Lemma Ok_inj {A} (a b : A) : Ok a = Ok b -> a = b.
Proof. intros H. injection H. auto. Qed.
