(** What Decode returns depends on what it has read only. *)
From Coq Require Import String Ascii ZArith Bool List Arith Lia.
From Verif Require Import Base Lib Utf8 GoStrings Strtok Tokeniser GoTime Types Params ParamTable PropTable Props SecTable Sections Codec Unfolder UnfolderProofs ReadersProofs TotalProofs OnDemand DemandProofs SpecDemand.
Import ListNotations.

(** ** A run goes forward *)
Section Back.
Context {env : Env} {A B : Type} (getA : A -> res (phrase * A)) (getB : B -> res (phrase * B)) (le : A -> A -> Prop).
Hypothesis le_trans : forall a b c, le a b -> le b c -> le a c.
Hypothesis le_get : forall a p a', getA a = Ok (p, a') -> le a a'.

Lemma get_inv a p s : g_get getA (GTok a) = Ok (p, s) -> exists a1, s = GTok a1 /\ getA a = Ok (p, a1).
Proof. cbn [g_get]. intros Q. apply bind_ok in Q as ([q a1] & G & Q). apply Ok_inj in Q. injection Q as <- <-. eauto. Qed.
Lemma dummy_le : forall f n a s, g_dummy getA f n (GTok a) = Ok s -> exists a', s = GTok a' /\ le a a'.
Proof.
  induction f as [|f IH]; intros n a s Q; [discriminate Q|]. cbn [g_dummy] in Q. apply bind_ok in Q as ([ph s1] & G & Q). apply get_inv in G as (a1 & -> & G). apply le_get in G.
  destruct ph as [d|]; [|discriminate Q]. apply bind_ok in Q as ([[name ps] value] & _ & Q). destruct (beq (upper name) (bs "BEGIN")).
  - apply bind_ok in Q as (s2 & Q1 & Q). apply IH in Q1 as (a2 & -> & L2). apply IH in Q as (a3 & -> & L3). eauto.
  - destruct (beq (upper name) (bs "END")); [|apply IH in Q as (a2 & -> & L2); eauto]. destruct (beq (upper value) n); [|discriminate Q]. apply Ok_inj in Q. subst. eauto.
Qed.
Lemma gather_le : forall f ty acc a x s, g_gather getA f ty acc (GTok a) = Ok (x, s) -> exists a', s = GTok a' /\ le a a'.
Proof.
  induction f as [|f IH]; intros ty acc a x s Q; [discriminate Q|]. cbn [g_gather] in Q. apply bind_ok in Q as ([ph s1] & G & Q). apply get_inv in G as (a1 & -> & G). apply le_get in G.
  destruct ph as [d|]; [|discriminate Q]. apply bind_ok in Q as ([[name ps] value] & _ & Q). destruct (beq name (bs "BEGIN")); [discriminate Q|]. destruct (beq name (bs "ACTION")).
  - destruct ty; [discriminate Q|]. apply IH in Q as (a2 & -> & L2). eauto.
  - destruct (beq name (bs "END")); [|apply IH in Q as (a2 & -> & L2); eauto]. apply Ok_inj in Q. injection Q as <- <-. eauto.
Qed.
Lemma sec_le : forall f id fs a x s, g_sec getA f id fs (GTok a) = Ok (x, s) -> exists a', s = GTok a' /\ le a a'.
Proof.
  induction f as [|f IH]; intros id fs a x s Q; [discriminate Q|]. cbn [g_sec] in Q. apply bind_ok in Q as ([ph s1] & G & Q). apply get_inv in G as (a1 & -> & G). apply le_get in G.
  destruct ph as [d|]; [|discriminate Q]. apply bind_ok in Q as ([[name ps] value] & _ & Q). destruct (beq (upper name) (bs "BEGIN")).
  - destruct (find_field _ _) as [[i fd]|].
    + destruct (full fd i fs); [discriminate Q|]. destruct (fd_type fd) as [pid|sid|]; [discriminate Q| |].
      * apply bind_ok in Q as ([y s2] & Q1 & Q). apply IH in Q1 as (a2 & -> & L2). apply IH in Q as (a3 & -> & L3). eauto.
      * apply bind_ok in Q as ([[pt [sid|]] s2] & Q1 & Q); [|discriminate Q]. apply gather_le in Q1 as (a2 & -> & L2). apply bind_ok in Q as ([y s3] & _ & Q). apply IH in Q as (a3 & -> & L3). eauto.
    + apply bind_ok in Q as (s2 & Q1 & Q). apply dummy_le in Q1 as (a2 & -> & L2). apply IH in Q as (a3 & -> & L3). eauto.
  - destruct (find_field _ _) as [[i fd]|].
    + destruct (full fd i fs); [discriminate Q|]. destruct (fd_type fd) as [pid|sid|]; [|discriminate Q|discriminate Q]. apply bind_ok in Q as (y & _ & Q). apply IH in Q as (a2 & -> & L2). eauto.
    + destruct (beq (upper name) (bs "END")); [|apply IH in Q as (a2 & -> & L2); eauto]. destruct (beq value (sp_name (sec_spec id))); [|discriminate Q].
      apply bind_ok in Q as (y & _ & Q). apply Ok_inj in Q. injection Q as <- <-. eauto.
Qed.
Lemma decode_le f a x s : g_decode getA f (GTok a) = Ok (x, s) -> exists a', s = GTok a' /\ le a a'.
Proof.
  unfold g_decode. intros Q. apply bind_ok in Q as ([ph s1] & G & Q). apply get_inv in G as (a1 & -> & G). apply le_get in G.
  destruct ph as [d|]; [|discriminate Q]. apply bind_ok in Q as ([[name ps] value] & _ & Q). destruct (_ && _); [|discriminate Q]. apply sec_le in Q as (a2 & -> & L2). eauto.
Qed.

(** ** Another source that has the same phrases up to [last] *)
Context (final : A) (R : A -> B -> Prop).
Hypothesis R_get : forall a p a' b, getA a = Ok (p, a') -> le a' final -> R a b -> exists b', getB b = Ok (p, b') /\ R a' b'.

Lemma get_back a p a1 b : getA a = Ok (p, a1) -> le a1 final -> R a b -> exists b1, g_get getB (GTok b) = Ok (p, GTok b1) /\ R a1 b1.
Proof. intros G L r. destruct (R_get _ _ _ _ G L r) as (b1 & G1 & r1). exists b1. cbn [g_get]. rewrite G1. auto. Qed.
Lemma list_same f id fs l x s : g_sec getA f id fs (GList l) = Ok (x, s) -> exists s', g_sec getB f id fs (GList l) = Ok (x, s').
Proof.
  intros Q. pose proof (sec_sim getA getB (fun _ _ => False) (fun _ => False) (fun a b (F : False) => match F with end) f f id fs (GList l) (GList l) (Nat.le_refl f) (RList _ l)) as S.
  rewrite Q in S. cbn [agree] in S. destruct S as ([y s'] & S & [E _]). cbn [fst] in E. subst y. eauto.
Qed.

Lemma dummy_back : forall f n a a' b, g_dummy getA f n (GTok a) = Ok (GTok a') -> le a' final -> R a b -> exists b', g_dummy getB f n (GTok b) = Ok (GTok b') /\ R a' b'.
Proof.
  induction f as [|f IH]; intros n a a' b Q L r; [discriminate Q|]. cbn [g_dummy] in Q |- *. apply bind_ok in Q as ([ph s1] & G & Q). apply get_inv in G as (a1 & -> & G).
  assert (BK : le a1 final -> exists b1, g_get getB (GTok b) = Ok (ph, GTok b1) /\ R a1 b1) by (intros L1; apply (get_back a); assumption).
  destruct ph as [d|]; [|discriminate Q]. destruct (parts d) as [[[name ps] value]| | |] eqn:P; cbn [bind] in Q; try discriminate Q. destruct (beq (upper name) (bs "BEGIN")) eqn:E1.
  - apply bind_ok in Q as (s2 & Q1 & Q). pose proof Q1 as Q1'. apply dummy_le in Q1 as (a2 & -> & L2). pose proof Q as Q'. apply dummy_le in Q as (a3 & X & L3). injection X as <-.
    destruct BK as (b1 & -> & r1); [eauto|]. cbn [bind]. rewrite P. cbn [bind]. rewrite E1. destruct (IH _ _ _ _ Q1' ltac:(eauto) r1) as (b2 & -> & r2). cbn [bind]. exact (IH _ _ _ _ Q' L r2).
  - destruct (beq (upper name) (bs "END")) eqn:E2.
    + destruct (beq (upper value) n) eqn:E3; [|discriminate Q]. apply Ok_inj in Q. injection Q as ->. destruct BK as (b1 & -> & r1); [exact L|]. cbn [bind]. rewrite P. cbn [bind]. rewrite E1, E2, E3. eauto.
    + pose proof Q as Q'. apply dummy_le in Q as (a3 & X & L3). injection X as <-. destruct BK as (b1 & -> & r1); [eauto|]. cbn [bind]. rewrite P. cbn [bind]. rewrite E1, E2. exact (IH _ _ _ _ Q' L r1).
Qed.
Lemma gather_back : forall f ty acc a x a' b, g_gather getA f ty acc (GTok a) = Ok (x, GTok a') -> le a' final -> R a b -> exists b', g_gather getB f ty acc (GTok b) = Ok (x, GTok b') /\ R a' b'.
Proof.
  induction f as [|f IH]; intros ty acc a x a' b Q L r; [discriminate Q|]. cbn [g_gather] in Q |- *. apply bind_ok in Q as ([ph s1] & G & Q). apply get_inv in G as (a1 & -> & G).
  assert (BK : le a1 final -> exists b1, g_get getB (GTok b) = Ok (ph, GTok b1) /\ R a1 b1) by (intros L1; apply (get_back a); assumption).
  destruct ph as [d|]; [|discriminate Q]. destruct (parts d) as [[[name ps] value]| | |] eqn:P; cbn [bind] in Q; try discriminate Q. destruct (beq name (bs "BEGIN")) eqn:E1; [discriminate Q|].
  assert (L1 : le a1 final).
  { destruct (beq name (bs "ACTION")); [destruct ty; [discriminate Q|]; apply gather_le in Q as (a3 & X & L3); injection X as <-; eauto|].
    destruct (beq name (bs "END")); [apply Ok_inj in Q; injection Q as _ ->; exact L|]. apply gather_le in Q as (a3 & X & L3). injection X as <-. eauto. }
  destruct (BK L1) as (b1 & -> & r1). cbn [bind]. rewrite P. cbn [bind]. rewrite E1. destruct (beq name (bs "ACTION")).
  - destruct ty; [discriminate Q|]. exact (IH _ _ _ _ _ _ Q L r1).
  - destruct (beq name (bs "END")); [|exact (IH _ _ _ _ _ _ Q L r1)]. apply Ok_inj in Q. injection Q as <- ->. eauto.
Qed.
Lemma sec_back : forall f id fs a x a' b, g_sec getA f id fs (GTok a) = Ok (x, GTok a') -> le a' final -> R a b -> exists b', g_sec getB f id fs (GTok b) = Ok (x, GTok b') /\ R a' b'.
Proof.
  induction f as [|f IH]; intros id fs a x a' b Q L r; [discriminate Q|]. cbn [g_sec] in Q |- *. apply bind_ok in Q as ([ph s1] & G & Q). apply get_inv in G as (a1 & -> & G).
  assert (BK : le a1 final -> exists b1, g_get getB (GTok b) = Ok (ph, GTok b1) /\ R a1 b1) by (intros L1; apply (get_back a); assumption).
  destruct ph as [d|]; [|discriminate Q]. destruct (parts d) as [[[name ps] value]| | |] eqn:P; cbn [bind] in Q; try discriminate Q. destruct (beq (upper name) (bs "BEGIN")) eqn:E1.
  - destruct (find_field _ _) as [[i fd]|] eqn:FF.
    + destruct (full fd i fs) eqn:FU; [discriminate Q|]. destruct (fd_type fd) as [pid|sid|] eqn:FT; [discriminate Q| |].
      * apply bind_ok in Q as ([y s2] & Q1 & Q). pose proof Q1 as Q1'. apply sec_le in Q1 as (a2 & -> & L2). pose proof Q as Q'. apply sec_le in Q as (a3 & X & L3). injection X as <-.
        destruct BK as (b1 & -> & r1); [eauto|]. cbn [bind]. rewrite P. cbn [bind]. rewrite E1, FF, FU, FT. destruct (IH _ _ _ _ _ _ Q1' ltac:(eauto) r1) as (b2 & -> & r2). cbn [bind]. exact (IH _ _ _ _ _ _ Q' L r2).
      * apply bind_ok in Q as ([[pt [sid|]] s2] & Q1 & Q); [|discriminate Q]. pose proof Q1 as Q1'. apply gather_le in Q1 as (a2 & -> & L2). apply bind_ok in Q as ([y s3] & QL & Q). pose proof Q as Q'. apply sec_le in Q as (a3 & X & L3). injection X as <-.
        destruct BK as (b1 & -> & r1); [eauto|]. cbn [bind]. rewrite P. cbn [bind]. rewrite E1, FF, FU, FT. destruct (gather_back _ _ _ _ _ _ _ Q1' ltac:(eauto) r1) as (b2 & -> & r2). cbn [bind].
        destruct (list_same _ _ _ _ _ _ QL) as (s' & ->). cbn [bind]. exact (IH _ _ _ _ _ _ Q' L r2).
    + apply bind_ok in Q as (s2 & Q1 & Q). pose proof Q1 as Q1'. apply dummy_le in Q1 as (a2 & -> & L2). pose proof Q as Q'. apply sec_le in Q as (a3 & X & L3). injection X as <-.
      destruct BK as (b1 & -> & r1); [eauto|]. cbn [bind]. rewrite P. cbn [bind]. rewrite E1, FF. destruct (dummy_back _ _ _ _ _ Q1' ltac:(eauto) r1) as (b2 & -> & r2). cbn [bind]. exact (IH _ _ _ _ _ _ Q' L r2).
  - destruct (find_field _ _) as [[i fd]|] eqn:FF.
    + destruct (full fd i fs) eqn:FU; [discriminate Q|]. destruct (fd_type fd) as [pid|sid|] eqn:FT; [|discriminate Q|discriminate Q]. apply bind_ok in Q as (y & PD & Q). pose proof Q as Q'. apply sec_le in Q as (a3 & X & L3). injection X as <-.
      destruct BK as (b1 & -> & r1); [eauto|]. cbn [bind]. rewrite P. cbn [bind]. rewrite E1, FF, FU, FT, PD. cbn [bind]. exact (IH _ _ _ _ _ _ Q' L r1).
    + destruct (beq (upper name) (bs "END")) eqn:E2.
      * destruct (beq value (sp_name (sec_spec id))) eqn:E3; [|discriminate Q]. apply bind_ok in Q as (y & FI & Q). apply Ok_inj in Q. injection Q as <- ->.
        destruct (BK L) as (b1 & -> & r1). cbn [bind]. rewrite P. cbn [bind]. rewrite E1, FF, E2, E3, FI. cbn [bind]. eauto.
      * pose proof Q as Q'. apply sec_le in Q as (a3 & X & L3). injection X as <-. destruct BK as (b1 & -> & r1); [eauto|]. cbn [bind]. rewrite P. cbn [bind]. rewrite E1, FF, E2. exact (IH _ _ _ _ _ _ Q' L r1).
Qed.
Lemma decode_back f a x a' b : g_decode getA f (GTok a) = Ok (x, GTok a') -> le a' final -> R a b -> exists b', g_decode getB f (GTok b) = Ok (x, GTok b') /\ R a' b'.
Proof.
  intros Q L r. unfold g_decode in Q |- *. apply bind_ok in Q as ([ph s1] & G & Q). apply get_inv in G as (a1 & -> & G).
  assert (BK : le a1 final -> exists b1, g_get getB (GTok b) = Ok (ph, GTok b1) /\ R a1 b1) by (intros L1; apply (get_back a); assumption).
  destruct ph as [d|]; [|discriminate Q]. destruct (parts d) as [[[name ps] value]| | |] eqn:P; cbn [bind] in Q; try discriminate Q. destruct (_ && _) eqn:E; [|discriminate Q].
  pose proof Q as Q'. apply sec_le in Q as (a3 & X & L3). injection X as <-. destruct BK as (b1 & -> & r1); [eauto|]. cbn [bind]. rewrite P. cbn [bind]. rewrite E. exact (sec_back _ _ _ _ _ _ _ Q' L r1).
Qed.
End Back.

(** ** The reads of a run *)
Inductive path (sizes : nat -> nat) : ostate -> bytes -> ostate -> Prop :=
| path_here o o' : o_i o = o_i o' -> o_buf o = o_buf o' -> o_r o = o_r o' -> o_end o = o_end o' -> path sizes o [] o'
| path_read fuel o d e buf r z d' o' : o_end o = false -> unf_read fuel (o_buf o) (o_r o) (sizes (o_i o)) = Ok (d, e, buf, r) ->
    path sizes (OState z (S (o_i o)) buf r (is_some e)) d' o' -> path sizes o (d ++ d') o'.

Lemma path_start sizes o1 o2 d o' : o_i o1 = o_i o2 -> o_buf o1 = o_buf o2 -> o_r o1 = o_r o2 -> o_end o1 = o_end o2 -> path sizes o1 d o' -> path sizes o2 d o'.
Proof.
  intros I B R E P. inversion P; subst.
  - constructor; congruence.
  - apply (path_read sizes fuel o2 d0 e buf r z d'); [congruence|rewrite <- B, <- R, <- I; assumption|]. rewrite <- I. assumption.
Qed.
Lemma path_trans sizes o1 d1 o2 : path sizes o1 d1 o2 -> forall d2 o3, path sizes o2 d2 o3 -> path sizes o1 (d1 ++ d2) o3.
Proof.
  intros P. induction P as [o o' I B R E|fuel o d e buf r z d' o' E U P IH]; intros d2 o3 P2.
  - cbn [app]. apply (path_start sizes o' o); auto.
  - rewrite <- app_assoc. apply (path_read sizes fuel o d e buf r z); auto.
Qed.
Lemma path_le sizes o d o' : path sizes o d o' -> o_i o <= o_i o'.
Proof. intros P. induction P as [o o' I B R E|fuel o d e buf r z d' o' E U P IH]; [lia|]. cbn [o_i] in IH. lia. Qed.
Lemma unf_read_det f1 f2 buf r L x y : unf_read f1 buf r L = Ok x -> unf_read f2 buf r L = Ok y -> x = y.
Proof.
  intros A B. apply (proj1 (unf_read_look_mono f1) (max f1 f2) _ _ _ _ (Nat.le_max_l _ _)) in A. apply (proj1 (unf_read_look_mono f2) (max f1 f2) _ _ _ _ (Nat.le_max_r _ _)) in B.
  rewrite A in B. apply Ok_inj in B. exact B.
Qed.
Lemma path_unique sizes o d o' : path sizes o d o' -> forall d', path sizes o d' o' -> d = d'.
Proof.
  intros P. induction P as [o o' I B R E|fuel o d e buf r z d' o' E U P IH]; intros d2 P2; inversion P2; subst.
  - reflexivity.
  - exfalso. apply path_le in H1. cbn [o_i] in H1. lia.
  - exfalso. apply path_le in P. cbn [o_i] in P. lia.
  - pose proof (unf_read_det _ _ _ _ _ _ _ U H0) as X. injection X as <- <- <- <-. f_equal. apply IH. apply (path_start sizes (OState z0 (S (o_i o)) buf r (is_some e))); auto.
Qed.

Lemma od_path sizes : forall M o p o', od_phrase M sizes o = Ok (p, o') -> exists d, path sizes o d o' /\
  forall d2, (o_end o' = true -> d2 = []) -> get_phrase (feed (o_z o) (d ++ d2)) = Ok (p, feed (o_z o') d2).
Proof.
  induction M as [|M IH]; intros o p o' Q; [discriminate Q|]. cbn [od_phrase] in Q. destruct (o_end o || negb (blocks (o_z o))) eqn:C.
  - apply bind_ok in Q as ([q z] & G & Q). apply Ok_inj in Q. injection Q as <- <-. exists []. split; [constructor; reflexivity|]. cbn [o_z o_end app]. intros d2 D2. destruct (o_end o) eqn:E.
    + rewrite D2 by reflexivity. rewrite !feed_nil. exact G.
    + cbn [orb] in C. destruct (blocks (o_z o)) eqn:B; [discriminate C|]. rewrite (get_phrase_more _ _ B), G. reflexivity.
  - apply orb_false_iff in C as [E C]. apply bind_ok in Q as ([[[d e] buf] r] & U & Q). destruct (IH _ _ _ Q) as (d1 & P & H). cbn [o_z] in H. exists (d ++ d1). split.
    + apply (path_read sizes (S M) o d e buf r (feed (o_z o) d)); assumption.
    + intros d2 D2. rewrite <- app_assoc, <- feed_feed. apply H, D2.
Qed.
Lemma path_end sizes o d o' : path sizes o d o' -> o_end o = true -> d = [].
Proof. intros P E. inversion P; subst; [reflexivity|congruence]. Qed.
Lemma path_gives sizes o d o' : path sizes o d o' -> o_end o = false -> gives sizes (o_i o) (o_buf o) (o_r o) d.
Proof.
  intros P. induction P as [o o' I B R E'|fuel o d e buf r z d' o' E' U P IH]; intros E; [constructor|]. destruct e as [e|]; cbn [is_some] in *.
  - rewrite (path_end _ _ _ _ P eq_refl), app_nil_r. apply (gives_last sizes fuel _ _ _ _ e buf r U).
  - apply (gives_more sizes fuel _ _ _ _ buf r _ U). apply IH. reflexivity.
Qed.

Section Main.
Context {env : Env}.
Lemma same_step z z' : z = z' -> step get_phrase get_phrase eq (fun _ => False) z z'.
Proof. intros <-. unfold step. destruct (get_phrase z) as [[[d|] a]| | |]; eauto. Qed.
Theorem decode_from_past fuel sizes r cal r' : DecodeOD fuel sizes r = Ok (cal, r') -> exists d, read_so_far sizes r d /\ decode_bytes d = Ok cal.
Proof.
  intros Q. unfold DecodeOD in Q. apply bind_ok in Q as ([c s] & G & Q). destruct s as [o|]; [|discriminate Q]. apply Ok_inj in Q. injection Q as -> <-.
  set (le := fun a b => exists d, path sizes a d b).
  assert (LR : forall a, le a a) by (intros a; exists []; constructor; reflexivity).
  assert (LT : forall a b c, le a b -> le b c -> le a c) by (intros a b c0 [d1 P1] [d2 P2]; exists (d1 ++ d2); exact (path_trans _ _ _ _ P1 _ _ P2)).
  assert (LG : forall a p a', od_phrase fuel sizes a = Ok (p, a') -> le a a') by (intros a p a' X; apply od_path in X as (d & P & _); exists d; exact P).
  destruct (decode_le (od_phrase fuel sizes) le LT LG fuel _ _ _ G) as (a' & X & [d P]). injection X as <-.
  exists d. split; [exact (path_gives _ _ _ _ P eq_refl)|].
  set (R := fun (a : ostate) (z : tkz) => exists dd, path sizes a dd o /\ z = feed (o_z a) dd).
  assert (RG : forall a p a' b, od_phrase fuel sizes a = Ok (p, a') -> le a' o -> R a b -> exists b', get_phrase b = Ok (p, b') /\ R a' b').
  { intros a p a' b X [d2 P2] (dd & Pa & ->). apply od_path in X as (d1 & P1 & H). rewrite (path_unique _ _ _ _ Pa _ (path_trans _ _ _ _ P1 _ _ P2)).
    rewrite H by (intros E; exact (path_end _ _ _ _ P2 E)). eexists. split; [reflexivity|]. exists d2. auto. }
  destruct (decode_back (od_phrase fuel sizes) get_phrase le LT LG o R RG fuel _ _ _ (new_tokeniser d) G (LR o)) as (b' & GD & _).
  { exists d. split; [exact P|]. reflexivity. }
  assert (M : decode_src (max fuel (S (S (length d)))) (SrcTok (new_tokeniser d)) = Ok cal).
  { rewrite decode_conv. pose proof (decode_sim get_phrase get_phrase eq (fun _ => False) same_step fuel (max fuel (S (S (length d)))) (GTok (new_tokeniser d)) (GTok (new_tokeniser d)) ltac:(lia) ltac:(constructor; reflexivity)) as SM.
    rewrite GD in SM. cbn [agree] in SM. destruct SM as ([y s'] & -> & [Y _]). cbn [fst] in Y. subst y. reflexivity. }
  unfold decode_bytes. pose proof (decode_bytes_fuel d) as NF. unfold decode_bytes in NF. rewrite decode_conv in *.
  pose proof (decode_sim get_phrase get_phrase eq (fun _ => False) same_step (S (S (length d))) (max fuel (S (S (length d)))) (GTok (new_tokeniser d)) (GTok (new_tokeniser d)) ltac:(lia) ltac:(constructor; reflexivity)) as SM.
  destruct (g_decode get_phrase (S (S (length d))) (GTok (new_tokeniser d))) as [[y s']| | |]; cbn [agree bind] in *.
  - destruct SM as ([y2 s2] & SM & [Y _]). cbn [fst] in Y. subst y2. rewrite SM in M. cbn [bind] in M. exact M.
  - destruct SM as [[]|SM]. rewrite SM in M. discriminate M.
  - destruct SM as [[]|SM]. rewrite SM in M. discriminate M.
  - contradiction NF; reflexivity.
Qed.
End Main.
