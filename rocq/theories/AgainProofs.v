(** From one read to any number of reads. *)
From Coq Require Import String Ascii ZArith Bool List Lia Arith Compare_dec.
From Verif Require Import Base Lib SpecLines Unfolder UnfolderProofs GoTime PropTable SecTable Sections Folder Codec DecodeProofs SpecCuts CutsProofs SampleCuts SpecRules SpecEdits SpecCal EncodeProofs PrefixProofs RoundProofs SpecAbroad SpecBuilt BuiltProofs SpecAgain.
Import ListNotations.

Section A.
Context {env : Env}.
Lemma tail_dec p : has_fold p /\ bad_tail p \/ (has_fold p -> ~ bad_tail p).
Proof.
  destruct (find_fold p) eqn:FF; [|right; intros H; apply has_fold_find in H; congruence]. destruct (le_lt_dec 3 (length p)) as [L3|L3].
  - destruct (last3 p L3) as (o' & x & y & z & Ep). destruct (rot_dec [x; y; z]) eqn:RD.
    + left. split; [apply has_fold_find; congruence|]. exists o', [x; y; z]. split; [exact Ep|apply rot_dec_spec, RD].
    + right. intros _ (a & t & Ea & R). rewrite Ep in Ea. apply app_inj_len in Ea as [_ <-]; [|destruct R as [ -> | [ -> | -> ]]; reflexivity]. apply rot_dec_spec in R. congruence.
  - right. intros _ (a & t & Ea & R). assert (length t = 3) by (destruct R as [ -> | [ -> | -> ]]; reflexivity). rewrite Ea, app_length in L3. lia.
Qed.
Theorem again_in_parts cal r : read_again cal r -> r <> NoFuel -> read_in_parts cal r.
Proof.
  intros (out & E & D) N. exists out. split; [exact E|]. pose (big := fun _ : nat => S (length (concat out))).
  assert (B1 : forall i, 1 <= big i) by (intros i; unfold big; lia). assert (B2 : length (concat out) <= big 0) by (unfold big; lia). destruct (D false big B1 B2) as (n & H).
  assert (T : decode_bytes (unfold (concat out)) = r).
  { destruct (tail_dec (concat out)) as [[F B]|G]; [exfalso; apply N; rewrite <- (H n (le_n _)); apply decode_hangs; assumption|].
    destruct (decode_one_read (concat out) false big G B1 B2) as (m & M). rewrite <- (M (n + m) ltac:(lia)). apply H. lia. }
  intros chunks sizes ds Q P R C K. destruct (decode_clean sizes chunks ds P R C K) as (k & Z). exists k. intros fuel F. rewrite (Z fuel F), Q. exact T.
Qed.
Theorem built_in_parts cal : sec_id cal = SCalendar -> sec_valid cal = None -> cal_good (said cal) -> rules_met cal -> read_in_parts cal (Ok (forget (said cal))).
Proof. intros I V G R. apply again_in_parts; [apply built_read; assumption|discriminate]. Qed.
End A.
