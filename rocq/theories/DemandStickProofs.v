(** What is returned before a reader keeps the unfolder from returning does not depend on what follows. *)
From Coq Require Import String Ascii ZArith Bool List Arith Lia.
From Verif Require Import Base Lib Utf8 GoStrings Strtok Tokeniser GoTime Types Params ParamTable PropTable Props SecTable Sections Codec Unfolder UnfolderProofs ReadersProofs TotalProofs OnDemand DemandProofs SpecDemand DemandPastProofs SpecCuts SpecStick StickProofs.
Import ListNotations.

Lemma comes_with_to sizes i held r d j held' r' : comes_with sizes i held r d j held' r' -> comes_to sizes i held r j held' r'.
Proof. induction 1; [constructor|econstructor; eassumption]. Qed.
Lemma comes_to_with sizes i held r j held' r' : comes_to sizes i held r j held' r' -> exists d, comes_with sizes i held r d j held' r'.
Proof. induction 1 as [|? ? ? ? ? ? ? ? ? ? ? ? (d' & IH)]; [exists []; constructor|eexists; econstructor; eassumption]. Qed.

Section S.
Context (sizes : nat -> nat) (j : nat) (held' : bytes) (r' : rdr) (ST : sticks (sizes j - length held') r') (x : bytes).
Definition before_it (o : ostate) (z : tkz) : Prop := o_end o = false /\ exists d, comes_with sizes (o_i o) (o_buf o) (o_r o) d j held' r' /\ z = feed (o_z o) (d ++ x).

Lemma od_before : forall M o z, before_it o z ->
  match od_phrase M sizes o with
  | Ok (p, o') => exists z', get_phrase z = Ok (p, z') /\ before_it o' z'
  | Err e => get_phrase z = Err e
  | Panic => get_phrase z = Panic
  | NoFuel => True
  end.
Proof using ST.
  induction M as [|M IH]; intros o z (E & d & C & ->); [exact Logic.I|]. cbn [od_phrase]. rewrite E. cbn [orb]. destruct (blocks (o_z o)) eqn:B; cbn [negb].
  - inversion C as [i h r|fuel i h r d1 h1 r1 d2 j' h2 r2 U C']; subst.
    + rewrite call_sticks by congruence. exact Logic.I.
    + destruct (unf_read (S M) (o_buf o) (o_r o) (sizes (o_i o))) as [y|e| |] eqn:Q; cbn [bind].
      * rewrite (unf_read_det _ _ _ _ _ _ _ Q U). cbn [is_some]. specialize (IH (OState (feed (o_z o) d1) (S (o_i o)) h1 r1 false) (feed (o_z o) ((d1 ++ d2) ++ x))). apply IH.
        split; [reflexivity|]. exists d2. cbn [o_z o_i o_buf o_r]. split; [exact C'|]. rewrite feed_feed, app_assoc. reflexivity.
      * exfalso. assert (D : drain (S M) (fun _ => sizes (o_i o)) 0 (o_buf o) (o_r o) [] = Err e) by (rewrite drain_step, Q; reflexivity). exact (DemandReadProofs.drain_no_err _ _ _ _ _ _ _ D).
      * apply (DemandReadProofs.unf_read_panic_mono _ (S M + fuel)) in Q; [|lia]. apply (proj1 (unf_read_look_mono _) (S M + fuel)) in U; [|lia]. congruence.
      * exact Logic.I.
  - rewrite (get_phrase_more _ (d ++ x) B). destruct (get_phrase (o_z o)) as [[p z]| | |]; cbn [bind fed]; auto. eexists. split; [reflexivity|]. split; [reflexivity|]. exists d. cbn [o_z o_i o_buf o_r]. auto.
Qed.
End S.

Section Main.
Context {env : Env}.
Theorem decode_before sizes r d j held' r' x fuel : comes_with sizes 0 [] r d j held' r' -> sticks (sizes j - length held') r' ->
  let v := let! (c, _) := DecodeOD fuel sizes r in Ok c in v = NoFuel \/ v = decode_bytes (d ++ x).
Proof.
  intros C SK v. set (t := d ++ x).
  assert (STP : forall o z, before_it sizes j held' r' x o z -> step (od_phrase fuel sizes) get_phrase (before_it sizes j held' r' x) (fun _ => False) o z).
  { intros o z H. pose proof (od_before sizes j held' r' SK x fuel o z H) as P. unfold step. destruct (od_phrase fuel sizes o) as [[[data|] o']| | |]; auto. }
  pose proof (decode_sim (od_phrase fuel sizes) get_phrase _ _ STP fuel (max fuel (S (S (length t)))) (GTok (od_start r)) (GTok (new_tokeniser t)) ltac:(lia)) as A.
  specialize (A ltac:(constructor; split; [reflexivity|]; exists d; split; [exact C|reflexivity])).
  assert (M : decode_src (max fuel (S (S (length t)))) (SrcTok (new_tokeniser t)) = decode_bytes t).
  { unfold decode_bytes. pose proof (decode_bytes_fuel t) as NF. unfold decode_bytes in NF. rewrite !decode_conv in *.
    pose proof (decode_sim get_phrase get_phrase eq _ same_step (S (S (length t))) (max fuel (S (S (length t)))) (GTok (new_tokeniser t)) (GTok (new_tokeniser t)) ltac:(lia) ltac:(constructor; reflexivity)) as SM.
    destruct (g_decode get_phrase (S (S (length t))) (GTok (new_tokeniser t))) as [[y s']| | |]; cbn [agree bind] in *.
    - destruct SM as ([y2 s2] & -> & [Y _]). cbn [fst] in Y. subst y2. reflexivity.
    - destruct SM as [[]| ->]. reflexivity.
    - destruct SM as [[]| ->]. reflexivity.
    - contradiction NF; reflexivity. }
  rewrite decode_conv in M. fold t. unfold v, DecodeOD. destruct (g_decode (od_phrase fuel sizes) fuel (GTok (od_start r))) as [[c s]|e| |] eqn:G; cbn [agree bind] in A |- *.
  - right. rewrite <- M. destruct A as ([c2 s2] & -> & [Y S2]). cbn [fst snd] in Y, S2. subst c2. cbn [bind]. apply decode_tok in G; [|exact Logic.I]. destruct S2; [reflexivity|contradiction G].
  - right. rewrite <- M. destruct A as [[]| ->]. reflexivity.
  - right. rewrite <- M. destruct A as [[]| ->]. reflexivity.
  - left. reflexivity.
Qed.
End Main.
