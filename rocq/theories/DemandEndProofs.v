(** Once the whole calendar has been read, nothing more is needed. *)
From Coq Require Import String Ascii ZArith Bool List Arith Lia.
From Verif Require Import Base Lib Utf8 Strtok Tokeniser SpecLines SpecContent TokeniserProofs GoTime Sections Codec Unfolder UnfolderProofs ReadersProofs StartProofs TotalProofs OnDemand DemandProofs SpecDemand.
Import ListNotations.

Definition line_start (z : tkz) : Prop := exists s, z = Tkz SName (Tok [] s) /\ (s = [] \/ exists a, s = a ++ [LF]).

Lemma line_next z d z' : line_start z -> get_phrase z = Ok (PhraseLine d, z') -> line_start z' /\ blocks z = false.
Proof.
  intros (s & -> & E) G. pose proof (get_phrase_sound _ s (R_name s)) as P. rewrite G in P. destruct P as (l & e & W & -> & LE & ->).
  destruct (render_start l W) as (c & r & Q & _). inversion LE; subst.
  - split.
    + exists r0. split; [reflexivity|]. destruct E as [E|[a E]]; [destruct (cline_render l); discriminate E|]. destruct r0 as [|y r0]; [left; reflexivity|]. destruct (exists_last (l := y :: r0) ltac:(discriminate)) as (r1 & x & RE). rewrite RE in *. clear RE. right. exists r1.
      change (CR :: LF :: r1 ++ [x]) with ([CR; LF] ++ r1 ++ [x]) in E. rewrite !app_assoc in E. apply app_inj_tail in E as [_ ->]. reflexivity.
    + apply (blocks_ok _ _ _ G). unfold touched. cbn [z_state]. apply andb_false_r.
  - exfalso. rewrite app_nil_r in E. destruct E as [E|[a E]]; [rewrite Q in E; discriminate E|]. exact (no_lf l a [] W E).
Qed.

(** [gives] with its fuel and the number of its calls *)
Inductive gives_n (N : nat) (sizes : nat -> nat) : nat -> nat -> bytes -> rdr -> bytes -> Prop :=
| gn_nothing i buf r : gives_n N sizes 0 i buf r []
| gn_more n i buf r d buf' r' d' : unf_read N buf r (sizes i) = Ok (d, None, buf', r') -> gives_n N sizes n (S i) buf' r' d' -> gives_n N sizes (S n) i buf r (d ++ d')
| gn_last n i buf r d e buf' r' : unf_read N buf r (sizes i) = Ok (d, Some e, buf', r') -> gives_n N sizes (S n) i buf r d.
Lemma gives_n_mono N N' sizes n i buf r d : N <= N' -> gives_n N sizes n i buf r d -> gives_n N' sizes n i buf r d.
Proof.
  intros L G. induction G as [|n i buf r d buf' r' d' U G IH|n i buf r d e buf' r' U]; [constructor| |].
  - econstructor; [|exact IH]. exact (proj1 (unf_read_look_mono N) N' _ _ _ _ L U).
  - econstructor. exact (proj1 (unf_read_look_mono N) N' _ _ _ _ L U).
Qed.
Lemma gives_numbered sizes i buf r d : gives sizes i buf r d -> exists N n, gives_n N sizes n i buf r d.
Proof.
  intros G. induction G as [|fuel i buf r d buf' r' d' U G (N & n & IH)|fuel i buf r d e buf' r' U].
  - exists 0, 0. constructor.
  - exists (max fuel N), (S n). econstructor; [exact (proj1 (unf_read_look_mono fuel) (max fuel N) _ _ _ _ ltac:(lia) U)|]. apply (gives_n_mono N); [lia|exact IH].
  - exists fuel, 1. econstructor. exact U.
Qed.

(** [z] reads a part of what the reader gives; [q] is the rest. *)
Definition part_of (K N : nat) (sizes : nat -> nat) (q : bytes) (z : tkz) (o : ostate) : Prop :=
  line_start z /\ exists d, feed (o_z o) d = feed z q /\ (d = [] \/ (o_end o = false /\ exists n, n <= K /\ gives_n N sizes n (o_i o) (o_buf o) (o_r o) d)).

Lemma part_step K N sizes q data z z' : get_phrase z = Ok (PhraseLine data, z') -> line_start z' -> blocks z = false ->
  forall n M o d, n + N < M -> feed (o_z o) d = feed z q -> d = [] \/ (o_end o = false /\ n <= K /\ gives_n N sizes n (o_i o) (o_buf o) (o_r o) d) ->
  exists o', od_phrase M sizes o = Ok (PhraseLine data, o') /\ part_of K N sizes q z' o'.
Proof.
  intros G LS B. assert (GQ : get_phrase (feed z q) = Ok (PhraseLine data, feed z' q)) by (rewrite (get_phrase_more _ q B), G; reflexivity).
  assert (DONE : forall M o d, o_end o || negb (blocks (o_z o)) = true -> feed (o_z o) d = feed z q -> (d = [] \/ (o_end o = false /\ exists n, n <= K /\ gives_n N sizes n (o_i o) (o_buf o) (o_r o) d)) -> (d = [] \/ blocks (o_z o) = false) ->
    exists o', od_phrase (S M) sizes o = Ok (PhraseLine data, o') /\ part_of K N sizes q z' o').
  { intros M o d C F D X. cbn [od_phrase]. rewrite C. destruct X as [->|X].
    - rewrite feed_nil in F. rewrite F, GQ. cbn [bind]. eexists. split; [reflexivity|]. split; [exact LS|]. exists []. cbn [o_z]. rewrite feed_nil. auto.
    - rewrite <- F, (get_phrase_more _ d X) in GQ. destruct (get_phrase (o_z o)) as [[p zo]| | |]; cbn [fed bind] in GQ |- *; try discriminate GQ.
      apply Ok_inj in GQ. injection GQ as -> FQ. eexists. split; [reflexivity|]. split; [exact LS|]. exists d. cbn [o_z o_end o_i o_buf o_r]. split; [|exact D]. unfold feed in *. rewrite FQ, H, H0. reflexivity. }
  induction n as [|n IH]; intros M o d L F D.
  - destruct M as [|M]; [lia|]. apply (DONE M o d).
    + destruct D as [->|(E & _ & D)].
      * rewrite feed_nil in F. rewrite F, (blocks_more _ q B). apply orb_true_r.
      * inversion D; subst. rewrite feed_nil in F. rewrite F, (blocks_more _ q B). apply orb_true_r.
    + exact F.
    + destruct D as [->|(E & LK & D)]; [left; reflexivity|]. right. split; [exact E|]. exists 0. split; [lia|exact D].
    + destruct D as [->|(E & LK & D)]; [left; reflexivity|]. inversion D; subst. left. reflexivity.
  - destruct M as [|M]; [lia|]. destruct (o_end o || negb (blocks (o_z o))) eqn:C.
    + apply (DONE M o d C F).
      * destruct D as [->|(E & LK & D)]; [left; reflexivity|]. right. split; [exact E|]. eauto.
      * destruct D as [->|(E & LK & D)]; [left; reflexivity|]. right. rewrite E in C. cbn [orb] in C. destruct (blocks (o_z o)); [discriminate C|reflexivity].
    + assert (DN : d = [] -> False).
      { intros ->. rewrite feed_nil in F. rewrite F, (blocks_more _ q B) in C. rewrite orb_true_r in C. discriminate C. }
      destruct D as [->|(E & LK & D)]; [contradiction (DN eq_refl)|]. cbn [od_phrase]. rewrite C. inversion D; subst.
      * rewrite (proj1 (unf_read_look_mono N) (S M) _ _ _ _ ltac:(lia) H0). cbn [bind is_some]. apply (IH M _ d'); cbn [o_z o_end o_i o_buf o_r]; [lia|rewrite feed_feed; exact F|].
        right. split; [reflexivity|]. split; [lia|assumption].
      * rewrite (proj1 (unf_read_look_mono N) (S M) _ _ _ _ ltac:(lia) H0). cbn [bind is_some]. apply (IH M _ []); cbn [o_z o_end o_i o_buf o_r]; [lia|rewrite feed_nil; exact F|left; reflexivity].
Qed.

Section Main.
Context {env : Env}.
Theorem decode_when_there sizes r t q cal : (exists a, t = a ++ [LF]) -> decode_bytes t = Ok cal -> read_so_far sizes r (t ++ q) ->
  exists n, forall fuel, n <= fuel -> exists r', DecodeOD fuel sizes r = Ok (cal, r').
Proof.
  intros E D G. apply gives_numbered in G as (N & k & G). exists (S (k + N + length t + 2)). intros fuel L. unfold decode_bytes in D. rewrite decode_conv in D.
  unfold DecodeOD.
  assert (SM : RS (part_of k N sizes q) (GTok (new_tokeniser t)) (GTok (od_start r))).
  { constructor. split; [exists t; split; [reflexivity|right; exact E]|]. exists (t ++ q). cbn [od_start o_z o_end o_i o_buf o_r]. split; [reflexivity|]. right. split; [reflexivity|]. exists k. split; [lia|exact G]. }
  assert (ST : forall z o, part_of k N sizes q z o -> step get_phrase (od_phrase fuel sizes) (part_of k N sizes q) (fun _ => True) z o).
  { intros z o (LS & d & F & X). unfold step. destruct (get_phrase z) as [[[data|] z']| | |] eqn:GP; auto. destruct (line_next _ _ _ LS GP) as [LS' B].
    destruct X as [->|(En & n & Ln & Gn)].
    - apply (part_step k N sizes q data z z' GP LS' B 0 fuel o []); [lia|exact F|left; reflexivity].
    - apply (part_step k N sizes q data z z' GP LS' B n fuel o d); [lia|exact F|right; auto]. }
  pose proof (decode_sim get_phrase (od_phrase fuel sizes) _ (fun _ => True) ST (S (S (length t))) fuel _ _ ltac:(lia) SM) as A.
  destruct (g_decode get_phrase (S (S (length t))) (GTok (new_tokeniser t))) as [[c s]|x| |] eqn:GD; cbn [bind] in D; try discriminate D. apply Ok_inj in D. subst c. cbn [agree] in A.
  destruct A as ([c' s'] & -> & [Q1 Q2]). cbn [fst snd] in *. subst c'. cbn [bind]. apply decode_tok in GD; [|exact Logic.I]. destruct Q2; [|contradiction GD]. eauto.
Qed.
End Main.
