(** An error that whole lines give is returned when these lines have been read. *)
From Coq Require Import String Ascii ZArith Bool List Arith Lia.
From Verif Require Import Base Lib Utf8 Strtok Tokeniser SpecLines SpecContent TokeniserProofs GoTime Sections Codec Unfolder UnfolderProofs ReadersProofs StartProofs TotalProofs OnDemand DemandProofs SpecDemand DemandEndProofs.
Import ListNotations.

(** ** A token of whole lines does not end at the end of them *)
Definition lf_end (t : tok) : Prop := exists a, trest t = a ++ [LF].
Lemma lf_tail (s a r : bytes) : s = a ++ r -> (exists b, s = b ++ [LF]) -> ~ In LF a -> exists b, r = b ++ [LF].
Proof.
  intros -> (b & E) N. destruct r as [|y r]; [rewrite app_nil_r in E; subst a; contradiction N; apply in_or_app; right; left; reflexivity|].
  destruct (exists_last (l := y :: r) ltac:(discriminate)) as (r1 & x & RE). rewrite RE in *. rewrite app_assoc in E. apply app_inj_tail in E as [_ ->]. eauto.
Qed.
Lemma span_lf p t : p LF = false -> (exists b, t = b ++ [LF]) -> exists b, snd (span p t) = b ++ [LF].
Proof.
  intros P E. pose proof (span_app p t) as S. destruct (span p t) as [a r]. cbn [snd]. destruct S as (Q & F & _). apply (lf_tail t a r Q E).
  intros I. rewrite forallb_forall in F. rewrite (F LF I) in P. discriminate P.
Qed.
Lemma run_lf set t : inset LF set = false -> lf_end t -> lf_end (snd (accept_run set t)).
Proof. intros P E. unfold lf_end, accept_run. pose proof (span_lf (fun c => inset c set) (trest t) P E) as H. destruct (span _ _) as [a r]. exact H. Qed.
Lemma except_lf set t : inset LF set = true -> lf_end t -> lf_end (snd (except_run set t)).
Proof.
  intros P E. unfold lf_end, except_run. pose proof (span_lf (fun c => negb (inset c set)) (trest t)) as H. cbv beta in H. rewrite P in H. specialize (H eq_refl E).
  destruct (span _ _) as [a r]. exact H.
Qed.
Lemma accept_lf set t : inset LF set = false -> lf_end t -> lf_end (snd (accept set t)).
Proof.
  intros P (a & E). unfold lf_end, accept. destruct (trest t) as [|c r] eqn:R; [destruct a; discriminate E|]. destruct (inset c set) eqn:I; [|exists a; cbn [snd]; congruence].
  cbn [snd trest]. apply (lf_tail (c :: r) [c] r eq_refl); [eauto|]. intros [Q|[]]. subst c. congruence.
Qed.
Lemma get_lf t : lf_end t -> lf_end (snd (get t)).
Proof. intros E. exact E. Qed.
Lemma after_lf tk t : lf_end t -> lf_end (snd (afterParamValue tk t)).
Proof. intros E. unfold afterParamValue. destruct (peek t); [repeat (destruct (beqc _ _); [exact E|])|]; exact E. Qed.

Lemma next_lf z : lf_end (z_tok z) -> lf_end (z_tok (snd (next_token z))) \/ (z_state (snd (next_token z)) = SName /\ t_type (fst (next_token z)) = tokenValue).
Proof.
  destruct z as [s t]. cbn [z_tok]. intros E. unfold next_token. cbn [z_state z_tok].
  assert (G : forall x : token * tstate * tok, lf_end (snd x) \/ (snd (fst x) = SName /\ t_type (fst (fst x)) = tokenValue) ->
    lf_end (z_tok (snd (let '(tk, s0, t0) := x in (tk, Tkz s0 t0)))) \/ (z_state (snd (let '(tk, s0, t0) := x in (tk, Tkz s0 t0))) = SName /\ t_type (fst (let '(tk, s0, t0) := x in (tk, Tkz s0 t0))) = tokenValue)).
  { intros [[tk s0] t0] H. exact H. }
  destruct s; try apply G; clear G.
  - left. unfold parseName. pose proof (run_lf ianaToken t eq_refl E) as H. destruct (accept_run ianaToken t) as [nxt t1]. cbn [snd] in H. apply get_lf in H. destruct (get t1) as [name t2]. cbn [snd] in H.
    destruct name; destruct nxt; try exact H. repeat (destruct (beqc _ _); [exact H|]). exact H.
  - left. unfold parseParamName. pose proof (accept_lf (bs ";") t eq_refl E) as H. destruct (accept (bs ";") t) as [o t1]. cbn [snd] in H. apply get_lf in H. destruct (get t1) as [o1 t2]. cbn [snd] in H.
    apply (run_lf ianaToken _ eq_refl) in H. destruct (accept_run ianaToken t2) as [nxt t3]. cbn [snd] in H. destruct nxt; [|exact H]. destruct (beqc _ _); [|exact H]. destruct (get t3) eqn:Q. apply get_lf in H. rewrite Q in H. exact H.
  - left. unfold parseParamValue. pose proof (accept_lf (bs "=,") t eq_refl E) as H. destruct (accept (bs "=,") t) as [o t1]. cbn [snd] in H. apply get_lf in H. destruct (get t1) as [o1 t2]. cbn [snd] in H.
    apply (accept_lf [DQ] _ eq_refl) in H. destruct (accept [DQ] t2) as [q t3]. cbn [snd] in H. destruct q.
    + apply get_lf in H. destruct (get t3) as [o2 t4]. cbn [snd] in H. apply (except_lf nonsafe33 _ eq_refl) in H. destruct (except_run nonsafe33 t4) as [nxt t5]. cbn [snd] in H. destruct nxt; [|exact H]. destruct (beqc _ _); [|exact H].
      apply get_lf in H. destruct (get t5) as [o3 t6]. cbn [snd] in H. apply (accept_lf [DQ] _ eq_refl) in H. destruct (accept [DQ] t6) as [o4 t7]. cbn [snd] in H. apply after_lf, H.
    + apply (except_lf nonsafeChars _ eq_refl) in H. destruct (except_run nonsafeChars t3) as [nxt t4]. cbn [snd] in H. apply get_lf in H. destruct (get t4) as [o3 t5]. cbn [snd] in H. apply after_lf, H.
  - unfold parseValue. pose proof (accept_lf (bs ":") t eq_refl E) as H. destruct (accept (bs ":") t) as [o t1]. cbn [snd] in H. apply get_lf in H. destruct (get t1) as [o1 t2]. cbn [snd] in H.
    apply (except_lf nonsafe32 _ eq_refl) in H. destruct (except_run nonsafe32 t2) as [nxt t3]. cbn [snd] in H. destruct nxt as [c|]; [|left; destruct (get t3) eqn:Q; apply get_lf in H; rewrite Q in H; exact H]. destruct (beqc c CR); [|left; exact H].
    apply get_lf in H. destruct (get t3) as [o3 t4]. cbn [snd] in H. apply (accept_lf [CR] _ eq_refl) in H. destruct (accept [CR] t4) as [o5 t5]. cbn [snd] in H.
    destruct (accept [LF] t5) as [ok t6] eqn:A. destruct ok; [right; split; reflexivity|]. left. unfold accept in A. destruct (trest t5) as [|y r] eqn:R.
    + injection A as <-. exact H.
    + destruct (inset y [LF]); [discriminate A|]. injection A as <-. exact H.
  - left. exact E.
  - left. exact E.
Qed.
Lemma lf_touched z : lf_end (z_tok z) \/ z_state z = SName -> touched z = false.
Proof. unfold touched. intros [(a & ->)| ->]; [destruct a; reflexivity|apply andb_false_r]. Qed.

Lemma rest_lf : forall f inval acc z, lf_end (z_tok z) -> phrase_rest f inval acc z <> NoFuel -> rest_blocks f inval z = false.
Proof.
  induction f as [|f IH]; intros inval acc z E N; [contradiction N; reflexivity|]. cbn [phrase_rest rest_blocks] in *. pose proof (next_lf z E) as X. destruct (next_token z) as [tk z1]. cbn [fst snd] in X.
  rewrite lf_touched by tauto. cbn [orb]. destruct X as [X|[_ X]]; [|rewrite X; reflexivity].
  destruct (t_type tk); try reflexivity.
  - pose proof (next_lf z1 X) as Y. destruct (next_token z1) as [tv z2]. cbn [fst snd] in Y. rewrite lf_touched by tauto. cbn [orb]. destruct Y as [Y|[_ Y]]; [|rewrite Y; reflexivity].
    destruct (t_type tv); try reflexivity; exact (IH _ _ _ Y N).
  - destruct inval; [exact (IH _ _ _ X N)|reflexivity].
  - destruct inval; [exact (IH _ _ _ X N)|reflexivity].
Qed.
Lemma line_err z e : line_start z -> get_phrase z = Err e -> blocks z = false.
Proof.
  intros (s & -> & [->|E]) G; [discriminate G|]. unfold blocks. unfold get_phrase, get_phrase_fuel in G.
  pose proof (next_lf (Tkz SName (Tok [] s)) E) as X. destruct (next_token (Tkz SName (Tok [] s))) as [tk z1]. cbn [fst snd] in X. rewrite lf_touched by tauto. cbn [orb].
  destruct (t_type tk) eqn:T; try reflexivity. destruct X as [X|[_ X]]; [|congruence]. apply (rest_lf _ _ [tk] _ X). rewrite G. discriminate.
Qed.

(** ** Reading them *)
Lemma part_err N sizes q e z : get_phrase z = Err e -> blocks z = false ->
  forall n M o d, n + N < M -> feed (o_z o) d = feed z q -> d = [] \/ (o_end o = false /\ gives_n N sizes n (o_i o) (o_buf o) (o_r o) d) ->
  od_phrase M sizes o = Err e.
Proof.
  intros G B. assert (GQ : get_phrase (feed z q) = Err e) by (rewrite (get_phrase_more _ q B), G; reflexivity).
  assert (DONE : forall M o d, o_end o || negb (blocks (o_z o)) = true -> feed (o_z o) d = feed z q -> (d = [] \/ blocks (o_z o) = false) -> od_phrase (S M) sizes o = Err e).
  { intros M o d C F X. cbn [od_phrase]. rewrite C. destruct X as [->|X].
    - rewrite feed_nil in F. rewrite F, GQ. reflexivity.
    - rewrite <- F, (get_phrase_more _ d X) in GQ. destruct (get_phrase (o_z o)) as [[p zo]| | |]; cbn [fed bind] in GQ |- *; congruence. }
  assert (NOW : forall o, feed (o_z o) [] = feed z q -> o_end o || negb (blocks (o_z o)) = true) by (intros o F; rewrite feed_nil in F; rewrite F, (blocks_more _ q B); apply orb_true_r).
  induction n as [|n IH]; intros M o d L F D.
  - destruct M as [|M]; [lia|]. assert (d = []) as -> by (destruct D as [->|(E & D)]; [reflexivity|inversion D; reflexivity]). exact (DONE M o [] (NOW o F) F (or_introl eq_refl)).
  - destruct M as [|M]; [lia|]. destruct D as [->|(E & D)]; [exact (DONE M o [] (NOW o F) F (or_introl eq_refl))|]. destruct (blocks (o_z o)) eqn:BO.
    + cbn [od_phrase]. rewrite E, BO. cbn [orb negb]. inversion D; subst.
      * rewrite (proj1 (unf_read_look_mono N) (S M) _ _ _ _ ltac:(lia) H0). cbn [bind is_some]. apply (IH M _ d'); cbn [o_z o_end o_i o_buf o_r]; [lia|rewrite feed_feed; exact F|]. right. split; [reflexivity|assumption].
      * rewrite (proj1 (unf_read_look_mono N) (S M) _ _ _ _ ltac:(lia) H0). cbn [bind is_some]. apply (IH M _ []); cbn [o_z o_end o_i o_buf o_r]; [lia|rewrite feed_nil; exact F|left; reflexivity].
    + apply (DONE M o d); [rewrite BO; apply orb_true_r|exact F|right; exact BO].
Qed.

Section Main.
Context {env : Env}.
Theorem decode_err_there sizes r t q e : (exists a, t = a ++ [LF]) -> decode_bytes t = Err e -> e <> ErrUnexpectedEOF -> read_so_far sizes r (t ++ q) ->
  exists n, forall fuel, n <= fuel -> DecodeOD fuel sizes r = Err e.
Proof.
  intros E D NE G. apply gives_numbered in G as (N & k & G). exists (S (k + N + length t + 2)). intros fuel L. unfold decode_bytes in D. rewrite decode_conv in D.
  unfold DecodeOD.
  assert (SM : RS (part_of k N sizes q) (GTok (new_tokeniser t)) (GTok (od_start r))).
  { constructor. split; [exists t; split; [reflexivity|right; exact E]|]. exists (t ++ q). cbn [od_start o_z o_end o_i o_buf o_r]. split; [reflexivity|]. right. split; [reflexivity|]. exists k. split; [lia|exact G]. }
  set (Bad := fun x => x = Some ErrUnexpectedEOF \/ x = None).
  assert (ST : forall z o, part_of k N sizes q z o -> step get_phrase (od_phrase fuel sizes) (part_of k N sizes q) Bad z o).
  { intros z o (LS & d & F & X). unfold step. destruct (get_phrase z) as [[[data|] z']|e'| |] eqn:GP.
    - destruct (line_next _ _ _ LS GP) as [LS' B]. destruct X as [->|(En & n & Ln & Gn)].
      + apply (part_step k N sizes q data z z' GP LS' B 0 fuel o []); [lia|exact F|left; reflexivity].
      + apply (part_step k N sizes q data z z' GP LS' B n fuel o d); [lia|exact F|right; auto].
    - left. split; [left; reflexivity|right; reflexivity].
    - right. pose proof (line_err _ _ LS GP) as B. destruct X as [->|(En & n & Ln & Gn)].
      + apply (part_err N sizes q e' z GP B 0 fuel o []); [lia|exact F|left; reflexivity].
      + apply (part_err N sizes q e' z GP B n fuel o d); [lia|exact F|right; auto].
    - left. right. reflexivity.
    - exact Logic.I. }
  pose proof (decode_sim get_phrase (od_phrase fuel sizes) _ Bad ST (S (S (length t))) fuel _ _ ltac:(lia) SM) as A.
  destruct (g_decode get_phrase (S (S (length t))) (GTok (new_tokeniser t))) as [[c s]|x| |] eqn:GD; cbn [bind] in D; try discriminate D. injection D as ->. cbn [agree] in A.
  destruct A as [[A|A]|A]; [congruence|discriminate A|]. rewrite A. reflexivity.
Qed.
End Main.
