(** Reading on demand gives what reading everything first gives. *)
From Coq Require Import String Ascii ZArith Bool List Arith Lia.
From Verif Require Import Base Lib Utf8 GoStrings Strtok Tokeniser SpecContent TokeniserProofs GoTime Types Params ParamTable PropTable Props SecTable Sections Codec Unfolder UnfolderProofs ReadersProofs TotalProofs OnDemand.
Import ListNotations.

(** ** More bytes do not change what a token function does that did not look for them *)
Lemma span_more p s d : snd (span p s) <> [] -> span p (s ++ d) = (fst (span p s), snd (span p s) ++ d).
Proof.
  induction s as [|c s IH]; cbn [span app]; [intros H; contradiction H; reflexivity|]. destruct (p c); [|reflexivity].
  destruct (span p s) as [a r]. cbn [fst snd] in *. intros H. rewrite (IH H). reflexivity.
Qed.

Definition more (t : tok) (d : bytes) : tok := Tok (tbuf t) (trest t ++ d).
Lemma accept_more set t d : trest t <> [] -> accept set (more t d) = (fst (accept set t), more (snd (accept set t)) d).
Proof. destruct t as [b [|c r]]; [intros H; contradiction H; reflexivity|]. intros _. unfold accept, more. cbn [trest tbuf app]. destruct (inset c set); reflexivity. Qed.
Lemma get_more t d : get (more t d) = (fst (get t), more (snd (get t)) d).
Proof. reflexivity. Qed.
Lemma peek_more t d : trest t <> [] -> peek (more t d) = peek t.
Proof. destruct t as [b [|c r]]; [intros H; contradiction H; reflexivity|]. reflexivity. Qed.
Lemma accept_run_more set t d : trest (snd (accept_run set t)) <> [] -> accept_run set (more t d) = (fst (accept_run set t), more (snd (accept_run set t)) d).
Proof.
  unfold accept_run, more. cbn [trest tbuf]. pose proof (span_more (fun c => inset c set) (trest t) d) as S. destruct (span _ (trest t)) as [a r]. cbn [fst snd trest tbuf] in *.
  intros H. rewrite (S H). destruct r as [|c r]; [contradiction H; reflexivity|]. reflexivity.
Qed.
Lemma except_run_more set t d : trest (snd (except_run set t)) <> [] -> except_run set (more t d) = (fst (except_run set t), more (snd (except_run set t)) d).
Proof.
  unfold except_run, more. cbn [trest tbuf]. pose proof (span_more (fun c => negb (inset c set)) (trest t) d) as S. destruct (span _ (trest t)) as [a r]. cbn [fst snd trest tbuf] in *.
  intros H. rewrite (S H). destruct r as [|c r]; [contradiction H; reflexivity|]. reflexivity.
Qed.

Lemma span_nil p s : snd (span p s) = [] -> fst (span p s) = s.
Proof. pose proof (span_app p s) as S. destruct (span p s) as [a r]. cbn [fst snd]. destruct S as (-> & _). intros ->. symmetry. apply app_nil_r. Qed.

Ltac tsimp := cbn [fst snd trest tbuf z_state z_tok isnil andb touched].
Lemma feed_tkz s t d : feed (Tkz s t) d = Tkz s (more t d). Proof. reflexivity. Qed.

Definition tmore (x : token * tstate * tok) (d : bytes) : token * tstate * tok := let '(tk, s, t) := x in (tk, s, more t d).
Definition ttouched (x : token * tstate * tok) : bool := let '(tk, s, t) := x in touched (Tkz s t).

Lemma touched_nil s t : trest t = [] -> s <> SName -> touched (Tkz s t) = true.
Proof. unfold touched. cbn [z_tok z_state]. intros -> N. destruct s; try reflexivity. contradiction N; reflexivity. Qed.
Lemma accept_run_peek set t : fst (accept_run set t) = peek (snd (accept_run set t)).
Proof. unfold accept_run. destruct (span _ _). reflexivity. Qed.
Lemma except_run_peek set t : fst (except_run set t) = peek (snd (except_run set t)).
Proof. unfold except_run. destruct (span _ _). reflexivity. Qed.
Lemma accept_run_empty set t : trest t = [] -> trest (snd (accept_run set t)) = [].
Proof. unfold accept_run. intros ->. reflexivity. Qed.
Lemma except_run_empty set t : trest t = [] -> trest (snd (except_run set t)) = [].
Proof. unfold except_run. intros ->. reflexivity. Qed.
Lemma accept_empty set t : trest t = [] -> accept set t = (false, t).
Proof. destruct t as [b s]. cbn [trest]. intros ->. reflexivity. Qed.
Lemma peek_none t : peek t = None <-> trest t = [].
Proof. unfold peek. destruct (trest t); split; congruence. Qed.

Lemma parseName_more t d : ttouched (parseName t) = false -> parseName (more t d) = tmore (parseName t) d.
Proof.
  unfold parseName. pose proof (accept_run_more ianaToken t d) as M. pose proof (accept_run_peek ianaToken t) as P.
  destruct (accept_run ianaToken t) as [nxt t1]. cbn [fst snd] in *. subst nxt. unfold get. cbn [tbuf trest].
  destruct (trest t1) as [|c r] eqn:R1.
  { replace (peek t1) with (@None byte) by (symmetry; apply peek_none, R1). destruct (tbuf t1); cbn; discriminate. }
  intros _. rewrite M by congruence. cbn [more tbuf trest]. rewrite R1.
  destruct (tbuf t1) as [|n0 n]; destruct (peek t1) as [x|]; try reflexivity. destruct (beqc x ";"); [reflexivity|]. destruct (beqc x ":"); reflexivity.
Qed.

Lemma parseParamName_more t d : ttouched (parseParamName t) = false -> parseParamName (more t d) = tmore (parseParamName t) d.
Proof.
  unfold parseParamName. destruct (trest t) as [|c0 r0] eqn:R0.
  { rewrite (accept_empty _ t R0). unfold get at 1. pose proof (accept_run_empty ianaToken (Tok [] (trest t)) R0) as Q.
    pose proof (accept_run_peek ianaToken (Tok [] (trest t))) as P. destruct (accept_run ianaToken (Tok [] (trest t))) as [nxt t1]. cbn [fst snd] in *.
    subst nxt. rewrite (proj2 (peek_none t1) Q). cbn [ttouched]. rewrite touched_nil by (exact Q || discriminate). discriminate. }
  rewrite (accept_more (bs ";") t d) by congruence. destruct (accept (bs ";") t) as [ok t1]. cbn [fst snd]. rewrite get_more. destruct (get t1) as [gb t2]. cbn [fst snd].
  pose proof (accept_run_more ianaToken t2 d) as M. pose proof (accept_run_peek ianaToken t2) as P. destruct (accept_run ianaToken t2) as [nxt t3]. cbn [fst snd] in *. subst nxt.
  destruct (trest t3) as [|c r] eqn:R3.
  { rewrite (proj2 (peek_none t3) R3). cbn [ttouched]. rewrite touched_nil by (exact R3 || discriminate). discriminate. }
  intros _. rewrite M by congruence. unfold peek. rewrite R3. destruct (beqc c "="); [|reflexivity]. reflexivity.
Qed.

Lemma after_more tk t d : ttouched (afterParamValue tk t) = false -> afterParamValue tk (more t d) = tmore (afterParamValue tk t) d.
Proof.
  unfold afterParamValue. destruct (trest t) as [|c r] eqn:R; unfold peek; cbn [more trest]; rewrite R; cbn [app].
  - cbn [ttouched]. rewrite touched_nil by (exact R || discriminate). discriminate.
  - intros _. repeat (destruct (beqc _ _); [reflexivity|]). reflexivity.
Qed.
Lemma after_empty tk t : trest t = [] -> ttouched (afterParamValue tk t) = true.
Proof. intros R. unfold afterParamValue. rewrite (proj2 (peek_none t) R). apply touched_nil; [exact R|discriminate]. Qed.

Lemma parseParamValue_more t d : ttouched (parseParamValue t) = false -> parseParamValue (more t d) = tmore (parseParamValue t) d.
Proof.
  unfold parseParamValue. destruct (trest t) as [|c0 r0] eqn:R0.
  { rewrite (accept_empty _ t R0). unfold get at 1. rewrite (accept_empty _ (Tok [] (trest t)) R0).
    pose proof (except_run_empty nonsafeChars (Tok [] (trest t)) R0) as Q. destruct (except_run nonsafeChars (Tok [] (trest t))) as [nxt t1]. cbn [fst snd] in *.
    unfold get. rewrite after_empty by exact Q. discriminate. }
  rewrite (accept_more (bs "=,") t d) by congruence. destruct (accept (bs "=,") t) as [ok t1]. cbn [fst snd]. rewrite get_more. destruct (get t1) as [gb t2]. cbn [fst snd].
  destruct (trest t2) as [|c2 r2] eqn:R2.
  { rewrite (accept_empty _ t2 R2). pose proof (except_run_empty nonsafeChars t2 R2) as Q. destruct (except_run nonsafeChars t2) as [nxt t3]. cbn [fst snd] in *.
    unfold get. rewrite after_empty by exact Q. discriminate. }
  rewrite (accept_more [DQ] t2 d) by congruence. destruct (accept [DQ] t2) as [q t3]. cbn [fst snd]. destruct q.
  - rewrite get_more. destruct (get t3) as [gb3 t4]. cbn [fst snd].
    pose proof (except_run_more nonsafe33 t4 d) as M. pose proof (except_run_peek nonsafe33 t4) as P. destruct (except_run nonsafe33 t4) as [nxt t5]. cbn [fst snd] in *. subst nxt.
    destruct (trest t5) as [|c r] eqn:R5.
    { rewrite (proj2 (peek_none t5) R5). cbn [ttouched]. rewrite touched_nil by (exact R5 || discriminate). discriminate. }
    rewrite M by congruence. unfold peek. rewrite R5. destruct (beqc c DQ); [|reflexivity]. rewrite get_more. destruct (get t5) as [d5 t6] eqn:G5. cbn [fst snd].
    assert (R6 : trest t6 <> []) by (unfold get in G5; injection G5 as <- <-; cbn [trest]; congruence).
    rewrite (accept_more [DQ] t6 d R6). destruct (accept [DQ] t6) as [q6 t7]. cbn [fst snd]. apply after_more.
  - pose proof (except_run_more nonsafeChars t3 d) as M. destruct (except_run nonsafeChars t3) as [nxt t5]. cbn [fst snd] in *.
    unfold get. destruct (trest t5) as [|c r] eqn:R5; [rewrite after_empty by reflexivity; discriminate|]. rewrite M by congruence. cbn [more tbuf trest]. rewrite R5.
    intros T. exact (after_more _ (Tok [] (c :: r)) d T).
Qed.

Lemma parseValue_more t d : ttouched (parseValue t) = false -> parseValue (more t d) = tmore (parseValue t) d.
Proof.
  unfold parseValue. destruct (trest t) as [|c0 r0] eqn:R0.
  { rewrite (accept_empty _ t R0). unfold get at 1. pose proof (except_run_empty nonsafe32 (Tok [] (trest t)) R0) as Q.
    pose proof (except_run_peek nonsafe32 (Tok [] (trest t))) as P. destruct (except_run nonsafe32 (Tok [] (trest t))) as [nxt t1]. cbn [fst snd] in *.
    subst nxt. rewrite (proj2 (peek_none t1) Q). unfold get. cbn [ttouched]. rewrite touched_nil by (exact Q || discriminate). discriminate. }
  rewrite (accept_more (bs ":") t d) by congruence. destruct (accept (bs ":") t) as [ok t1]. cbn [fst snd]. rewrite get_more. destruct (get t1) as [gb t2]. cbn [fst snd].
  pose proof (except_run_more nonsafe32 t2 d) as M. pose proof (except_run_peek nonsafe32 t2) as P. destruct (except_run nonsafe32 t2) as [nxt t3]. cbn [fst snd] in *. subst nxt.
  destruct (trest t3) as [|c r] eqn:R3.
  { rewrite (proj2 (peek_none t3) R3). unfold get. cbn [ttouched]. rewrite touched_nil by (exact R3 || discriminate). discriminate. }
  rewrite M by congruence. unfold peek. rewrite R3. destruct (beqc c CR); [|reflexivity]. rewrite get_more. destruct (get t3) as [d3 t4] eqn:G3. cbn [fst snd].
  assert (R4 : trest t4 <> []) by (unfold get in G3; injection G3 as <- <-; cbn [trest]; congruence).
  rewrite (accept_more [CR] t4 d R4). destruct (accept [CR] t4) as [q4 t5]. cbn [fst snd].
  destruct (trest t5) as [|c5 r5] eqn:R5.
  { rewrite (accept_empty _ t5 R5). cbn [ttouched]. rewrite touched_nil by (exact R5 || discriminate). discriminate. }
  rewrite (accept_more [LF] t5 d) by congruence. destruct (accept [LF] t5) as [q5 t6]. cbn [fst snd]. destruct q5; reflexivity.
Qed.

Lemma next_token_more z d : touched (snd (next_token z)) = false -> next_token (feed z d) = (fst (next_token z), feed (snd (next_token z)) d).
Proof.
  destruct z as [s t]. rewrite feed_tkz. unfold next_token. cbn [z_state z_tok].
  assert (G : forall x y : token * tstate * tok, (ttouched x = false -> y = tmore x d) -> touched (snd (let '(tk, s0, t0) := x in (tk, Tkz s0 t0))) = false ->
    (let '(tk, s0, t0) := y in (tk, Tkz s0 t0)) = (fst (let '(tk, s0, t0) := x in (tk, Tkz s0 t0)), feed (snd (let '(tk, s0, t0) := x in (tk, Tkz s0 t0))) d)).
  { intros [[tk s0] t0] y H T. cbn [snd] in T. rewrite (H T). reflexivity. }
  destruct s; [apply G|apply G|apply G|apply G|reflexivity|reflexivity].
  - apply parseName_more.
  - apply parseParamName_more.
  - apply parseParamValue_more.
  - apply parseValue_more.
Qed.

(** ** A phrase *)
Definition fed {A} (r : res (A * tkz)) (d : bytes) : res (A * tkz) := let! (p, z) := r in Ok (p, feed z d).

Lemma phrase_rest_more d : forall f inval acc z, rest_blocks f inval z = false -> phrase_rest f inval acc (feed z d) = fed (phrase_rest f inval acc z) d.
Proof.
  induction f as [|f IH]; intros inval acc z B; [discriminate B|]. cbn [rest_blocks phrase_rest] in *. pose proof (next_token_more z d) as M.
  destruct (next_token z) as [tk z1]. cbn [fst snd] in M. destruct (touched z1) eqn:T; [discriminate B|]. rewrite (M eq_refl). cbn [orb] in B.
  destruct (t_type tk).
  - reflexivity.
  - pose proof (next_token_more z1 d) as M1. destruct (next_token z1) as [tv z2]. cbn [fst snd] in M1. destruct (touched z2) eqn:T2; [discriminate B|]. rewrite (M1 eq_refl). cbn [orb] in B.
    destruct (t_type tv); try reflexivity; apply IH; exact B.
  - destruct inval; [apply IH; exact B|reflexivity].
  - destruct inval; [apply IH; exact B|reflexivity].
  - reflexivity.
  - reflexivity.
  - reflexivity.
Qed.
Lemma phrase_rest_mono : forall f f' inval acc z, f <= f' -> phrase_rest f inval acc z <> NoFuel -> phrase_rest f' inval acc z = phrase_rest f inval acc z.
Proof.
  induction f as [|f IH]; intros [|f'] inval acc z L N; [contradiction N; reflexivity|contradiction N; reflexivity|lia|]. cbn [phrase_rest] in *. destruct (next_token z) as [tk z1].
  destruct (t_type tk); try reflexivity.
  - destruct (next_token z1) as [tv z2]. destruct (t_type tv); try reflexivity; apply IH; try exact N; lia.
  - destruct inval; [apply IH; try exact N; lia|reflexivity].
  - destruct inval; [apply IH; try exact N; lia|reflexivity].
Qed.
Lemma rest_blocks_fuel : forall f inval acc z, rest_blocks f inval z = false -> phrase_rest f inval acc z <> NoFuel.
Proof.
  induction f as [|f IH]; intros inval acc z B; [discriminate B|]. cbn [rest_blocks phrase_rest] in *. destruct (next_token z) as [tk z1]. destruct (touched z1); [discriminate B|]. cbn [orb] in B.
  destruct (t_type tk); try discriminate.
  - destruct (next_token z1) as [tv z2]. destruct (touched z2); [discriminate B|]. cbn [orb] in B. destruct (t_type tv); try discriminate; apply IH, B.
  - destruct inval; [apply IH, B|discriminate].
  - destruct inval; [apply IH, B|discriminate].
Qed.

(** A phrase that needs no more bytes is the same when there are more. *)
Lemma get_phrase_more z d : blocks z = false -> get_phrase (feed z d) = fed (get_phrase z) d.
Proof.
  unfold blocks, get_phrase, get_phrase_fuel. intros B. pose proof (next_token_more z d) as M. destruct (next_token z) as [tk z1]. cbn [fst snd] in M.
  destruct (touched z1); [discriminate B|]. rewrite (M eq_refl). cbn [orb] in B. destruct (t_type tk); try reflexivity.
  pose proof (rest_blocks_fuel _ _ [tk] _ B) as N. rewrite <- (phrase_rest_more d _ _ [tk] _ B). apply phrase_rest_mono.
  - unfold feed. cbn [z_tok trest]. rewrite app_length. lia.
  - rewrite (phrase_rest_more d _ _ [tk] _ B). destruct (phrase_rest _ _ _ _) as [[? ?]| | |]; try discriminate. contradiction N; reflexivity.
Qed.

Lemma touched_more z d : touched z = false -> touched (feed z d) = false.
Proof. destruct z as [s [b r]]. unfold touched, feed. cbn [z_tok z_state trest]. destruct r; [destruct s; try discriminate; intros _; apply andb_false_r|reflexivity]. Qed.
Lemma rest_blocks_more d : forall f f' inval z, f <= f' -> rest_blocks f inval z = false -> rest_blocks f' inval (feed z d) = false.
Proof.
  induction f as [|f IH]; intros [|f'] inval z L B; [discriminate B|discriminate B|lia|]. cbn [rest_blocks] in *. pose proof (next_token_more z d) as M.
  destruct (next_token z) as [tk z1]. cbn [fst snd] in M. destruct (touched z1) eqn:T; [discriminate B|]. rewrite (M eq_refl), (touched_more _ d T). cbn [orb] in *.
  destruct (t_type tk); try reflexivity.
  - pose proof (next_token_more z1 d) as M1. destruct (next_token z1) as [tv z2]. cbn [fst snd] in M1. destruct (touched z2) eqn:T2; [discriminate B|]. rewrite (M1 eq_refl), (touched_more _ d T2). cbn [orb] in *.
    destruct (t_type tv); try reflexivity; apply IH; auto; lia.
  - destruct inval; [apply IH; auto; lia|reflexivity].
  - destruct inval; [apply IH; auto; lia|reflexivity].
Qed.
Lemma blocks_more z d : blocks z = false -> blocks (feed z d) = false.
Proof.
  unfold blocks. intros B. pose proof (next_token_more z d) as M. destruct (next_token z) as [tk z1]. cbn [fst snd] in M.
  destruct (touched z1) eqn:T; [discriminate B|]. rewrite (M eq_refl), (touched_more _ d T). cbn [orb] in *. destruct (t_type tk); try reflexivity.
  apply (rest_blocks_more d (S (S (length (trest (z_tok z)))))); [|exact B]. unfold feed. cbn [z_tok trest]. rewrite app_length. lia.
Qed.

(** If a byte was looked for that is not there, this shows at the end. *)
Lemma touched_stays z : touched z = true -> touched (snd (next_token z)) = true.
Proof.
  destruct z as [s [b r]]. unfold touched at 1. cbn [z_tok z_state trest]. destruct r as [|c r]; [|discriminate]. destruct s; cbn [isnil andb]; intros H; try discriminate H; reflexivity.
Qed.
Lemma rest_blocks_ok : forall f inval acc z p z', phrase_rest f inval acc z = Ok (p, z') -> rest_blocks f inval z = true -> touched z' = true.
Proof.
  assert (S : forall f inval acc z p z', phrase_rest f inval acc z = Ok (p, z') -> touched z = true -> touched z' = true).
  { induction f as [|f IH]; intros inval acc z p z' Q T; [discriminate Q|]. cbn [phrase_rest] in Q. apply touched_stays in T. destruct (next_token z) as [tk z1]. cbn [snd] in T.
    destruct (t_type tk); try discriminate Q.
    - apply touched_stays in T. destruct (next_token z1) as [tv z2]. cbn [snd] in T. destruct (t_type tv); try discriminate Q; exact (IH _ _ _ _ _ Q T).
    - destruct inval; [exact (IH _ _ _ _ _ Q T)|discriminate Q].
    - destruct inval; [exact (IH _ _ _ _ _ Q T)|discriminate Q].
    - apply Ok_inj in Q. injection Q as _ <-. exact T. }
  induction f as [|f IH]; intros inval acc z p z' Q B; [discriminate Q|]. cbn [phrase_rest rest_blocks] in Q, B. destruct (next_token z) as [tk z1].
  destruct (t_type tk); try discriminate Q.
  - destruct (touched z1) eqn:T1.
    + apply touched_stays in T1. destruct (next_token z1) as [tv z2]. cbn [snd] in T1. destruct (t_type tv); try discriminate Q; exact (S _ _ _ _ _ _ Q T1).
    + cbn [orb] in B. destruct (next_token z1) as [tv z2]. destruct (t_type tv); try discriminate Q; (destruct (touched z2) eqn:T2; [exact (S _ _ _ _ _ _ Q T2)|exact (IH _ _ _ _ _ Q B)]).
  - destruct inval; [|discriminate Q]. destruct (touched z1) eqn:T1; [exact (S _ _ _ _ _ _ Q T1)|exact (IH _ _ _ _ _ Q B)].
  - destruct inval; [|discriminate Q]. destruct (touched z1) eqn:T1; [exact (S _ _ _ _ _ _ Q T1)|exact (IH _ _ _ _ _ Q B)].
  - apply Ok_inj in Q. injection Q as _ <-. rewrite orb_false_r in B. exact B.
Qed.
Lemma blocks_ok z d z' : get_phrase z = Ok (PhraseLine d, z') -> touched z' = false -> blocks z = false.
Proof.
  unfold get_phrase, get_phrase_fuel, blocks. intros Q T. destruct (next_token z) as [tk z1]. destruct (t_type tk); try discriminate Q.
  destruct (rest_blocks (S (S (length (trest (z_tok z))))) false z1) eqn:B; [rewrite (rest_blocks_ok _ _ _ _ _ _ Q B) in T; discriminate T|].
  rewrite orb_false_r. destruct (touched z1) eqn:T1; [|reflexivity]. exfalso.
  cbn [rest_blocks] in B. apply touched_stays in T1. destruct (next_token z1) as [tk2 z2]. cbn [snd] in T1. rewrite T1 in B. discriminate B.
Qed.

(** ** Two sources of the same phrases *)
Section Sim.
Context {env : Env} {A B : Type} (getA : A -> res (phrase * A)) (getB : B -> res (phrase * B)) (R : A -> B -> Prop) (Bad : option gerr -> Prop).

Definition agree {X Y} (Q : X -> Y -> Prop) (r : res X) (r' : res Y) : Prop :=
  match r with
  | Ok x => exists y, r' = Ok y /\ Q x y
  | Err e => Bad (Some e) \/ r' = Err e
  | Panic => Bad None \/ r' = Panic
  | NoFuel => True
  end.
Lemma agree_bind {X Y X' Y'} (Q : X -> Y -> Prop) (Q' : X' -> Y' -> Prop) r r' f f' : agree Q r r' -> (forall x y, Q x y -> agree Q' (f x) (f' y)) -> agree Q' (bind r f) (bind r' f').
Proof.
  intros H K. destruct r as [x|e| |]; cbn [bind agree] in *.
  - destruct H as (y & -> & q). exact (K x y q).
  - destruct H as [H| ->]; [left; exact H|right; reflexivity].
  - destruct H as [H| ->]; [left; exact H|right; reflexivity].
  - exact Logic.I.
Qed.
Lemma agree_same {X X' Y'} (Q' : X' -> Y' -> Prop) (r : res X) f f' : (forall x, agree Q' (f x) (f' x)) -> agree Q' (bind r f) (bind r f').
Proof. intros K. destruct r; cbn [bind agree]; auto. Qed.

Inductive RS : gsrc -> gsrc -> Prop :=
| RTok a b : R a b -> RS (GTok a) (GTok b)
| RList l : RS (GList l) (GList l).
Definition RP {X} (x : X * gsrc) (y : X * gsrc) : Prop := fst x = fst y /\ RS (snd x) (snd y).

(** Errors need not agree if they are [Bad]; [None] stands for a panic. *)
Definition step (a : A) (b : B) : Prop :=
  match getA a with
  | Ok (PhraseLine d, a') => exists b', getB b = Ok (PhraseLine d, b') /\ R a' b'
  | Ok (PhraseDone, a') => (Bad (Some ErrUnexpectedEOF) /\ Bad None) \/ exists b', getB b = Ok (PhraseDone, b') /\ R a' b'
  | Err e => Bad (Some e) \/ getB b = Err e
  | Panic => Bad None \/ getB b = Panic
  | NoFuel => True
  end.
Hypothesis H : forall a b, R a b -> step a b.


Definition quiet {X} (r : res X) : Prop := match r with Ok _ => False | Err e => e = ErrUnexpectedEOF | _ => True end.
Lemma after_get {X Y} (Q : X -> Y -> Prop) s s' (done : res X) (done' : res Y) line line' : RS s s' -> quiet done -> agree Q done done' ->
  (forall d t t', RS t t' -> agree Q (line d t) (line' d t')) ->
  agree Q (let! (ph, t) := g_get getA s in match ph with PhraseDone => done | PhraseLine d => line d t end)
          (let! (ph, t) := g_get getB s' in match ph with PhraseDone => done' | PhraseLine d => line' d t end).
Proof.
  intros S D AD L. destruct S as [a b r|[|p l]].
  - specialize (H a b r). unfold step in H. unfold g_get. destruct (getA a) as [[[d|] a']|e| |]; cbn [bind].
    + destruct H as (b' & -> & r'). cbn [bind]. apply L. constructor. exact r'.
    + destruct H as [N|(b' & -> & r')]; [|exact AD]. destruct N as (N1 & N2). destruct done; cbn [quiet agree] in *; [contradiction|subst; left; exact N1|left; exact N2|exact Logic.I].
    + destruct H as [N| ->]; [left; exact N|right; reflexivity].
    + destruct H as [N| ->]; [left; exact N|right; reflexivity].
    + exact Logic.I.
  - cbn [g_get bind agree]. right. reflexivity.
  - cbn [g_get bind]. destruct p; [|exact AD]. apply L. constructor.
Qed.

Lemma dummy_sim : forall f f' n s s', f <= f' -> RS s s' -> agree RS (g_dummy getA f n s) (g_dummy getB f' n s').
Proof.
  induction f as [|f IH]; intros [|f'] n s s' L S; [exact Logic.I|exact Logic.I|lia|]. cbn [g_dummy]. apply after_get; [exact S|first [reflexivity|exact Logic.I]|right; reflexivity|].
  intros d t t' T. apply agree_same. intros [[name ps] value].
  destruct (beq (upper name) (bs "BEGIN")).
  - apply agree_bind with (Q := RS); [apply IH; [lia|exact T]|]. intros x y q. apply IH; [lia|exact q].
  - destruct (beq (upper name) (bs "END")); [|apply IH; [lia|exact T]]. destruct (beq (upper value) n); cbn [agree]; [eauto|right; reflexivity].
Qed.
Lemma gather_sim : forall f f' ty acc s s', f <= f' -> RS s s' -> agree RP (g_gather getA f ty acc s) (g_gather getB f' ty acc s').
Proof.
  induction f as [|f IH]; intros [|f'] ty acc s s' L S; [exact Logic.I|exact Logic.I|lia|]. cbn [g_gather].
  apply after_get; [exact S|first [reflexivity|exact Logic.I]|right; reflexivity|].
  intros d t t' T. apply agree_same. intros [[name ps] value].
  destruct (beq name (bs "BEGIN")); [right; reflexivity|]. destruct (beq name (bs "ACTION")).
  - destruct ty; [right; reflexivity|apply IH; [lia|exact T]].
  - destruct (beq name (bs "END")); [|apply IH; [lia|exact T]]. eexists. split; [reflexivity|]. split; [reflexivity|exact T].
Qed.
Lemma sec_sim : forall f f' id fs s s', f <= f' -> RS s s' -> agree RP (g_sec getA f id fs s) (g_sec getB f' id fs s').
Proof.
  induction f as [|f IH]; intros [|f'] id fs s s' L S; [exact Logic.I|exact Logic.I|lia|]. cbn [g_sec]. apply after_get; [exact S|first [reflexivity|exact Logic.I]|right; reflexivity|].
  intros d t t' T. apply agree_same. intros [[name ps] value]. assert (L' : f <= f') by lia.
  destruct (beq (upper name) (bs "BEGIN")).
  - destruct (find_field _ _) as [[i fd]|].
    + destruct (full fd i fs); [right; reflexivity|]. destruct (fd_type fd) as [pid|sid|].
      * right; reflexivity.
      * apply agree_bind with (Q := RP); [apply IH; assumption|]. intros [x a] [y b] [q1 q2]. cbn [fst snd] in *. subst y. apply IH; assumption.
      * apply agree_bind with (Q := RP); [apply gather_sim; assumption|]. intros [[pt ty] a] [[pt' ty'] b] [q1 q2]. cbn [fst snd] in *. injection q1 as <- <-.
        destruct ty as [sid|]; [|right; reflexivity]. apply agree_bind with (Q := RP); [apply IH; [assumption|constructor]|]. intros [x a'] [y b'] [q1' _]. cbn [fst snd] in *. subst y. apply IH; assumption.
    + apply agree_bind with (Q := RS); [apply dummy_sim; assumption|]. intros x y q. apply IH; assumption.
  - destruct (find_field _ _) as [[i fd]|].
    + destruct (full fd i fs); [right; reflexivity|]. destruct (fd_type fd) as [pid|sid|]; [|right; reflexivity|right; reflexivity].
      apply agree_same. intros p. apply IH; assumption.
    + destruct (beq (upper name) (bs "END")); [|apply IH; assumption]. destruct (beq value (sp_name (sec_spec id))); [|right; reflexivity].
      apply agree_same. intros x. eexists. split; [reflexivity|]. split; [reflexivity|exact T].
Qed.
Lemma decode_sim f f' s s' : f <= f' -> RS s s' -> agree RP (g_decode getA f s) (g_decode getB f' s').
Proof.
  intros L S. unfold g_decode. apply after_get; [exact S|first [reflexivity|exact Logic.I]|right; reflexivity|]. intros d t t' T. apply agree_same. intros [[name ps] value].
  destruct (_ && _); [apply sec_sim; assumption|right; reflexivity].
Qed.
End Sim.

(** ** Sections.v is the instance for a text that is there *)
Section Instance.
Context {env : Env}.
Definition to_src (s : @gsrc tkz) : src := match s with GTok z => SrcTok z | GList l => SrcList l end.
Definition conv {X} (r : res (X * @gsrc tkz)) : res (X * src) := let! (x, s) := r in Ok (x, to_src s).
Lemma conv_bind {X Y} (r : res (X * @gsrc tkz)) (f : X * @gsrc tkz -> res (Y * @gsrc tkz)) : conv (bind r f) = bind r (fun x => conv (f x)).
Proof. destruct r; reflexivity. Qed.
Lemma bind_conv {X Y} (r : res (X * @gsrc tkz)) (f : X * src -> res Y) : bind (conv r) f = bind r (fun '(x, s) => f (x, to_src s)).
Proof. destruct r as [[? ?]| | |]; reflexivity. Qed.
Lemma bind_ext {X Y} (r : res X) (f g : X -> res Y) : (forall x, f x = g x) -> bind r f = bind r g.
Proof. intros H. destruct r; cbn [bind]; auto. Qed.

Lemma get_conv s : get_ph (to_src s) = conv (g_get get_phrase s).
Proof. destruct s as [z|[|p l]]; [|reflexivity|reflexivity]. cbn [to_src get_ph g_get]. destruct (get_phrase z) as [[? ?]| | |]; reflexivity. Qed.
Lemma dummy_conv : forall f n s, dec_dummy f n (to_src s) = let! s' := g_dummy get_phrase f n s in Ok (to_src s').
Proof.
  induction f as [|f IH]; intros n s; [reflexivity|]. cbn [dec_dummy g_dummy]. rewrite get_conv. destruct (g_get get_phrase s) as [[[d|] t]| | |]; cbn [conv bind]; try reflexivity.
  destruct (parts d) as [[[name ps] value]| | |]; cbn [bind]; try reflexivity. destruct (beq (upper name) (bs "BEGIN")).
  - rewrite IH. destruct (g_dummy get_phrase f value t) as [t'| | |]; cbn [bind]; try reflexivity. apply IH.
  - destruct (beq (upper name) (bs "END")); [destruct (beq (upper value) n); reflexivity|apply IH].
Qed.
Lemma gather_conv : forall f ty acc s, gather f ty acc (to_src s) = conv (g_gather get_phrase f ty acc s).
Proof.
  induction f as [|f IH]; intros ty acc s; [reflexivity|]. cbn [gather g_gather]. rewrite get_conv. destruct (g_get get_phrase s) as [[[d|] t]| | |]; cbn [conv bind]; try reflexivity.
  destruct (parts d) as [[[name ps] value]| | |]; cbn [bind]; try reflexivity. destruct (beq name (bs "BEGIN")); [reflexivity|]. destruct (beq name (bs "ACTION")).
  - destruct ty; [reflexivity|apply IH].
  - destruct (beq name (bs "END")); [reflexivity|apply IH].
Qed.
Lemma sec_conv : forall f id fs s, dec_sec f id fs (to_src s) = conv (g_sec get_phrase f id fs s).
Proof.
  induction f as [|f IH]; intros id fs s; [reflexivity|]. cbn [dec_sec g_sec]. rewrite get_conv. destruct (g_get get_phrase s) as [[[d|] t]| | |]; cbn [conv bind]; try reflexivity.
  destruct (parts d) as [[[name ps] value]| | |]; cbn [bind]; try reflexivity. destruct (beq (upper name) (bs "BEGIN")).
  - destruct (find_field _ _) as [[i fd]|].
    + destruct (full fd i fs); [reflexivity|]. destruct (fd_type fd) as [pid|sid|]; [reflexivity| |].
      * rewrite IH. destruct (g_sec get_phrase f sid (no_fields sid) t) as [[x t1]| | |]; cbn [conv bind]; try reflexivity. apply IH.
      * rewrite gather_conv. destruct (g_gather get_phrase f None [] t) as [[[pt [sid|]] t1]| | |]; cbn [conv bind]; try reflexivity.
        change (SrcList pt) with (to_src (GList pt)). rewrite IH. destruct (g_sec get_phrase f sid (no_fields sid) (GList pt)) as [[x t2]| | |]; cbn [conv bind]; try reflexivity. apply IH.
    + rewrite dummy_conv. destruct (g_dummy get_phrase f (upper value) t) as [t1| | |]; cbn [bind]; try reflexivity. apply IH.
  - destruct (find_field _ _) as [[i fd]|].
    + destruct (full fd i fs); [reflexivity|]. destruct (fd_type fd) as [pid|sid|]; try reflexivity.
      destruct (prop_decode pid ps value); cbn [bind]; try reflexivity. apply IH.
    + destruct (beq (upper name) (bs "END")); [|apply IH]. destruct (beq value (sp_name (sec_spec id))); [|reflexivity]. destruct (finish id fs); reflexivity.
Qed.
Lemma decode_conv f z : decode_src f (SrcTok z) = let! (c, _) := g_decode get_phrase f (GTok z) in Ok c.
Proof.
  unfold decode_src, g_decode. change (SrcTok z) with (to_src (GTok z)). rewrite get_conv. destruct (g_get get_phrase (GTok z)) as [[[d|] t]| | |]; cbn [conv bind]; try reflexivity.
  destruct (parts d) as [[[name ps] value]| | |]; cbn [bind]; try reflexivity. destruct (_ && _); [|reflexivity]. rewrite sec_conv.
  destruct (g_sec get_phrase f SCalendar (no_fields SCalendar) t) as [[x t1]| | |]; reflexivity.
Qed.
End Instance.

(** ** What is read on demand is what there is to read *)
Lemma drain_acc sizes : forall f i buf r acc, drain f sizes i buf r acc = let! (d, e) := drain f sizes i buf r [] in Ok (acc ++ d, e).
Proof.
  induction f as [|f IH]; intros i buf r acc; [reflexivity|]. rewrite !drain_step. destruct (unf_read (S f) buf r (sizes i)) as [[[[d [e|]] b] r']| | |]; cbn [bind]; try reflexivity.
  rewrite (IH (S i) b r' (acc ++ d)), (IH (S i) b r' ([] ++ d)). destruct (drain f sizes (S i) b r' []) as [[d' e']| | |]; cbn [bind]; try reflexivity. cbn [app]. rewrite app_assoc. reflexivity.
Qed.
Lemma feed_feed z a b : feed (feed z a) b = feed z (a ++ b).
Proof. unfold feed. cbn [z_state z_tok tbuf trest]. rewrite app_assoc. reflexivity. Qed.
Lemma feed_nil z : feed z [] = z.
Proof. destruct z as [s [b r]]. unfold feed. cbn [z_state z_tok tbuf trest]. rewrite app_nil_r. reflexivity. Qed.

Definition to_come (N : nat) (sizes : nat -> nat) (o : ostate) (d : bytes) : Prop :=
  (o_end o = true /\ d = []) \/ (o_end o = false /\ exists F e, F <= N /\ drain F sizes (o_i o) (o_buf o) (o_r o) [] = Ok (d, e)).
Definition same_text (N : nat) (sizes : nat -> nat) (z : tkz) (o : ostate) : Prop := exists d, to_come N sizes o d /\ z = feed (o_z o) d.

Lemma od_ended M sizes o : o_end o = true -> od_phrase (S M) sizes o = let! (p, z) := get_phrase (o_z o) in Ok (p, OState z (o_i o) (o_buf o) (o_r o) (o_end o)).
Proof. intros E. cbn [od_phrase]. rewrite E. reflexivity. Qed.

Lemma od_phrase_step N sizes : forall F M o d, F < M -> (o_end o = true /\ d = []) \/ (o_end o = false /\ exists e, F <= N /\ drain F sizes (o_i o) (o_buf o) (o_r o) [] = Ok (d, e)) ->
  match get_phrase (feed (o_z o) d) with
  | Ok (p, z') => exists o', od_phrase M sizes o = Ok (p, o') /\ same_text N sizes z' o'
  | Err e => od_phrase M sizes o = Err e
  | Panic => od_phrase M sizes o = Panic
  | NoFuel => True
  end.
Proof.
  induction F as [|F IH]; intros M o d L [[E ->]|[E (e & LN & D)]].
  - destruct M as [|M]; [lia|]. rewrite feed_nil, od_ended by exact E. destruct (get_phrase (o_z o)) as [[p z]| | |]; cbn [bind]; auto. eexists. split; [reflexivity|]. exists []. rewrite feed_nil. cbn [o_z]. split; [left; split; [exact E|reflexivity]|reflexivity].
  - discriminate D.
  - destruct M as [|M]; [lia|]. rewrite feed_nil, od_ended by exact E. destruct (get_phrase (o_z o)) as [[p z]| | |]; cbn [bind]; auto. eexists. split; [reflexivity|]. exists []. rewrite feed_nil. cbn [o_z]. split; [left; split; [exact E|reflexivity]|reflexivity].
  - destruct M as [|M]; [lia|]. cbn [od_phrase]. rewrite E. cbn [orb]. destruct (blocks (o_z o)) eqn:B; cbn [negb].
    + rewrite drain_step in D. apply bind_ok in D as ([[[d1 e1] b1] r1] & D1 & D2). rewrite (proj1 (unf_read_look_mono (S F)) (S M) _ _ _ _ ltac:(lia) D1). cbn [bind].
      destruct e1 as [e1|]; cbn [is_some].
      * apply Ok_inj in D2. injection D2 as <- <-. cbn [app].
        specialize (IH M (OState (feed (o_z o) d1) (S (o_i o)) b1 r1 true) [] ltac:(lia) (or_introl (conj eq_refl eq_refl))). cbn [o_z] in IH. rewrite feed_nil in IH. exact IH.
      * rewrite drain_acc in D2. apply bind_ok in D2 as ([d2 e2] & D2 & Q). apply Ok_inj in Q. injection Q as <- <-. cbn [app].
        specialize (IH M (OState (feed (o_z o) d1) (S (o_i o)) b1 r1 false) d2 ltac:(lia)). cbn [o_z o_end o_i o_buf o_r] in IH. rewrite feed_feed in IH. apply IH. right. split; [reflexivity|]. exists e2. split; [lia|exact D2].
    + rewrite (get_phrase_more _ d B). destruct (get_phrase (o_z o)) as [[p z]| | |]; cbn [bind fed]; auto. eexists. split; [reflexivity|]. exists d. cbn [o_z]. split; [right; cbn [o_end o_i o_buf o_r]; split; [reflexivity|]; exists (S F), e; split; [lia|exact D]|reflexivity].
Qed.

Section Main.
Context {env : Env}.
(** A tokeniser stays a tokeniser. *)
Definition is_tok {St} (s : @gsrc St) : Prop := match s with GTok _ => True | GList _ => False end.
Lemma get_tok {St} (get : St -> _) s p t : is_tok s -> g_get get s = Ok (p, t) -> is_tok t.
Proof. destruct s; [|contradiction]. cbn [g_get]. intros _ Q. apply bind_ok in Q as ([q z] & _ & Q). apply Ok_inj in Q. injection Q as <- <-. exact Logic.I. Qed.
Lemma dummy_tok {St} (get : St -> _) : forall f n s t, is_tok s -> g_dummy get f n s = Ok t -> is_tok t.
Proof.
  induction f as [|f IH]; intros n s t K Q; [discriminate Q|]. cbn [g_dummy] in Q. apply bind_ok in Q as ([ph s1] & G & Q). apply (get_tok _ _ _ _ K) in G.
  destruct ph as [d|]; [|discriminate Q]. apply bind_ok in Q as ([[name ps] value] & _ & Q). destruct (beq (upper name) (bs "BEGIN")).
  - apply bind_ok in Q as (s2 & Q1 & Q). apply (IH _ _ _ (IH _ _ _ G Q1) Q).
  - destruct (beq (upper name) (bs "END")); [|exact (IH _ _ _ G Q)]. destruct (beq (upper value) n); [|discriminate Q]. apply Ok_inj in Q. subst. exact G.
Qed.
Lemma gather_tok {St} (get : St -> _) : forall f ty acc s x t, is_tok s -> g_gather get f ty acc s = Ok (x, t) -> is_tok t.
Proof.
  induction f as [|f IH]; intros ty acc s x t K Q; [discriminate Q|]. cbn [g_gather] in Q. apply bind_ok in Q as ([ph s1] & G & Q). apply (get_tok _ _ _ _ K) in G.
  destruct ph as [d|]; [|discriminate Q]. apply bind_ok in Q as ([[name ps] value] & _ & Q). destruct (beq name (bs "BEGIN")); [discriminate Q|]. destruct (beq name (bs "ACTION")).
  - destruct ty; [discriminate Q|]. exact (IH _ _ _ _ _ G Q).
  - destruct (beq name (bs "END")); [|exact (IH _ _ _ _ _ G Q)]. apply Ok_inj in Q. injection Q as <- <-. exact G.
Qed.
Lemma sec_tok {St} (get : St -> _) : forall f id fs s x t, is_tok s -> g_sec get f id fs s = Ok (x, t) -> is_tok t.
Proof.
  induction f as [|f IH]; intros id fs s x t K Q; [discriminate Q|]. cbn [g_sec] in Q. apply bind_ok in Q as ([ph s1] & G & Q). apply (get_tok _ _ _ _ K) in G.
  destruct ph as [d|]; [|discriminate Q]. apply bind_ok in Q as ([[name ps] value] & _ & Q). destruct (beq (upper name) (bs "BEGIN")).
  - destruct (find_field _ _) as [[i fd]|].
    + destruct (full fd i fs); [discriminate Q|]. destruct (fd_type fd) as [pid|sid|]; [discriminate Q| |].
      * apply bind_ok in Q as ([y s2] & Q1 & Q). apply (IH _ _ _ _ _ G) in Q1. exact (IH _ _ _ _ _ Q1 Q).
      * apply bind_ok in Q as ([[pt [sid|]] s2] & Q1 & Q); [|discriminate Q]. apply (gather_tok _ _ _ _ _ _ _ G) in Q1. apply bind_ok in Q as ([y s3] & _ & Q). exact (IH _ _ _ _ _ Q1 Q).
    + apply bind_ok in Q as (s2 & Q1 & Q). apply (dummy_tok _ _ _ _ _ G) in Q1. exact (IH _ _ _ _ _ Q1 Q).
  - destruct (find_field _ _) as [[i fd]|].
    + destruct (full fd i fs); [discriminate Q|]. destruct (fd_type fd) as [pid|sid|]; [|discriminate Q|discriminate Q]. apply bind_ok in Q as (y & _ & Q). exact (IH _ _ _ _ _ G Q).
    + destruct (beq (upper name) (bs "END")); [|exact (IH _ _ _ _ _ G Q)]. destruct (beq value (sp_name (sec_spec id))); [|discriminate Q].
      apply bind_ok in Q as (y & _ & Q). apply Ok_inj in Q. injection Q as <- <-. exact G.
Qed.
Lemma decode_tok {St} (get : St -> _) f s x t : is_tok s -> g_decode get f s = Ok (x, t) -> is_tok t.
Proof.
  intros K Q. unfold g_decode in Q. apply bind_ok in Q as ([ph s1] & G & Q). apply (get_tok _ _ _ _ K) in G.
  destruct ph as [d|]; [|discriminate Q]. apply bind_ok in Q as ([[name ps] value] & _ & Q). destruct (_ && _); [|discriminate Q]. exact (sec_tok _ _ _ _ _ _ _ G Q).
Qed.

Lemma od_step N sizes M z o : N < M -> same_text N sizes z o -> step get_phrase (od_phrase M sizes) (same_text N sizes) (fun _ => False) z o.
Proof.
  intros L (d & T & ->). unfold step.
  assert (X : exists F, F <= N /\ ((o_end o = true /\ d = []) \/ (o_end o = false /\ exists e, F <= N /\ drain F sizes (o_i o) (o_buf o) (o_r o) [] = Ok (d, e)))).
  { destruct T as [T|[E (F & e & LN & D)]]; [exists 0; split; [lia|left; exact T]|]. exists F. split; [exact LN|]. right. eauto. }
  destruct X as (F & LF & X). pose proof (od_phrase_step N sizes F M o d ltac:(lia) X) as S. destruct (get_phrase (feed (o_z o) d)) as [[[data|] z']|e| |]; auto.
Qed.

(** Everything is read first: [d]. *)
Theorem decode_on_demand sizes r F d e : drain F sizes 0 [] r [] = Ok (d, e) -> forall fuel, F + length d + 2 < fuel ->
  (let! (c, _) := DecodeOD fuel sizes r in Ok c) = decode_bytes d.
Proof.
  intros D fuel L. unfold DecodeOD, decode_bytes. rewrite decode_conv.
  assert (SM : RS (same_text F sizes) (GTok (new_tokeniser d)) (GTok (od_start r))).
  { constructor. exists d. split; [right; split; [reflexivity|]; exists F, e; split; [lia|exact D]|]. reflexivity. }
  pose proof (decode_sim get_phrase (od_phrase fuel sizes) (same_text F sizes) (fun _ => False) (fun z o => od_step F sizes fuel z o ltac:(lia)) (S (S (length d))) fuel _ _ ltac:(lia) SM) as A.
  destruct (g_decode get_phrase (S (S (length d))) (GTok (new_tokeniser d))) as [[c s]|x| |] eqn:G; cbn [agree] in A.
  - destruct A as ([c' s'] & -> & [Q1 Q2]). cbn [fst snd] in *. subst c'. cbn [bind].
    apply decode_tok in G; [|exact Logic.I]. destruct Q2; [reflexivity|contradiction G].
  - destruct A as [[]| ->]. reflexivity.
  - destruct A as [[]| ->]. reflexivity.
  - exfalso. apply (decode_bytes_fuel d). unfold decode_bytes. rewrite decode_conv, G. reflexivity.
Qed.
End Main.
