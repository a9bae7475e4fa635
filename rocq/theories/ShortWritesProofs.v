(** What becomes of the counts. *)
From Coq Require Import List ZArith Bool Lia.
From Verif Require Import Base Lib Utf8 Utf8Proofs Folder FolderProofs GoTime Params Props SecTable Sections Codec EncodeProofs HangProofs ShortWrites SpecShortWrites.
Import ListNotations.
Local Open Scope Z_scope.

Section Counts.
Context {env : Env} {W E : Type} (wr : io_writer W E).

(** ** Without the counts *)
Lemma loop_uncounted : forall fuel line pre rest n w, let '(w', _, e, l) := count_loop wr fuel line pre rest n w in folder_loop (uncounted wr) fuel line pre rest w = (w', e, l).
Proof.
  induction fuel as [|fuel IH]; intros line pre rest n w; [reflexivity|]. destruct rest as [|c rest].
  - cbn [count_loop folder_loop]. destruct pre as [|p pre]; [reflexivity|]. unfold uncounted. destruct (wr w (p :: pre)) as [[w' m] e]. reflexivity.
  - cbn [count_loop folder_loop]. destruct (decode_rune (c :: rest)) as [r s]. destruct (r =? 10); [apply IH|]. destruct (r =? 13); [apply IH|]. destruct (maxLineLength <? _); [|apply IH].
    destruct pre as [|p pre].
    + unfold uncounted at 1. destruct (wr w eol) as [[w2 m2] [e2|]]; [reflexivity|apply IH].
    + unfold uncounted at 1 2. destruct (wr w (p :: pre)) as [[w1 m1] [e1|]]; [reflexivity|]. unfold uncounted at 1. destruct (wr w1 eol) as [[w2 m2] [e2|]]; [reflexivity|apply IH].
Qed.
Lemma write_uncounted st q : folder_write (uncounted wr) st q = fst (count_write wr st q).
Proof.
  destruct st as [f w]. unfold folder_write, count_write. destruct (f_err f); [reflexivity|]. pose proof (loop_uncounted (S (length q)) (f_line f) [] q 0 w) as H. destruct (count_loop wr _ _ _ _ _ _) as [[[w' n] e] l]. rewrite H. reflexivity.
Qed.
Lemma trace_uncounted tr : forall st, count_trace wr st tr = run_trace (uncounted wr) st tr.
Proof. induction tr as [|[b|] tr IH]; intros st; cbn [count_trace run_trace]; [reflexivity| |reflexivity]. rewrite write_uncounted. apply IH. Qed.
Theorem encode_uncounted w cal : EncodeTo wr w cal = Encode (uncounted wr) w cal.
Proof. unfold EncodeTo, Encode. destruct (sec_valid cal); [reflexivity|apply trace_uncounted]. Qed.

(** ** The count that Write returns *)
Lemma loop_counts : honest wr -> forall fuel line pre rest n w w' n' e l, (length rest < fuel)%nat -> count_loop wr fuel line pre rest n w = (w', n', e, l) ->
  n <= n' <= n + Z.of_nat (length pre + length rest) /\ (n' < n + Z.of_nat (length pre + length rest) -> e <> None).
Proof.
  intros H. induction fuel as [|fuel IH]; intros line pre rest n w w' n' e l L Q; [lia|]. destruct rest as [|c rest].
  - cbn [count_loop] in Q. destruct pre as [|p pre]; [injection Q as <- <- <- <-; cbn [length]; split; [lia|intros X; lia]|]. destruct (wr w (p :: pre)) as [[w1 m] e1] eqn:R. injection Q as <- <- <- <-. apply H in R as [R1 R2]. rewrite Nat.add_0_r. split; [lia|]. intros X. apply R2. lia.
  - cbn [count_loop] in Q. destruct (decode_rune (c :: rest)) as [r s] eqn:D.
    assert (HS : (1 <= s <= length (c :: rest))%nat) by (pose proof (decode_rune_width c rest) as Z0; rewrite D in Z0; lia).
    assert (LS : (length (firstn s (c :: rest)) = s)%nat) by (rewrite firstn_length; lia). assert (LK : (length (skipn s (c :: rest)) = length (c :: rest) - s)%nat) by apply skipn_length.
    assert (STEP : forall line' pre', (length pre' = length pre + s)%nat -> count_loop wr fuel line' pre' (skipn s (c :: rest)) n w = (w', n', e, l) ->
      n <= n' <= n + Z.of_nat (length pre + length (c :: rest)) /\ (n' < n + Z.of_nat (length pre + length (c :: rest)) -> e <> None)).
    { intros line' pre' LP QQ. apply IH in QQ; [|rewrite LK; cbn [length] in *; lia]. rewrite LP, LK in QQ. replace (length pre + s + (length (c :: rest) - s))%nat with (length pre + length (c :: rest))%nat in QQ by lia. exact QQ. }
    assert (LP : (length (pre ++ firstn s (c :: rest)) = length pre + s)%nat) by (rewrite app_length; lia).
    destruct (r =? 10); [eapply STEP; eauto|]. destruct (r =? 13); [eapply STEP; eauto|]. destruct (maxLineLength <? _); [|eapply STEP; eauto].
    destruct (match pre with [] => (w, 0, None) | _ :: _ => wr w pre end) as [[w1 m] e1] eqn:R1.
    assert (M : 0 <= m <= Z.of_nat (length pre) /\ (m < Z.of_nat (length pre) -> e1 <> None)).
    { destruct pre as [|p pre]; [injection R1 as <- <- <-; cbn [length]; split; [lia|intros X; lia]|]. apply H in R1. exact R1. }
    destruct e1 as [e1|]; [injection Q as <- <- <- <-; split; [lia|discriminate]|]. destruct (wr w1 eol) as [[w2 m2] [e2|]]; [injection Q as <- <- <- <-; split; [lia|discriminate]|].
    assert (m = Z.of_nat (length pre)) by (destruct (Z_lt_le_dec m (Z.of_nat (length pre))) as [X|X]; [destruct M as [_ M]; specialize (M X); contradiction M; reflexivity|lia]).
    apply IH in Q; [|rewrite LK; cbn [length] in *; lia]. rewrite LS, LK in Q. replace (s + (length (c :: rest) - s))%nat with (length (c :: rest)) in Q by lia. split; [lia|]. intros X. apply Q. lia.
Qed.
Theorem write_honest st q st' n e : honest wr -> count_write wr st q = (st', (n, e)) -> 0 <= n <= Z.of_nat (length q) /\ (n < Z.of_nat (length q) -> e <> None).
Proof.
  intros H. destruct st as [f w]. unfold count_write. destruct (f_err f); [intros Q; injection Q as <- <- <-; split; [lia|discriminate]|].
  destruct (count_loop wr _ _ _ _ _ _) as [[[w1 n1] e1] l1] eqn:Q1. intros Q. injection Q as <- <- <-. apply (loop_counts H) in Q1; [|lia]. exact Q1.
Qed.
End Counts.

(** ** Two writers that answer alike *)
Section Alike.
Context {env : Env} {W1 W2 E : Type} (wr1 : W1 -> bytes -> W1 * option E) (wr2 : W2 -> bytes -> W2 * option E) (R : W1 -> W2 -> Prop).
Context (step : forall w1 w2 q, R w1 w2 -> R (fst (wr1 w1 q)) (fst (wr2 w2 q)) /\ snd (wr1 w1 q) = snd (wr2 w2 q)).
Definition alike {X} (a : W1 * X) (b : W2 * X) : Prop := R (fst a) (fst b) /\ snd a = snd b.
Lemma loop_alike : forall fuel line pre rest w1 w2, R w1 w2 ->
  let '(a, e, l) := folder_loop wr1 fuel line pre rest w1 in let '(b, e', l') := folder_loop wr2 fuel line pre rest w2 in R a b /\ e = e' /\ l = l'.
Proof using step.
  induction fuel as [|fuel IH]; intros line pre rest w1 w2 H; [cbn [folder_loop]; auto|]. destruct rest as [|c rest].
  - cbn [folder_loop]. destruct pre as [|p pre]; [auto|]. destruct (step w1 w2 (p :: pre) H) as [A B]. destruct (wr1 w1 (p :: pre)), (wr2 w2 (p :: pre)). auto.
  - cbn [folder_loop]. destruct (decode_rune (c :: rest)) as [r s]. destruct (r =? 10); [apply IH, H|]. destruct (r =? 13); [apply IH, H|]. destruct (maxLineLength <? _); [|apply IH, H].
    destruct pre as [|p pre].
    + destruct (step w1 w2 eol H) as [A B]. destruct (wr1 w1 eol) as [v1 e1], (wr2 w2 eol) as [v2 e2]. cbn [fst snd] in A, B. subst e2. destruct e1; [auto|apply IH, A].
    + destruct (step w1 w2 (p :: pre) H) as [A B]. destruct (wr1 w1 (p :: pre)) as [v1 e1], (wr2 w2 (p :: pre)) as [v2 e2]. cbn [fst snd] in A, B. subst e2. destruct e1; [auto|].
      destruct (step v1 v2 eol A) as [A' B']. destruct (wr1 v1 eol) as [u1 e1], (wr2 v2 eol) as [u2 e2]. cbn [fst snd] in A', B'. subst e2. destruct e1; [auto|apply IH, A'].
Qed.
Lemma trace_alike tr : forall f w1 w2, R w1 w2 ->
  match run_trace wr1 (f, w1) tr with
  | EncInvalid e a => False
  | EncHang a => exists b, run_trace wr2 (f, w2) tr = EncHang b /\ R a b
  | EncDone e a => exists b, run_trace wr2 (f, w2) tr = EncDone e b /\ R a b
  end.
Proof using step.
  induction tr as [|[b|] tr IH]; intros f w1 w2 H; cbn [run_trace fst snd]; [eauto| |eauto]. unfold folder_write. destruct (f_err f); [apply IH, H|].
  pose proof (loop_alike (S (length b)) (f_line f) [] b w1 w2 H) as L. destruct (folder_loop wr1 _ _ _ _ _) as [[a e] l]. destruct (folder_loop wr2 _ _ _ _ _) as [[a' e'] l']. destruct L as (L & <- & <-). apply IH, L.
Qed.
Lemma encode_alike cal w1 w2 e a : R w1 w2 -> Encode wr1 w1 cal = EncDone e a -> exists b, Encode wr2 w2 cal = EncDone e b /\ R a b.
Proof using step.
  intros H. unfold Encode. destruct (sec_valid cal); [discriminate|]. intros Q. pose proof (trace_alike (sec_encode cal) new_folder w1 w2 H) as T. rewrite Q in T. exact T.
Qed.
End Alike.

(** ** What a successful Encode means *)
Section Success.
Context {env : Env} {W E : Type} (wr : io_writer W E).
Definition call_honest (c : bytes * Z * option E) : Prop := let '(q, n, e) := c in 0 <= n <= Z.of_nat (length q) /\ (n < Z.of_nat (length q) -> e <> None).
Definition drop_count (c : bytes * Z * option E) : bytes * option E := let '(q, n, e) := c in (q, e).
Theorem encode_took w cal w' log : honest wr -> EncodeTo (recording wr) (w, []) cal = EncDone None (w', log) ->
  Forall (fun c => let '(q, n, e) := c in n = Z.of_nat (length q) /\ e = None) log /\ Encode ok_writer [] cal = EncDone None (map (fun c => fst (fst c)) log).
Proof.
  intros H Q. rewrite encode_uncounted in Q.
  destruct (encode_alike (uncounted (recording wr)) (logging (uncounted wr)) (fun a b => fst a = fst b /\ map drop_count (snd a) = snd b /\ Forall call_honest (snd a))) with (cal := cal) (w1 := (w, @nil (bytes * Z * option E))) (w2 := (w, @nil (bytes * option E))) (e := @None E) (a := (w', log)) as ([w2 log2] & Q2 & A & B & C).
  - intros [a la] [b lb] q (A & B & C). cbn [fst snd] in *. subst b lb. unfold uncounted, recording, logging. cbn [fst snd]. destruct (wr a q) as [[a' n] e] eqn:X. cbn [fst snd]. split; [|reflexivity]. split; [reflexivity|]. split; [rewrite map_app; reflexivity|]. apply Forall_app. split; [exact C|]. constructor; [exact (H _ _ _ _ _ X)|constructor].
  - cbn. auto.
  - exact Q.
  - cbn [fst snd] in *. subst w2. pose proof (encode_failing (uncounted wr) w cal) as F. rewrite Q2 in F. destruct F as (full & F1 & F2 & F3). subst full log2. rewrite map_map in F1. split.
    + clear - C F3. rewrite Forall_map in F3. induction C as [|[[q n] e] l Hc C IH]; [constructor|]. inversion F3 as [|? ? Hn F3']; subst. constructor; [|auto]. cbn in Hn. subst e. destruct Hc as [Hc1 Hc2]. split; [|reflexivity]. destruct (Z_lt_le_dec n (Z.of_nat (length q))) as [X|X]; [contradiction (Hc2 X eq_refl)|lia].
    + rewrite F1. f_equal. apply map_ext. intros [[q n] e]. reflexivity.
Qed.
(** Whatever the counts are, a writer without errors makes Encode succeed. *)
Theorem encode_takes_nothing (w : W) cal out (n : Z) : Encode ok_writer [] cal = EncDone None out -> EncodeTo (fun (w : W) (q : bytes) => (w, n, @None E)) w cal = EncDone None w.
Proof.
  intros Q. rewrite encode_uncounted. unfold Encode in *. destruct (sec_valid cal); [discriminate Q|].
  assert (T : forall tr f, f_err f = None -> hangs tr = false -> run_trace (uncounted (fun (w : W) (q : bytes) => (w, n, @None E))) (f, w) tr = EncDone None w).
  { induction tr as [|[b|] tr IH]; intros f Hf Hh; cbn [run_trace fst snd]; [rewrite Hf; reflexivity| |discriminate Hh]. unfold folder_write. rewrite Hf.
    assert (L : forall fuel line pre rest, exists l, folder_loop (uncounted (fun (w : W) (q : bytes) => (w, n, @None E))) fuel line pre rest w = (w, None, l)).
    { clear. induction fuel as [|fuel IH]; intros line pre rest; cbn [folder_loop]; [eauto|]. destruct rest as [|c rest]; [destruct pre; cbn; eauto|]. destruct (decode_rune (c :: rest)) as [r s]. destruct (r =? 10); [apply IH|]. destruct (r =? 13); [apply IH|]. destruct (maxLineLength <? _); [|apply IH]. destruct pre; cbn [uncounted]; apply IH. }
    destruct (L (S (length b)) (f_line f) [] b) as (l & ->). apply IH; [reflexivity|exact Hh]. }
  apply T; [reflexivity|]. rewrite run_trace_spec in Q. cbv zeta in Q. destruct (hangs _); [discriminate Q|reflexivity].
Qed.
End Success.
