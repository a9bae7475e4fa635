(** Proofs about letters and characters. *)
From Coq Require Import String Ascii ZArith Bool List Lia ZifyBool.
From Verif Require Import Base Lib Utf8 Utf8Proofs NormalProofs GoStrings GoTime Types Params SpecEdits SpecLetters.
Import ListNotations.
Local Open Scope Z_scope.

Lemma letter_up c : in_range 97 122 (code c) = true -> In (c, up_ascii c) letters.
Proof. destruct c as [[] [] [] [] [] [] [] []]; intros H; try discriminate H; vm_compute; tauto. Qed.
Lemma letters_code a b : In (a, b) letters -> in_range 97 122 (code a) = true /\ up_ascii a = b /\ up_ascii b = b /\ code b = code a - 32.
Proof. unfold letters. vm_compute bs. cbn [combine In]. intros H. repeat (destruct H as [H|H]; [injection H as <- <-; repeat split; reflexivity|]). destruct H. Qed.
Lemma letter_same_up a b : same_letter a b -> up_ascii a = up_ascii b.
Proof. intros [-> | [H | H]]; [reflexivity| |]; apply letters_code in H as (_ & A & B & _); congruence. Qed.
Lemma up_same_letter a b : up_ascii a = up_ascii b -> same_letter a b.
Proof.
  intros U. destruct (in_range 97 122 (code a)) eqn:A; destruct (in_range 97 122 (code b)) eqn:B.
  - left. pose proof (letters_code _ _ (letter_up a A)) as (_ & _ & _ & X). pose proof (letters_code _ _ (letter_up b B)) as (_ & _ & _ & Y).
    rewrite <- (chr_code a), <- (chr_code b). f_equal. rewrite U in X. lia.
  - right. left. assert (V : up_ascii b = b) by (unfold up_ascii; rewrite B; reflexivity). rewrite <- V, <- U. apply letter_up, A.
  - right. right. assert (V : up_ascii a = a) by (unfold up_ascii; rewrite A; reflexivity). rewrite <- V, U. apply letter_up, B.
  - left. unfold up_ascii in U. rewrite A, B in U. exact U.
Qed.
Lemma letter_or a b : same_letter a b -> a = b \/ (code a < 128 /\ code b < 128).
Proof. intros [-> | [H | H]]; [left; reflexivity| |]; apply letters_code in H as (A & _ & _ & B); unfold in_range in A; right; lia. Qed.
Lemma letter_full up a b : same_letter a b -> code a < 128 -> up_rune_full up (code a) = up_rune_full up (code b).
Proof.
  intros H L. pose proof (letter_same_up _ _ H) as U. destruct (letter_or _ _ H) as [-> | [_ L']]; [reflexivity|]. unfold up_rune_full. rewrite (proj2 (Z.ltb_lt _ _) L), (proj2 (Z.ltb_lt _ _) L').
  assert (X : forall c, code c < 128 -> (if in_range 97 122 (code c) then code c - 32 else code c) = code (up_ascii c)); [|rewrite !X by assumption; congruence].
  intros c C. unfold up_ascii. destruct (in_range 97 122 (code c)) eqn:R; [|reflexivity]. unfold in_range in R. rewrite code_chr; lia.
Qed.

Lemma decode_alike a b s t : same_letter a b -> Forall2 same_letter s t -> forall up,
  up_rune_full up (fst (decode_rune (a :: s))) = up_rune_full up (fst (decode_rune (b :: t))) /\ snd (decode_rune (a :: s)) = snd (decode_rune (b :: t)).
Proof.
  intros H F up. destruct (Z.ltb_spec (code a) 128) as [L|L].
  - assert (L' : code b < 128) by (destruct (letter_or _ _ H) as [-> | [_ X]]; [exact L|exact X]). rewrite !decode_rune_ascii by assumption. cbn [fst snd]. split; [apply letter_full; assumption|reflexivity].
  - destruct (letter_or _ _ H) as [-> | [X _]]; [|lia]. clear H.
    assert (D : decode_rune (b :: s) = decode_rune (b :: t)); [|rewrite D; split; reflexivity].
    assert (W : forall x y lo hi, same_letter x y -> 128 <= lo -> in_range lo hi (code x) = in_range lo hi (code y)).
    { intros x y lo hi X ?. destruct (letter_or _ _ X) as [-> | [? ?]]; [reflexivity|]. unfold in_range. lia. }
    assert (V : forall x y lo hi, same_letter x y -> 128 <= lo -> in_range lo hi (code x) = true -> x = y).
    { intros x y lo hi X ? R. destruct (letter_or _ _ X) as [-> | [? ?]]; [reflexivity|]. unfold in_range in R. lia. }
    unfold decode_rune. destruct (code b <? 128); [reflexivity|]. destruct (in_range 194 223 (code b)).
    { destruct F as [|x y s t X F]; [reflexivity|]. rewrite (W x y 128 191 X) by lia. destruct (in_range 128 191 (code y)) eqn:R; [|reflexivity].
      rewrite <- (W x y 128 191 X) in R by lia. rewrite (V x y 128 191 X ltac:(lia) R). reflexivity. }
    destruct (in_range 224 239 (code b)).
    { destruct F as [|x y s1 t1 X [|x2 y2 s2 t2 X2 F]]; [reflexivity|reflexivity|]. set (lo := if code b =? 224 then 160 else 128). assert (128 <= lo) by (unfold lo; destruct (_ =? _); lia).
      set (hi := if code b =? 237 then 159 else 191). cbv zeta. rewrite (W x y lo hi X), (W x2 y2 128 191 X2) by lia.
      destruct (in_range lo hi (code y)) eqn:R; [|reflexivity]. destruct (in_range 128 191 (code y2)) eqn:R2; [|reflexivity].
      rewrite <- (W x y lo hi X) in R by lia. rewrite <- (W x2 y2 128 191 X2) in R2 by lia. rewrite (V x y lo hi X ltac:(lia) R), (V x2 y2 128 191 X2 ltac:(lia) R2). reflexivity. }
    destruct (in_range 240 244 (code b)); [|reflexivity].
    destruct F as [|x y s1 t1 X [|x2 y2 s2 t2 X2 [|x3 y3 s3 t3 X3 F]]]; [reflexivity|reflexivity|reflexivity|]. set (lo := if code b =? 240 then 144 else 128). assert (128 <= lo) by (unfold lo; destruct (_ =? _); lia).
    set (hi := if code b =? 244 then 143 else 191). cbv zeta. rewrite (W x y lo hi X), (W x2 y2 128 191 X2), (W x3 y3 128 191 X3) by lia.
    destruct (in_range lo hi (code y)) eqn:R; [|reflexivity]. destruct (in_range 128 191 (code y2)) eqn:R2; [|reflexivity]. destruct (in_range 128 191 (code y3)) eqn:R3; [|reflexivity].
    rewrite <- (W x y lo hi X) in R by lia. rewrite <- (W x2 y2 128 191 X2) in R2 by lia. rewrite <- (W x3 y3 128 191 X3) in R3 by lia.
    rewrite (V x y lo hi X ltac:(lia) R), (V x2 y2 128 191 X2 ltac:(lia) R2), (V x3 y3 128 191 X3 ltac:(lia) R3). reflexivity.
Qed.
Lemma Forall2_skipn {A B} (R : A -> B -> Prop) n : forall l l', Forall2 R l l' -> Forall2 R (skipn n l) (skipn n l').
Proof. induction n as [|n IH]; intros l l' F; [exact F|]. destruct F; [constructor|]. apply IH. assumption. Qed.
Lemma runes_alike up n : forall s t, (length s <= n)%nat -> Forall2 same_letter s t -> map (up_rune_full up) (runes s) = map (up_rune_full up) (runes t).
Proof.
  induction n as [|n IH]; intros s t L F; (destruct F as [|a b s t H F]; [reflexivity|]); cbn [length] in L; [lia|]. rewrite !runes_cons.
  pose proof (decode_alike a b s t H F up) as [R W]. pose proof (decode_rune_width a s) as WD. destruct (decode_rune (a :: s)) as [r w]. destruct (decode_rune (b :: t)) as [r' w']. cbn [fst snd] in R, W. subst w'. cbn [map]. f_equal; [exact R|].
  apply IH; [|apply Forall2_skipn; constructor; assumption]. rewrite skipn_length. cbn [length]. lia.
Qed.

Section L.
Context {env : Env}.
Theorem letters_like s t : same_but_case s t -> like s t.
Proof.
  intros F. unfold like, upper, to_upper. assert (A : forallb (fun c => code c <? 128) s = forallb (fun c => code c <? 128) t).
  { induction F as [|a b s t H F IH]; [reflexivity|]. cbn [forallb]. rewrite IH. f_equal. destruct (letter_or _ _ H) as [-> | [? ?]]; lia. }
  rewrite A. destruct (forallb (fun c => code c <? 128) t).
  - clear A. induction F as [|a b s t H F IH]; [reflexivity|]. cbn [map]. rewrite IH, (letter_same_up _ _ H). reflexivity.
  - rewrite <- !(map_map (up_rune_full up_rune) encode_rune). rewrite (runes_alike up_rune (length s) s t (le_n _) F). reflexivity.
Qed.
Theorem like_letters s t : is_ascii s -> is_ascii t -> like s t -> same_but_case s t.
Proof.
  intros A B. unfold like, upper, to_upper. assert (X : forall x, is_ascii x -> forallb (fun c => code c <? 128) x = true).
  { intros x H. apply forallb_forall. intros c I. unfold is_ascii in H. rewrite Forall_forall in H. apply Z.ltb_lt, H, I. }
  rewrite (X s A), (X t B). clear. revert t. induction s as [|a s IH]; intros [|b t] H; try discriminate H; [constructor|]. cbn [map] in H. injection H as H H'. constructor; [apply up_same_letter, H|apply IH, H'].
Qed.
Theorem upper_letters s : is_ascii s -> same_but_case s (upper s) /\ Forall (fun c => forall d, ~ In (c, d) letters) (upper s).
Proof.
  intros A. assert (X : forallb (fun c => code c <? 128) s = true).
  { apply forallb_forall. intros c I. unfold is_ascii in A. rewrite Forall_forall in A. apply Z.ltb_lt, A, I. }
  unfold upper, to_upper. rewrite X. clear. assert (U : forall c, up_ascii (up_ascii c) = up_ascii c).
  { intros c. destruct (in_range 97 122 (code c)) eqn:R; [apply (letters_code _ _ (letter_up c R))|]. assert (K : up_ascii c = c) by (unfold up_ascii; rewrite R; reflexivity). rewrite !K. reflexivity. }
  split; [induction s as [|a s IH]; constructor; [apply up_same_letter; symmetry; apply U|apply IH]|].
  apply Forall_forall. intros c I d J. apply in_map_iff in I as (a & <- & _). apply letters_code in J as (R & _ & _ & _). pose proof (U a) as V.
  pose proof (letters_code _ _ (letter_up _ R)) as (_ & _ & _ & Y). rewrite V in Y. lia.
Qed.
End L.

Lemma by_64 x y : 0 <= y < 64 -> (x * 64 + y) / 64 = x /\ (x * 64 + y) mod 64 = y.
Proof. intros H. assert (D : (x * 64 + y) / 64 = x) by (rewrite Z.div_add_l, Z.div_small by lia; lia). split; [exact D|]. rewrite Z.mod_eq, D by lia. lia. Qed.
Lemma char_encode r p : char_of r p -> valid_rune r = true /\ encode_rune r = p.
Proof.
  assert (N : forall x, 0 <= code x < 256) by (intros; apply code_range).
  intros H. destruct H; unfold tail_octet in *; match goal with |- valid_rune ?r = true /\ _ => assert (V : valid_rune r = true); [unfold valid_rune, in_range|] end.
  - pose proof (N a). lia.
  - split; [exact V|]. unfold encode_rune. rewrite V. rewrite (proj2 (Z.ltb_lt _ _)) by (pose proof (N a); lia). rewrite chr_code. reflexivity.
  - lia.
  - split; [exact V|]. unfold encode_rune. rewrite V. set (r := (code a - 192) * 64 + (code b - 128)) in *.
    replace (r <? 128) with false by lia. replace (r <? 2048) with true by lia.
    replace (192 + r / 64) with (code a) by (unfold r; rewrite (proj1 (by_64 (code a - 192) (code b - 128) ltac:(lia))); lia). replace (128 + r mod 64) with (code b) by (unfold r; rewrite (proj2 (by_64 (code a - 192) (code b - 128) ltac:(lia))); lia).
    rewrite !chr_code. reflexivity.
  - lia.
  - split; [exact V|]. unfold encode_rune. rewrite V. set (r := (code a - 224) * 4096 + (code b - 128) * 64 + (code c - 128)) in *.
    replace (r <? 128) with false by lia. replace (r <? 2048) with false by lia. replace (r <? 65536) with true by lia.
    assert (Q : r / 64 = (code a - 224) * 64 + (code b - 128)) by (unfold r; replace ((code a - 224) * 4096 + (code b - 128) * 64) with (((code a - 224) * 64 + (code b - 128)) * 64) by lia; rewrite Z.div_add_l, (Z.div_small (code c - 128)) by lia; lia).
    assert (M : r mod 64 = code c - 128) by (rewrite Z.mod_eq, Q by lia; unfold r; lia).
    assert (Q2 : r / 4096 = code a - 224) by (change 4096 with (64 * 64); rewrite <- Z.div_div, Q by lia; rewrite Z.div_add_l, Z.div_small by lia; lia).
    assert (M2 : (r / 64) mod 64 = code b - 128) by (rewrite Q; apply by_64; lia).
    rewrite M2, M, Q2. replace (224 + (code a - 224)) with (code a) by lia. replace (128 + (code b - 128)) with (code b) by lia. replace (128 + (code c - 128)) with (code c) by lia.
    rewrite !chr_code. reflexivity.
  - lia.
  - split; [exact V|]. unfold encode_rune. rewrite V. set (r := (code a - 240) * 262144 + (code b - 128) * 4096 + (code c - 128) * 64 + (code d - 128)) in *.
    replace (r <? 128) with false by lia. replace (r <? 2048) with false by lia. replace (r <? 65536) with false by lia.
    assert (Q : r / 64 = ((code a - 240) * 64 + (code b - 128)) * 64 + (code c - 128)).
    { unfold r. replace ((code a - 240) * 262144 + (code b - 128) * 4096 + (code c - 128) * 64) with ((((code a - 240) * 64 + (code b - 128)) * 64 + (code c - 128)) * 64) by lia. rewrite Z.div_add_l, (Z.div_small (code d - 128)) by lia. lia. }
    assert (M : r mod 64 = code d - 128) by (rewrite Z.mod_eq, Q by lia; unfold r; lia).
    assert (Q2 : r / 4096 = (code a - 240) * 64 + (code b - 128)) by (change 4096 with (64 * 64); rewrite <- Z.div_div, Q by lia; rewrite Z.div_add_l, Z.div_small by lia; lia).
    assert (M2 : (r / 64) mod 64 = code c - 128) by (rewrite Q; apply by_64; lia).
    assert (Q3 : r / 262144 = code a - 240) by (change 262144 with (4096 * 64); rewrite <- Z.div_div, Q2 by lia; rewrite Z.div_add_l, Z.div_small by lia; lia).
    assert (M3 : (r / 4096) mod 64 = code b - 128) by (rewrite Q2; apply by_64; lia).
    rewrite M2, M, M3, Q3. replace (240 + (code a - 240)) with (code a) by lia. replace (128 + (code b - 128)) with (code b) by lia. replace (128 + (code c - 128)) with (code c) by lia. replace (128 + (code d - 128)) with (code d) by lia.
    rewrite !chr_code. reflexivity.
Qed.
(** A rune that is read is a character, or U+FFFD in place of one octet. *)
Lemma decode_char a s : let '(r, w) := decode_rune (a :: s) in char_of r (firstn w (a :: s)) \/ (r = RuneError /\ w = 1%nat /\ forall r p q, a :: s = p ++ q -> ~ char_of r p).
Proof.
  pose proof (code_range a) as N. unfold decode_rune, in_range.
  repeat match goal with
         | |- context [if ?b then _ else _] => destruct b eqn:?
         | |- context [match ?l with [] => _ | _ :: _ => _ end] => destruct l
         end; cbn [firstn]; cbv zeta;
    first [left; constructor; unfold tail_octet; lia
          |right; split; [reflexivity|split; [reflexivity|]]; intros r p q EQ C; destruct C; unfold tail_octet in *; cbn [app] in EQ; try discriminate EQ; injection EQ; intros; subst; lia].
Qed.
Lemma encode_char r : valid_rune r = true -> char_of r (encode_rune r).
Proof.
  intros V. pose proof (decode_encode_rune r [] V) as D. rewrite app_nil_r in D. destruct (encode_rune r) as [|a s] eqn:X; [exfalso; exact (encode_rune_nonnil r X)|].
  pose proof (decode_char a s) as C. rewrite D in C. destruct C as [C|(R & W & B)]; [rewrite firstn_all in C; exact C|].
  subst r. vm_compute in X. injection X as <- <-. discriminate W.
Qed.
Theorem utf8_chars s : utf8 s <-> exists rs ps, Forall2 char_of rs ps /\ s = concat ps.
Proof.
  split.
  - intros (rs & V & ->). exists rs, (map encode_rune rs). split; [|reflexivity]. induction V; constructor; [apply encode_char|]; assumption.
  - intros (rs & ps & F & ->). exists rs. induction F as [|r p rs ps C F (V & X)]; [split; [constructor|reflexivity]|]. apply char_encode in C as [W Y].
    split; [constructor; assumption|]. cbn [concat map]. rewrite X, Y. reflexivity.
Qed.
Lemma char_head r p : char_of r p -> exists a t, p = a :: t.
Proof. intros C. destruct C; eauto. Qed.
Lemma ranges_runes s rs : ranges s rs -> runes s = rs.
Proof.
  intros R. induction R as [|r p s rs C R IH|a s rs B R IH]; [reflexivity| |].
  - apply char_encode in C as [V <-]. rewrite runes_encode_app, IH by exact V. reflexivity.
  - rewrite runes_cons. pose proof (decode_char a s) as D. destruct (decode_rune (a :: s)) as [r w]. destruct D as [D|(-> & -> & _)].
    + exfalso. exact (B r _ (skipn w (a :: s)) (eq_sym (firstn_skipn w (a :: s))) D).
    + cbn [skipn]. rewrite IH. reflexivity.
Qed.
Lemma runes_ranges n : forall s, (length s <= n)%nat -> ranges s (runes s).
Proof.
  induction n as [|n IH]; intros [|a s] L; try constructor; cbn [length] in L; [lia|]. rewrite runes_cons. pose proof (decode_char a s) as D. pose proof (decode_rune_width a s) as W.
  destruct (decode_rune (a :: s)) as [r w]. assert (Q : (length (skipn w (a :: s)) <= n)%nat) by (rewrite skipn_length; cbn [length]; lia). destruct D as [D|(-> & -> & B)].
  - rewrite <- (firstn_skipn w (a :: s)) at 1. apply Ra_char; [exact D|]. apply IH, Q.
  - cbn [skipn] in *. apply Ra_bad; [exact B|]. apply IH. lia.
Qed.
Theorem ranges_iff s rs : ranges s rs <-> runes s = rs.
Proof. split; [apply ranges_runes|]. intros <-. apply (runes_ranges (length s)), le_n. Qed.
Lemma in_text_rune r : valid_rune r = true -> text_rune r = in_text (encode_rune r).
Proof.
  intros V. unfold text_rune, in_text. pose proof (encode_char r V) as C.
  assert (K : forall c, code c <= 127 -> beq (encode_rune r) [c] = (r =? code c)).
  { intros c L. destruct (Z.eqb_spec r (code c)) as [-> | Y].
    - apply beq_eq. destruct (char_encode _ _ (Ch_1 c L)) as [_ X]. exact X.
    - destruct (beq (encode_rune r) [c]) eqn:X; [|reflexivity]. apply beq_eq in X. exfalso. rewrite X in C. inversion C; subst. congruence. }
  change (bs "\") with ["\"%char]. change (bs ";") with [";"%char]. change (bs ",") with [","%char].
  rewrite !K by (vm_compute; discriminate). change (code "\"%char) with 92. change (code ";"%char) with 59. change (code ","%char) with 44. change (code LF) with 10.
  destruct (Z.eqb_spec r 92) as [-> | ]; [reflexivity|]. destruct (Z.eqb_spec r 10) as [-> | ]; [reflexivity|]. destruct (r =? 59); [reflexivity|]. destruct (r =? 44); reflexivity.
Qed.
Theorem text_written {env : Env} t : exists rs ps, ranges t rs /\ Forall2 char_of rs ps /\ value_encode (VText t) = [concat (map in_text ps)].
Proof.
  exists (runes t), (map encode_rune (runes t)). pose proof (runes_valid t) as V. split; [apply ranges_iff; reflexivity|]. split; [induction V; constructor; [apply encode_char|]; assumption|].
  cbn [value_encode]. unfold text_encode, text_bytes. f_equal. f_equal. rewrite map_map. induction V as [|r rs V F IH]; [reflexivity|]. cbn [map]. rewrite IH, in_text_rune by exact V. reflexivity.
Qed.
