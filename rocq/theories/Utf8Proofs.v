(** Facts about [decode_rune], [encode_rune] and [runes]. *)
From Coq Require Import List ZArith Bool Lia ZifyBool.
From Verif Require Import Base Lib Utf8.
Import ListNotations.
Local Open Scope Z_scope.

Ltac dr_cases :=
  repeat match goal with
         | |- context [if ?b then _ else _] => destruct b eqn:?
         | |- context [match ?l with [] => _ | _ :: _ => _ end] => destruct l
         end.

Lemma decode_rune_width c l : let '(_, w) := decode_rune (c :: l) in (1 <= w <= 4)%nat /\ (w <= length (c :: l))%nat.
Proof. cbn [decode_rune]. dr_cases; cbn [length]; lia. Qed.

(** A rune below 128 is one byte. *)
Lemma decode_rune_ascii c l : code c < 128 -> decode_rune (c :: l) = (code c, 1%nat).
Proof. intros H. cbn [decode_rune]. destruct (code c <? 128) eqn:E; [reflexivity|lia]. Qed.

(** Otherwise all its bytes are from 128 up, and so is the rune. *)
Lemma decode_rune_high c l : 128 <= code c ->
  let '(r, w) := decode_rune (c :: l) in
  128 <= r /\ Forall (fun b => 128 <= code b) (firstn w (c :: l)).
Proof.
  intros H. cbn [decode_rune]. unfold in_range, RuneError.
  dr_cases; split; try lia; cbn [firstn]; repeat constructor; try lia; exact H.
Qed.

Lemma encode_rune_nonnil r : encode_rune r <> [].
Proof. unfold encode_rune. dr_cases; discriminate. Qed.

(** Decoding inverts encoding on scalar values. *)
Lemma decode_encode_rune r l : valid_rune r = true ->
  decode_rune (encode_rune r ++ l) = (r, length (encode_rune r)).
Proof.
  intros H. unfold encode_rune. rewrite H.
  unfold valid_rune, in_range in H.
  assert (D : forall x y, 0 < y -> 0 <= x mod y < y) by (intros; apply Z.mod_pos_bound; lia).
  pose proof (D r 64 ltac:(lia)). pose proof (D (r/64) 64 ltac:(lia)). pose proof (D (r/4096) 64 ltac:(lia)).
  pose proof (Z.div_mod r 64 ltac:(lia)).
  assert (r / 64 / 64 = r / 4096) by (rewrite Z.div_div by lia; reflexivity).
  assert (r / 4096 / 64 = r / 262144) by (rewrite Z.div_div by lia; reflexivity).
  pose proof (Z.div_mod (r/64) 64 ltac:(lia)). pose proof (Z.div_mod (r/4096) 64 ltac:(lia)).
  assert (0 <= r / 64) by (apply Z.div_pos; lia).
  destruct (r <? 128) eqn:E1; [|destruct (r <? 2048) eqn:E2; [|destruct (r <? 65536) eqn:E3]];
    cbn [app decode_rune length]; rewrite !code_chr by lia; unfold in_range;
    repeat match goal with
           | |- context [if ?b then _ else _] =>
             first [ replace b with true by lia | replace b with false by lia | destruct b eqn:? ]
           end; try (f_equal; lia); try lia;
    exfalso; repeat match goal with H : context [if ?b then _ else _] |- _ => destruct b eqn:? end; lia.
Qed.

Lemma encode_rune_head_low r c l : valid_rune r = true -> encode_rune r = c :: l -> code c < 128 -> r = code c /\ l = [].
Proof.
  intros H E L. pose proof (decode_encode_rune r [] H) as D. rewrite E in D. cbn [app] in D.
  rewrite decode_rune_ascii in D by exact L.
  injection D as D1 D2. split; [congruence|]. destruct l; [reflexivity|discriminate].
Qed.

Lemma encode_rune_low r : 0 <= r < 128 -> encode_rune r = [chr r].
Proof.
  intros H. unfold encode_rune, valid_rune, in_range.
  replace ((0 <=? r) && (r <=? 55295) || (57344 <=? r) && (r <=? 1114111)) with true by lia.
  replace (r <? 128) with true by lia. reflexivity.
Qed.

Lemma encode_rune_high r : 128 <= r -> Forall (fun b => 128 <= code b) (encode_rune r).
Proof.
  intros H. unfold encode_rune.
  set (x := if valid_rune r then r else RuneError).
  assert (Hx : 128 <= x <= 1114111).
  { unfold x, valid_rune, in_range, RuneError. destruct (_ || _) eqn:E; lia. }
  clearbody x. clear H r.
  assert (D : forall y, 0 <= y mod 64 < 64) by (intros; apply Z.mod_pos_bound; lia).
  assert (forall y, 128 <= code (chr (128 + y mod 64))) by (intros y; specialize (D y); rewrite code_chr by lia; lia).
  assert (0 <= x / 64) by (apply Z.div_pos; lia).
  assert (x < 65536 -> x / 4096 < 16) by (intros; apply Z.div_lt_upper_bound; lia).
  assert (x / 262144 < 16) by (apply Z.div_lt_upper_bound; lia).
  assert (x < 2048 -> x / 64 < 32) by (intros; apply Z.div_lt_upper_bound; lia).
  assert (0 <= x / 4096) by (apply Z.div_pos; lia).
  assert (0 <= x / 262144) by (apply Z.div_pos; lia).
  destruct (x <? 128) eqn:E1; [lia|].
  destruct (x <? 2048) eqn:E2; [|destruct (x <? 65536) eqn:E3];
    repeat constructor; auto; rewrite code_chr; lia.
Qed.

(** ** Runes of a string *)

Lemma runes_fuel_indep n : forall l f g, (length l <= n)%nat -> (length l <= f)%nat -> (length l <= g)%nat ->
  runes_fuel f l = runes_fuel g l.
Proof.
  induction n as [|n IH]; intros l f g Hn Hf Hg.
  - destruct l; [|cbn in Hn; lia]. destruct f, g; reflexivity.
  - destruct l as [|c l]; [destruct f, g; reflexivity|].
    destruct f as [|f]; [cbn in Hf; lia|]. destruct g as [|g]; [cbn in Hg; lia|].
    cbn [length] in *.
    change (runes_fuel (S f) (c :: l)) with (let '(r, w) := decode_rune (c :: l) in r :: runes_fuel f (skipn w (c :: l))).
    change (runes_fuel (S g) (c :: l)) with (let '(r, w) := decode_rune (c :: l) in r :: runes_fuel g (skipn w (c :: l))).
    pose proof (decode_rune_width c l) as W. destruct (decode_rune (c :: l)) as [r w]. destruct W as [W1 W2].
    f_equal. apply IH; rewrite skipn_length; cbn [length]; lia.
Qed.

Lemma runes_fuel_enough f l : (length l <= f)%nat -> runes_fuel f l = runes l.
Proof. intros H. unfold runes. apply runes_fuel_indep with (n := length l); lia. Qed.

Lemma runes_cons c l : runes (c :: l) = let '(r, w) := decode_rune (c :: l) in r :: runes (skipn w (c :: l)).
Proof.
  unfold runes at 1. cbn [length]. 
  change (runes_fuel (S (length l)) (c :: l)) with (let '(r, w) := decode_rune (c :: l) in r :: runes_fuel (length l) (skipn w (c :: l))).
  pose proof (decode_rune_width c l) as W. destruct (decode_rune (c :: l)) as [r w].
  f_equal. apply runes_fuel_enough. rewrite skipn_length. cbn [length]. lia.
Qed.

Lemma skipn_length_app {A} (a b : list A) : skipn (length a) (a ++ b) = b.
Proof. induction a; cbn; auto. Qed.
Lemma firstn_length_app {A} (a b : list A) : firstn (length a) (a ++ b) = a.
Proof. induction a; cbn; congruence. Qed.

Lemma runes_encode_app r l : valid_rune r = true -> runes (encode_rune r ++ l) = r :: runes l.
Proof.
  intros H. pose proof (decode_encode_rune r l H) as D.
  destruct (encode_rune r) as [|c t] eqn:E; [destruct (encode_rune_nonnil _ E)|].
  cbn [app] in *. rewrite runes_cons, D. f_equal. f_equal.
  change (c :: t ++ l) with ((c :: t) ++ l). apply skipn_length_app.
Qed.

Lemma runes_concat rs l : Forall (fun r => valid_rune r = true) rs ->
  runes (concat (map encode_rune rs) ++ l) = rs ++ runes l.
Proof.
  induction 1 as [|r rs H _ IH]; [reflexivity|]. cbn [map concat app].
  rewrite <- app_assoc, runes_encode_app by exact H. congruence.
Qed.

Lemma utf8_runes s : utf8 s -> concat (map encode_rune (runes s)) = s /\ Forall (fun r => valid_rune r = true) (runes s).
Proof.
  intros (rs & H & ->).
  assert (R : runes (concat (map encode_rune rs)) = rs).
  { pose proof (runes_concat rs [] H) as R. rewrite !app_nil_r in R. exact R. }
  rewrite R. auto.
Qed.

Lemma utf8_nil : utf8 [].
Proof. exists []. split; [constructor|reflexivity]. Qed.
Lemma utf8_app a b : utf8 a -> utf8 b -> utf8 (a ++ b).
Proof.
  intros (x & Hx & ->) (y & Hy & ->). exists (x ++ y). split; [apply Forall_app; auto|].
  rewrite map_app, concat_app. reflexivity.
Qed.
Lemma utf8_rune r : valid_rune r = true -> utf8 (encode_rune r).
Proof. intros H. exists [r]. split; [auto|]. cbn. rewrite app_nil_r. reflexivity. Qed.
Lemma utf8_ascii s : Forall (fun c => code c < 128) s -> utf8 s.
Proof.
  intros H. exists (map code s). split.
  - rewrite Forall_map. eapply Forall_impl; [|exact H]. intros c Hc. pose proof (code_range c).
    unfold valid_rune, in_range. lia.
  - induction H as [|c s Hc _ IH]; [reflexivity|]. cbn [map concat].
    pose proof (code_range c). rewrite encode_rune_low by lia. rewrite chr_code. cbn [app]. f_equal. exact IH.
Qed.
