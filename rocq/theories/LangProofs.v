(** The texts that are read as values. *)
From Coq Require Import String Ascii ZArith Bool List Lia ZifyBool.
From Verif Require Import Base Lib Utf8 GoStrings Strtok Tokeniser GoTime Types SpecDuration SpecTime SpecLang.
From Verif Require Import NumProofs TokeniserProofs DurationProofs TimeProofs DateProofs.
Import ListNotations.
Local Open Scope Z_scope.

Section Lang.
Context {env : Env}.

(** ** Integers *)
Lemma decimal_bytes ds n : decimal ds n -> forallb is_digit ds = true /\ ds <> [] /\ digits_val 0 ds = n.
Proof. intros D. apply decimal_spec in D as (A & B & C). auto. Qed.

Lemma parse_uint_iff bits s n : parse_uint bits s = Some n <-> decimal s n /\ n < 2 ^ bits.
Proof.
  unfold parse_uint. rewrite decimal_spec. destruct s as [|c s]; [split; [discriminate|intros ((N & _) & _); contradiction]|].
  destruct (forallb is_digit (c :: s)) eqn:E; cbv zeta.
  - destruct (Z.ltb_spec (digits_val 0 (c :: s)) (2 ^ bits)) as [L|L].
    + split; [intros H; injection H as <-; split; [|exact L]; split; [discriminate|auto]|]. intros ((_ & _ & <-) & _). reflexivity.
    + split; [discriminate|]. intros ((_ & _ & <-) & H). lia.
  - split; [discriminate|]. intros ((_ & H & _) & _). discriminate.
Qed.

Lemma digit_head ds n : decimal ds n -> exists c r, ds = c :: r /\ is_digit c = true.
Proof.
  intros D. apply decimal_bytes in D as (F & N & _). destruct ds as [|c r]; [contradiction|]. exists c, r. split; [reflexivity|].
  cbn [forallb] in F. apply andb_true_iff in F as [F _]. exact F.
Qed.

Lemma parse_int_iff bits s z : 0 < bits <= 64 -> parse_int bits s = Some z <-> signed_text s z /\ - 2 ^ (bits - 1) <= z < 2 ^ (bits - 1).
Proof.
  intros B. assert (P : 0 < 2 ^ (bits - 1)) by (apply Z.pow_pos_nonneg; lia).
  assert (P64 : 2 ^ (bits - 1) <= 2 ^ 63) by (apply Z.pow_le_mono_r; lia).
  split.
  - intros H. split; [|apply (parse_int_range bits s z); [lia|exact H]].
    unfold parse_int in H. destruct s as [|c s]; [discriminate|]. destruct (parse_uint 64 _) as [v|] eqn:E; [|discriminate].
    apply parse_uint_iff in E as [D _]. destruct (beqc c "-") eqn:E1.
    + apply beqc_eq in E1. subst c. cbn [orb] in D. destruct (v <=? _); [|discriminate]. injection H as <-. exists s, v. auto.
    + destruct (v <? _); [|discriminate]. injection H as <-. cbn [orb] in D. destruct (beqc c "+") eqn:E2.
      * apply beqc_eq in E2. subst c. exists s, v. auto.
      * exists (c :: s), v. auto.
  - intros ((ds & n & D & C) & R). pose proof (decimal_nonneg ds n D) as NN.
    assert (U : n <= 2 ^ (bits - 1) -> parse_uint 64 ds = Some n) by (intros L; apply parse_uint_iff; split; [exact D|lia]).
    unfold parse_int. cbv zeta. destruct C as [C|C]; [|destruct C as [C|C]]; destruct C as [-> C].
    + destruct (digit_head ds n D) as (c & r & -> & F). destruct (digit_not_sign c F) as [-> ->]. cbn [orb]. rewrite U by lia.
      subst z. destruct (n <? _) eqn:L; [reflexivity|lia].
    + change (bs "+" ++ ds) with ("+"%char :: ds). cbv iota zeta. change (beqc "+" "-") with false. change (beqc "+" "+") with true. cbn [orb].
      cbv iota. rewrite U by lia. subst z. destruct (n <? _) eqn:L; [reflexivity|lia].
    + change (bs "-" ++ ds) with ("-"%char :: ds). cbv iota zeta. change (beqc "-" "-") with true. cbn [orb]. cbv iota. rewrite U by lia. subst z.
      destruct (n <=? _) eqn:L; [reflexivity|lia].
Qed.

Lemma rmap_ok {A} (f : A -> value) (r : res A) v : rmap f r = Ok v <-> exists a, r = Ok a /\ v = f a.
Proof.
  destruct r as [a|e| |]; cbn [rmap bind]; (split; [intros H|intros (b & H & E)]); try discriminate.
  - injection H as <-. exists a. auto.
  - injection H as <-. subst v. reflexivity.
Qed.

Lemma of_option_ok {A} (o : option A) e a : of_option e o = Ok a <-> o = Some a.
Proof. destruct o; cbn [of_option]; split; intros H; try discriminate; [injection H as <-|injection H as <-]; reflexivity. Qed.

Theorem integer_lang m s v : value_decode KInteger m s = Ok v <-> exists z, integer_text s z /\ v = VInteger z.
Proof.
  unfold value_decode. rewrite rmap_ok. unfold integer_decode, integer_text.
  split; intros (z & H & E); exists z; split; auto.
  - apply of_option_ok in H. apply (parse_int_iff 32) in H as [A B]; [|lia]. split; [exact A|]. change (2 ^ (32 - 1)) with 2147483648 in B. lia.
  - apply of_option_ok. apply (parse_int_iff 32); [lia|]. change (2 ^ (32 - 1)) with 2147483648. destruct H as [A B]. split; [exact A|lia].
Qed.

(** ** Offsets from UTC *)
Lemma two_val_of a b : is_digit a = true -> is_digit b = true -> digits_of 2 [a; b] (digits_val 0 [a; b]).
Proof. intros A B. split; [|reflexivity]. apply decimal_spec. cbn [forallb]. rewrite A, B. repeat split. discriminate. Qed.

Lemma two_shape ds n : digits_of 2 ds n -> exists a b, ds = [a; b] /\ is_digit a = true /\ is_digit b = true /\ digits_val 0 [a; b] = n.
Proof.
  intros [D L]. apply decimal_bytes in D as (F & _ & V). destruct ds as [|a [|b [|c ds]]]; try discriminate L.
  cbn [forallb] in F. rewrite andb_true_r in F. apply andb_true_iff in F as [A B]. exists a, b. auto.
Qed.

Lemma two_bound ds n : digits_of 2 ds n -> 0 <= n <= 99.
Proof. intros D. destruct (two_shape ds n D) as (a & b & -> & A & B & <-). pose proof (digits_val_bound [a; b]) as H. cbn [forallb length] in H. rewrite A, B in H. change (10 ^ Z.of_nat 2) with 100 in H. specialize (H eq_refl). lia. Qed.

(** What follows the sign. *)
Definition off_body (r : bytes) : res Z :=
  match r with
  | a :: b :: c :: d :: q =>
    if is_digit a && is_digit b && is_digit c && is_digit d && (digits_val 0 [c; d] <? 60) then
      let u := 3600 * digits_val 0 [a; b] + 60 * digits_val 0 [c; d] in
      match q with
      | [] => Ok u
      | [e; f] => if is_digit e && is_digit f && (digits_val 0 [e; f] <? 60) then Ok (u + digits_val 0 [e; f]) else Err ErrInvalidOffset
      | _ => Err ErrInvalidOffset
      end
    else Err ErrInvalidOffset
  | _ => Err ErrInvalidOffset
  end.
Definition off_sign (neg : bool) (r : res Z) : res Z :=
  let! u := r in if neg then (if u =? 0 then Err ErrInvalidOffset else Ok (- u)) else Ok u.
Definition off_split (s : bytes) : bool * bytes :=
  match s with
  | c :: r => if beqc c "-" then (true, r) else if beqc c "+" then (false, r) else (false, s)
  | [] => (false, [])
  end.

Lemma utcoffset_parts s : utcoffset_decode s = off_sign (fst (off_split s)) (off_body (snd (off_split s))).
Proof.
  unfold utcoffset_decode.
  assert (PRE : (let '(ng, t) := accept (bs "-") (new_tok s) in let '(_, t) := if ng then (true, t) else accept (bs "+") t in let '(_, t) := get t in (ng, t))
     = (fst (off_split s), Tok [] (snd (off_split s)))).
  { destruct s as [|c s]; [reflexivity|]. unfold new_tok, off_split. destruct (beqc c "-") eqn:E1.
    - apply beqc_eq in E1. subst c. reflexivity.
    - rewrite accept_plain by (unfold inset; cbn [bs list_ascii_of_string existsb]; rewrite E1; reflexivity).
      destruct (beqc c "+") eqn:E2.
      + apply beqc_eq in E2. subst c. reflexivity.
      + rewrite accept_plain by (unfold inset; cbn [bs list_ascii_of_string existsb]; rewrite E2; reflexivity). reflexivity. }
  destruct (accept (bs "-") _) as [ng t0]. destruct (if ng then (true, t0) else accept (bs "+") t0) as [x t1].
  destruct (get t1) as [y t2]. injection PRE as -> ->. cbv zeta. generalize (fst (off_split s)) as neg. intros neg.
  generalize (snd (off_split s)) as r. intros r. clear.
  assert (NIL : forall b, accept digits_set (Tok b []) = (false, Tok b [])) by reflexivity.
  unfold off_body. destruct r as [|a r]; [reflexivity|]. rewrite accept_digit. destruct (is_digit a); [|destruct r as [|? [|? [|? ?]]]; reflexivity].
  destruct r as [|b r]; [reflexivity|]. rewrite accept_digit. destruct (is_digit b); [|destruct r as [|? [|? ?]]; reflexivity].
  cbn [app negb get tbuf trest andb]. destruct r as [|c r]; [reflexivity|]. rewrite accept_digit. destruct (is_digit c); [|destruct r; reflexivity].
  destruct r as [|d r]; [reflexivity|]. rewrite accept_digit. destruct (is_digit d); [|reflexivity]. cbn [app negb get tbuf trest andb].
  rewrite Z.ltb_antisym. destruct (60 <=? digits_val 0 [c; d]); [reflexivity|]. cbn [negb]. cbv zeta.
  destruct r as [|e r].
  { rewrite NIL. cbn [peek trest bind off_sign]. rewrite Z.add_0_r. reflexivity. }
  rewrite accept_digit. destruct (is_digit e); [|destruct r as [|? [|? ?]]; reflexivity].
  destruct r as [|f r]; [reflexivity|]. rewrite accept_digit. destruct (is_digit f); [|destruct r; reflexivity]. cbn [app negb orb].
  destruct r as [|g r]; [|reflexivity]. cbn [peek trest get tbuf andb]. rewrite (Z.ltb_antisym 60 (digits_val 0 [e; f])).
  destruct (60 <=? digits_val 0 [e; f]); reflexivity.
Qed.

Lemma off_body_iff r u : off_body r = Ok u <-> utcoffset_digits 99 59 r u.
Proof.
  split.
  - unfold off_body. destruct r as [|a [|b [|c [|d q]]]]; try discriminate.
    destruct (is_digit a) eqn:A; [|discriminate]. destruct (is_digit b) eqn:B; [|discriminate].
    destruct (is_digit c) eqn:C; [|discriminate]. destruct (is_digit d) eqn:D; [|discriminate]. cbn [andb].
    destruct (Z.ltb_spec (digits_val 0 [c; d]) 60) as [L|L]; [|discriminate]. cbv zeta.
    pose proof (two_val_of a b A B) as AB. pose proof (two_val_of c d C D) as CD.
    pose proof (two_bound _ _ AB) as BH. pose proof (two_bound _ _ CD) as BM.
    destruct q as [|e [|f [|? ?]]]; try discriminate.
    + intros H. apply Ok_inj in H. exists [a; b], (digits_val 0 [a; b]), [c; d], (digits_val 0 [c; d]). split; [exact AB|]. split; [exact CD|].
      split; [lia|]. split; [lia|]. left. split; [reflexivity|]. symmetry. exact H.
    + destruct (is_digit e) eqn:E; [|discriminate]. destruct (is_digit f) eqn:F; [|discriminate]. cbn [andb].
      destruct (Z.ltb_spec (digits_val 0 [e; f]) 60) as [L2|L2]; [|discriminate]. intros H. apply Ok_inj in H.
      pose proof (two_val_of e f E F) as EF. pose proof (two_bound _ _ EF) as BX.
      exists [a; b], (digits_val 0 [a; b]), [c; d], (digits_val 0 [c; d]). split; [exact AB|]. split; [exact CD|].
      split; [lia|]. split; [lia|]. right. exists [e; f], (digits_val 0 [e; f]). split; [reflexivity|]. split; [exact EF|]. split; [lia|]. symmetry. exact H.
  - intros (hh & h & mm & mi & AB & CD & RH & RM & X). destruct (two_shape _ _ AB) as (a & b & -> & A & B & VH).
    destruct (two_shape _ _ CD) as (c & d & -> & C & D & VM).
    destruct X as [X|X].
    + destruct X as [-> ->]. cbn [app off_body]. rewrite A, B, C, D, VH, VM. cbn [andb]. destruct (Z.ltb_spec mi 60); [reflexivity|lia].
    + destruct X as (ss & x & -> & EF & RX & ->). destruct (two_shape _ _ EF) as (e & f & -> & E & F & VX).
      cbn [app off_body]. rewrite A, B, C, D, E, F, VH, VM, VX. cbn [andb]. destruct (Z.ltb_spec mi 60); [|lia].
      destruct (Z.ltb_spec x 60); [reflexivity|lia].
Qed.

Lemma off_digits_head mh ms s u : utcoffset_digits mh ms s u -> exists c r, s = c :: r /\ is_digit c = true.
Proof.
  intros (hh & h & mm & mi & AB & _ & _ & _ & X). destruct (two_shape _ _ AB) as (a & b & -> & A & _).
  destruct X as [X|X]; [destruct X as [-> _]|destruct X as (ss & x & -> & _)]; exists a; cbn [app]; eauto.
Qed.

Theorem utcoffset_lang m s v : value_decode KUTCOffset m s = Ok v <-> exists u, utcoffset_text s u /\ v = VUTCOffset u.
Proof.
  unfold value_decode. rewrite rmap_ok. split; intros (u & H & E); exists u; (split; [|exact E]); clear v E.
  - rewrite utcoffset_parts in H. unfold off_sign in H. apply bind_ok in H as (n & H & V). apply off_body_iff in H.
    unfold utcoffset_text. exists (snd (off_split s)), n. split; [exact H|].
    destruct s as [|c s]; [apply off_digits_head in H as (? & ? & H & _); discriminate|]. unfold off_split in *.
    destruct (beqc c "-") eqn:E1.
    { apply beqc_eq in E1. subst c. right; right. split; [reflexivity|]. cbn [fst] in V. destruct (Z.eqb_spec n 0); [discriminate|].
      apply Ok_inj in V. auto. }
    destruct (beqc c "+") eqn:E2.
    { apply beqc_eq in E2. subst c. right; left. split; [reflexivity|]. apply Ok_inj in V. auto. }
    left. apply Ok_inj in V. auto.
  - destruct H as (ds & n & D & C). rewrite utcoffset_parts. pose proof (proj2 (off_body_iff ds n) D) as B.
    assert (HD : off_split ds = (false, ds)).
    { apply off_digits_head in D as (c & r & -> & F). unfold off_split. destruct (digit_not_sign c F) as [-> ->]. reflexivity. }
    destruct C as [C|C]; [|destruct C as [C|C]].
    + destruct C as [-> ->]. rewrite HD. cbn [fst snd]. rewrite B. reflexivity.
    + destruct C as [-> ->]. change (off_split (bs "+" ++ ds)) with (false, ds). cbn [fst snd]. rewrite B. reflexivity.
    + destruct C as (-> & -> & N). change (off_split (bs "-" ++ ds)) with (true, ds). cbn [fst snd]. rewrite B. cbn [off_sign bind].
      destruct (Z.eqb_spec n 0); [contradiction|reflexivity].
Qed.
End Lang.
