(** Decimal numbers, integers, booleans and UTC offsets. *)
From Coq Require Import String Ascii ZArith Bool List Lia ZifyBool.
From Verif Require Import Base Lib Utf8 GoStrings Strtok GoTime Types.
Import ListNotations.
Local Open Scope Z_scope.
Ltac dlia := Z.to_euclidean_division_equations; lia.

(** ** Digits *)

Lemma digit_chr_code d : 0 <= d <= 9 -> code (digit_chr d) = 48 + d.
Proof. intros H. unfold digit_chr. apply code_chr. lia. Qed.
Lemma digit_chr_digit d : 0 <= d <= 9 -> is_digit (digit_chr d) = true.
Proof. intros H. unfold is_digit. rewrite digit_chr_code by exact H. lia. Qed.
Lemma is_digit_chr c : is_digit c = true -> exists d, 0 <= d <= 9 /\ c = digit_chr d.
Proof.
  intros H. exists (code c - 48). unfold is_digit in H. split; [lia|]. unfold digit_chr.
  replace (48 + (code c - 48)) with (code c) by lia. symmetry. apply chr_code.
Qed.

Lemma digits_val_app a b acc : digits_val acc (a ++ b) = digits_val (digits_val acc a) b.
Proof. revert acc. induction a as [|c a IH]; intros acc; [reflexivity|]. cbn [app digits_val]. apply IH. Qed.

Lemma digits_val_acc s : forall acc, digits_val acc s = acc * 10 ^ Z.of_nat (length s) + digits_val 0 s.
Proof.
  induction s as [|c s IH]; intros acc; [cbn; lia|]. cbn [digits_val length].
  rewrite (IH (acc * 10 + (code c - 48))), (IH (0 * 10 + (code c - 48))).
  rewrite Nat2Z.inj_succ, Z.pow_succ_r by lia. ring.
Qed.

Lemma digits_val_bound s : forallb is_digit s = true -> 0 <= digits_val 0 s < 10 ^ Z.of_nat (length s).
Proof.
  induction s as [|c s IH]; intros H; [cbn; lia|]. cbn [forallb] in H. apply andb_true_iff in H as [Hc Hs].
  specialize (IH Hs). cbn [digits_val length]. rewrite digits_val_acc, Nat2Z.inj_succ, Z.pow_succ_r by lia.
  unfold is_digit in Hc. nia.
Qed.

Lemma div10_lt n f : 0 <= n < 2 ^ Z.of_nat (S f) -> 0 <= n / 10 < 2 ^ Z.of_nat f.
Proof. rewrite Nat2Z.inj_succ, Z.pow_succ_r by dlia. intros H. dlia. Qed.

Lemma dec_digits_spec : forall f n acc, 0 <= n < 2 ^ Z.of_nat f -> (0 < f)%nat ->
  exists ds, dec_digits f n acc = ds ++ acc /\ forallb is_digit ds = true /\ ds <> [] /\ digits_val 0 ds = n /\
    (n <> 0 -> exists c t, ds = c :: t /\ code c <> 48) /\ (n = 0 -> ds = [digit_chr 0]).
Proof.
  induction f as [|f IH]; intros n acc H Hf; [lia|]. cbn [dec_digits].
  assert (D : 0 <= n mod 10 <= 9) by dlia.
  destruct (n / 10 =? 0) eqn:E.
  - exists [digit_chr (n mod 10)]. split; [reflexivity|]. cbn [forallb].
    rewrite digit_chr_digit by dlia. split; [reflexivity|]. split; [discriminate|].
    cbn [digits_val]. rewrite digit_chr_code by dlia. split; [dlia|]. split.
    + intros N. eexists. eexists. split; [reflexivity|]. rewrite digit_chr_code; dlia.
    + intros ->. reflexivity.
  - pose proof (div10_lt n f H) as H'. destruct f as [|f]; [cbn in H; dlia|].
    destruct (IH (n / 10) (digit_chr (n mod 10) :: acc) H' ltac:(dlia)) as (ds & -> & D1 & D2 & D3 & D4 & _).
    exists (ds ++ [digit_chr (n mod 10)]). rewrite <- app_assoc. split; [reflexivity|].
    rewrite forallb_app, D1. cbn [forallb]. rewrite digit_chr_digit by dlia. split; [reflexivity|].
    split; [destruct ds; discriminate|]. rewrite digits_val_app, D3. cbn [digits_val].
    rewrite digit_chr_code by dlia. split; [dlia|]. split.
    + intros _. destruct (D4 ltac:(dlia)) as (c & t & -> & N). eexists. eexists. split; [reflexivity|exact N].
    + intros ->. discriminate.
Qed.

Lemma fmt_uint_spec n : 0 <= n -> forallb is_digit (fmt_uint n) = true /\ fmt_uint n <> [] /\
  digits_val 0 (fmt_uint n) = n /\ (n <> 0 -> exists c t, fmt_uint n = c :: t /\ code c <> 48) /\
  (n = 0 -> fmt_uint n = [digit_chr 0]).
Proof.
  intros H. unfold fmt_uint.
  destruct (dec_digits_spec (S (Z.to_nat (Z.log2 n))) n []) as (ds & E & D); [|lia|].
  - split; [lia|]. rewrite Nat2Z.inj_succ, Z2Nat.id by apply Z.log2_nonneg.
    destruct (Z.eq_dec n 0) as [->|N]; [reflexivity|]. apply Z.log2_spec. lia.
  - rewrite E, app_nil_r. exact D.
Qed.

Lemma fmt_uint_digits n : 0 <= n -> forallb is_digit (fmt_uint n) = true.
Proof. intros H. apply fmt_uint_spec, H. Qed.

Lemma fmt_uint_length n w : 0 <= n < 10 ^ Z.of_nat w -> (0 < w)%nat -> (length (fmt_uint n) <= w)%nat.
Proof.
  intros H Hw. destruct (fmt_uint_spec n (proj1 H)) as (D & N & V & L & Z0).
  destruct (Z.eq_dec n 0) as [->|NZ]; [rewrite Z0 by reflexivity; cbn; lia|].
  destruct (L NZ) as (c & t & E & C). rewrite E in *. cbn [length].
  cbn [forallb] in D. apply andb_true_iff in D as [Dc Dt]. cbn [digits_val] in V.
  rewrite digits_val_acc in V. pose proof (digits_val_bound t Dt). unfold is_digit in Dc.
  assert (P : 10 ^ Z.of_nat (length t) <= n) by nia.
  assert (10 ^ Z.of_nat (length t) < 10 ^ Z.of_nat w) as Q by lia.
  apply Z.pow_lt_mono_r_iff in Q; lia.
Qed.

(** Digit strings are determined by their value and length. *)
Lemma digits_val_inj a : forall b, forallb is_digit a = true -> forallb is_digit b = true ->
  length a = length b -> digits_val 0 a = digits_val 0 b -> a = b.
Proof.
  induction a as [|x a IH]; intros [|y b] Da Db L V; try discriminate; [reflexivity|].
  cbn [forallb] in *. apply andb_true_iff in Da as [Dx Da], Db as [Dy Db].
  cbn [digits_val length] in *. injection L as L.
  rewrite (digits_val_acc a), (digits_val_acc b), L in V.
  pose proof (digits_val_bound a Da) as Ba. pose proof (digits_val_bound b Db) as Bb. rewrite L in Ba.
  unfold is_digit in *. set (P := 10 ^ Z.of_nat (length b)) in *.
  assert (code x = code y) by nia. f_equal; [apply code_inj; assumption|]. apply IH; auto. nia.
Qed.

Lemma parse_uint_fmt bits n : 0 <= n < 2 ^ bits -> parse_uint bits (fmt_uint n) = Some n.
Proof.
  intros H. destruct (fmt_uint_spec n (proj1 H)) as (D & N & V & _).
  unfold parse_uint. destruct (fmt_uint n) as [|c t] eqn:E; [contradiction|]. rewrite D, V.
  cbv zeta. destruct (n <? 2 ^ bits) eqn:L; [reflexivity|lia].
Qed.

Lemma parse_uint_range bits s n : parse_uint bits s = Some n -> 0 <= n < 2 ^ bits /\ forallb is_digit s = true /\ s <> [] /\ digits_val 0 s = n.
Proof.
  unfold parse_uint. destruct s as [|c s]; [discriminate|]. destruct (forallb is_digit (c :: s)) eqn:D; [|discriminate].
  cbv zeta. pose proof (digits_val_bound _ D) as B0. destruct (_ <? _) eqn:E; [|discriminate]. apply Z.ltb_lt in E. intros [= <-].
  split; [exact (conj (proj1 B0) E)|]. split; [reflexivity|]. split; [discriminate|reflexivity].
Qed.

Lemma digit_not_sign c : is_digit c = true -> beqc c "-" = false /\ beqc c "+" = false.
Proof. intros H. rewrite !beqc_code. unfold is_digit in H. split; apply Z.eqb_neq; cbn; lia. Qed.

Lemma parse_int_fmt bits n : 0 < bits <= 64 -> - 2 ^ (bits - 1) <= n < 2 ^ (bits - 1) ->
  parse_int bits (fmt_int n) = Some n.
Proof.
  intros B H. assert (P : 2 ^ (bits - 1) <= 2 ^ 63) by (apply Z.pow_le_mono_r; lia).
  unfold parse_int, fmt_int. destruct (n <? 0) eqn:S.
  - cbn [beqc]. change (beqc "-" "-") with true. cbn [orb].
    rewrite parse_uint_fmt by lia. destruct (- n <=? 2 ^ (bits - 1)) eqn:L; [f_equal; lia|lia].
  - destruct (fmt_uint_spec n ltac:(lia)) as (D & N & V & _).
    destruct (fmt_uint n) as [|c t] eqn:E; [contradiction|].
    cbn [forallb] in D. apply andb_true_iff in D as [Dc _]. destruct (digit_not_sign c Dc) as [-> ->]. cbn [orb].
    rewrite <- E, parse_uint_fmt by lia. destruct (n <? 2 ^ (bits - 1)) eqn:L; [reflexivity|lia].
Qed.

Lemma parse_int_range bits s n : 0 < bits -> parse_int bits s = Some n -> - 2 ^ (bits - 1) <= n < 2 ^ (bits - 1).
Proof.
  intros B. unfold parse_int. destruct s as [|c s]; [discriminate|].
  destruct (parse_uint 64 _) as [v|] eqn:E; [|discriminate]. apply parse_uint_range in E as [R _].
  assert (0 < 2 ^ (bits - 1)) by (apply Z.pow_pos_nonneg; lia).
  destruct (beqc c "-").
  - destruct (v <=? _) eqn:L; [|discriminate]. intros [= <-]. lia.
  - destruct (v <? _) eqn:L; [|discriminate]. intros [= <-]. lia.
Qed.

(** Decimal digits of [itoa] agree with [fmt_uint]. *)
Lemma itoa_loop_spec : forall p n acc, 0 <= n < 10 ^ Z.of_nat p ->
  exists ds, itoa_loop p n acc = ds ++ acc /\ forallb is_digit ds = true /\ digits_val 0 ds = n /\
    (n <> 0 -> exists c t, ds = c :: t /\ code c <> 48) /\ (n = 0 -> ds = []).
Proof.
  induction p as [|p IH]; intros n acc H.
  - exists []. cbn. repeat split; try dlia.
  - cbn [itoa_loop]. rewrite Nat2Z.inj_succ, Z.pow_succ_r in H by dlia. destruct (0 <? n) eqn:S.
    + destruct (IH (n / 10) (digit_chr (n mod 10) :: acc) ltac:(dlia)) as (ds & -> & D1 & D2 & D3 & D4).
      exists (ds ++ [digit_chr (n mod 10)]). rewrite <- app_assoc. split; [reflexivity|].
      rewrite forallb_app, D1. cbn [forallb]. rewrite digit_chr_digit by dlia. split; [reflexivity|].
      rewrite digits_val_app, D2. cbn [digits_val]. rewrite digit_chr_code by dlia. split; [dlia|]. split; [|dlia].
      intros _. destruct (Z.eq_dec (n / 10) 0) as [E|E].
      * rewrite (D4 E). eexists. eexists. split; [reflexivity|]. rewrite digit_chr_code; dlia.
      * destruct (D3 E) as (c & t & -> & N). eexists. eexists. split; [reflexivity|exact N].
    + exists []. assert (n = 0) by dlia. subst. cbn. repeat split; dlia.
Qed.

Lemma itoa_spec n : 0 <= n < 2 ^ 64 -> forallb is_digit (itoa n) = true /\ itoa n <> [] /\ parse_uint 64 (itoa n) = Some n.
Proof.
  intros H. unfold itoa. destruct (n =? 0) eqn:Z.
  - assert (n = 0) by lia. subst. repeat split; try reflexivity. discriminate.
  - assert (B : 0 <= n < 10 ^ Z.of_nat 20) by (change (10 ^ Z.of_nat 20) with 100000000000000000000; lia).
    destruct (itoa_loop_spec 20 n [] B) as (ds & E0 & D & V & L & _). rewrite E0. clear E0.
    rewrite app_nil_r. destruct (L ltac:(lia)) as (c & t & -> & _). split; [exact D|]. split; [discriminate|].
    unfold parse_uint. rewrite D, V. cbv zeta. destruct (n <? 2 ^ 64) eqn:E; [reflexivity|lia].
Qed.

(** ** Integers and booleans *)

Lemma integer_roundtrip i : - 2 ^ 31 <= i < 2 ^ 31 -> integer_decode (concat (integer_encode i)) = Ok i.
Proof.
  intros H. unfold integer_decode, integer_encode. cbn [concat]. rewrite app_nil_r.
  rewrite (parse_int_fmt 32) by (cbn; lia). reflexivity.
Qed.

Lemma integer_range s i : integer_decode s = Ok i -> - 2 ^ 31 <= i < 2 ^ 31.
Proof. unfold integer_decode. rewrite of_option_ok. apply (parse_int_range 32). lia. Qed.

Lemma boolean_roundtrip b : boolean_decode (concat (boolean_encode b)) = Ok b.
Proof. destruct b; reflexivity. Qed.

Lemma existsb_beq s l : existsb (beq s) l = true <-> In s l.
Proof.
  rewrite existsb_exists. split.
  - intros (x & Hx & E). apply beq_eq in E. subst. exact Hx.
  - intros H. exists s. split; [exact H|apply beq_refl].
Qed.

Lemma boolean_exact s b : boolean_decode s = Ok b <->
  In s (if b then [bs "1"; bs "t"; bs "T"; bs "true"; bs "TRUE"; bs "True"]
             else [bs "0"; bs "f"; bs "F"; bs "false"; bs "FALSE"; bs "False"]).
Proof.
  unfold boolean_decode. rewrite of_option_ok. unfold parse_bool.
  destruct (existsb (beq s) [bs "1"; bs "t"; bs "T"; bs "true"; bs "TRUE"; bs "True"]) eqn:E1.
  - apply existsb_beq in E1. destruct b; split; auto; [discriminate|].
    intros H. exfalso. cbn [In] in E1, H.
    destruct E1 as [<-|[<-|[<-|[<-|[<-|[<-|[]]]]]]]; repeat (destruct H as [H|H]; [discriminate H|]); exact H.
  - destruct (existsb (beq s) [bs "0"; bs "f"; bs "F"; bs "false"; bs "FALSE"; bs "False"]) eqn:E2.
    + apply existsb_beq in E2. destruct b; split; auto; [discriminate|]. intros H. apply existsb_beq in H. congruence.
    + split; [discriminate|]. intros H. destruct b; apply existsb_beq in H; congruence.
Qed.

(** ** UTC offsets *)

Lemma digits_char c : inset c digits_set = is_digit c.
Proof.
  pose proof (byte_forall (fun c => Bool.eqb (inset c digits_set) (is_digit c)) ltac:(vm_compute; reflexivity) c) as B.
  apply eqb_prop, B.
Qed.

Lemma accept_digit b c s : accept digits_set (Tok b (c :: s)) = if is_digit c then (true, Tok (b ++ [c]) s) else (false, Tok b (c :: s)).
Proof. unfold accept. cbn [trest tbuf]. rewrite digits_char. reflexivity. Qed.

Definition two_digits (x : Z) : bytes := [digit_chr (x / 10); digit_chr (x mod 10)].

Lemma two_val x : 0 <= x < 100 -> digits_val 0 (two_digits x) = x.
Proof. intros H. unfold two_digits. cbn [digits_val]. rewrite !digit_chr_code by dlia. dlia. Qed.

Lemma accept_plain set c b s : inset c set = false -> accept set (Tok b (c :: s)) = (false, Tok b (c :: s)).
Proof. intros H. unfold accept. cbn [trest]. rewrite H. reflexivity. Qed.

(** The text of an offset: sign, hours, minutes and, if not zero, seconds. *)
Definition offset_text (neg : bool) (h m s : Z) : bytes :=
  (if neg then bs "-" else []) ++ two_digits h ++ two_digits m ++ (if 0 <? s then two_digits s else []).

Lemma utcoffset_decode_text neg h m s : 0 <= h < 100 -> 0 <= m < 60 -> 0 <= s < 60 ->
  (neg = true -> 3600 * h + 60 * m + s <> 0) ->
  utcoffset_decode (offset_text neg h m s) = Ok (if neg then - (3600 * h + 60 * m + s) else 3600 * h + 60 * m + s).
Proof.
  intros Hh Hm Hs NZ. unfold utcoffset_decode, offset_text.
  assert (PRE : (let '(ng, t) := accept (bs "-") (new_tok ((if neg then bs "-" else []) ++ two_digits h ++ two_digits m ++ (if 0 <? s then two_digits s else []))) in
     let '(_, t) := if ng then (true, t) else accept (bs "+") t in let '(_, t) := get t in (ng, t))
     = (neg, Tok [] (two_digits h ++ two_digits m ++ (if 0 <? s then two_digits s else [])))).
  { destruct neg; [reflexivity|]. cbn [app]. unfold new_tok, two_digits at 1. cbn [app].
    assert (D : is_digit (digit_chr (h / 10)) = true) by (apply digit_chr_digit; dlia).
    destruct (digit_not_sign _ D) as [D1 D2].
    rewrite accept_plain by (unfold inset; cbn [bs list_ascii_of_string existsb]; rewrite D1; reflexivity).
    rewrite accept_plain by (unfold inset; cbn [bs list_ascii_of_string existsb]; rewrite D2; reflexivity).
    reflexivity. }
  destruct (accept (bs "-") _) as [ng t0]. destruct (if ng then (true, t0) else accept (bs "+") t0) as [x t1].
  destruct (get t1) as [y t2]. injection PRE as -> ->. cbv zeta.
  unfold two_digits at 1. cbn [app]. rewrite !accept_digit, !digit_chr_digit by dlia. cbn [app negb get tbuf trest].
  rewrite !accept_digit, !digit_chr_digit by dlia. cbn [app negb get tbuf trest].
  rewrite !accept_digit, !digit_chr_digit by dlia. cbn [app negb get tbuf trest].
  rewrite !accept_digit, !digit_chr_digit by dlia. cbn [app negb get tbuf trest].
  change [digit_chr (h / 10); digit_chr (h mod 10)] with (two_digits h).
  change [digit_chr (m / 10); digit_chr (m mod 10)] with (two_digits m).
  rewrite !two_val by lia. destruct (60 <=? m) eqn:EM; [lia|].
  destruct (0 <? s) eqn:ES.
  - rewrite !accept_digit, !digit_chr_digit by dlia. cbn [app].
    rewrite !accept_digit, !digit_chr_digit by dlia. cbn [app negb orb peek trest get tbuf].
    change [digit_chr (s / 10); digit_chr (s mod 10)] with (two_digits s). rewrite two_val by lia.
    destruct (60 <=? s) eqn:E6; [lia|]. cbn [bind]. destruct neg; [|reflexivity].
    destruct (_ =? 0) eqn:EZ; [specialize (NZ eq_refl); lia|reflexivity].
  - assert (s = 0) by lia. subst s. cbn [accept trest peek bind]. destruct neg; [|reflexivity].
    destruct (_ =? 0) eqn:EZ; [specialize (NZ eq_refl); lia|reflexivity].
Qed.

Lemma utcoffset_encode_text u : - 360000 < u < 360000 ->
  concat (utcoffset_encode u) =
  offset_text (u <? 0) (Z.abs u / 3600) (Z.abs u / 60 mod 60) (Z.abs u mod 60).
Proof.
  intros H. unfold utcoffset_encode, offset_text, two_digits, wrap64, to_byte. cbv zeta. cbn [concat]. rewrite app_nil_r.
  set (o := if u <? 0 then (- u + 2 ^ 63) mod 2 ^ 64 - 2 ^ 63 else u).
  assert (EO : o = Z.abs u) by (unfold o; destruct (u <? 0) eqn:S; [rewrite Z.mod_small; lia|lia]).
  rewrite EO. clear o EO. set (o := Z.abs u). assert (HO : 0 <= o < 360000) by (unfold o; lia).
  rewrite Z.quot_div_nonneg by dlia. rewrite !Z.rem_mod_nonneg by dlia.
  rewrite Z.quot_div_nonneg by dlia.
  rewrite !(Z.mod_small (o mod 60) 256), !(Z.mod_small (o / 60 mod 60) 256) by dlia.
  replace (o / 60 / 60) with (o / 3600) by dlia. rewrite !(Z.mod_small (o / 3600) 256) by dlia.
  destruct (99 <? o / 3600) eqn:E9; [dlia|].
  unfold digit_chr.
  rewrite (Z.mod_small (48 + o / 3600 / 10) 256), (Z.mod_small (48 + o / 3600 mod 10) 256),
    (Z.mod_small (48 + o / 60 mod 60 / 10) 256), (Z.mod_small (48 + (o / 60 mod 60) mod 10) 256),
    (Z.mod_small (48 + o mod 60 / 10) 256), (Z.mod_small (48 + (o mod 60) mod 10) 256) by dlia. reflexivity.
Qed.

Lemma utcoffset_roundtrip u : - 360000 < u < 360000 -> utcoffset_decode (concat (utcoffset_encode u)) = Ok u.
Proof.
  intros H. rewrite utcoffset_encode_text by exact H.
  rewrite utcoffset_decode_text; try dlia.
  f_equal. destruct (u <? 0) eqn:E; dlia.
Qed.

Lemma two_accepted t t' : tbuf t = [] ->
  (let '(a, t) := accept digits_set t in if a then accept digits_set t else (false, t)) = (true, t') ->
  forallb is_digit (tbuf t') = true /\ length (tbuf t') = 2%nat /\ trest t = tbuf t' ++ trest t'.
Proof.
  destruct t as [bu [|c [|d r]]]; cbn [tbuf trest]; intros -> H; [discriminate| |].
  - rewrite accept_digit in H. destruct (is_digit c); discriminate.
  - rewrite accept_digit in H. destruct (is_digit c) eqn:C; [|discriminate]. rewrite accept_digit in H.
    destruct (is_digit d) eqn:D; [|discriminate]. injection H as <-. cbn [tbuf trest app forallb length].
    rewrite C, D. auto.
Qed.

(** Every offset that is decoded is less than 100 hours. *)
Lemma utcoffset_range s u : utcoffset_decode s = Ok u -> - 360000 < u < 360000.
Proof.
  unfold utcoffset_decode. destruct (accept (bs "-") (new_tok s)) as [neg t].
  destruct (if neg then (true, t) else accept (bs "+") t) as [x t1]. cbn [get]. cbv zeta.
  set (t2 := Tok [] (trest t1)). destruct (let '(a, t) := accept digits_set t2 in if a then accept digits_set t else (false, t)) as [okh t3] eqn:E1.
  destruct okh; [|discriminate]. cbn [negb].
  apply (two_accepted t2 t3) in E1 as (D1 & L1 & _); [|reflexivity].
  set (t4 := Tok [] (trest t3)). destruct (let '(a, t) := accept digits_set t4 in if a then accept digits_set t else (false, t)) as [okm t5] eqn:E2.
  destruct okm; [|discriminate]. cbn [negb].
  apply (two_accepted t4 t5) in E2 as (D2 & L2 & _); [|reflexivity].
  destruct (60 <=? digits_val 0 (tbuf t5)) eqn:EM; [discriminate|].
  apply digits_val_bound in D1, D2. rewrite L1 in D1. rewrite L2 in D2. change (10 ^ Z.of_nat 2) with 100 in *.
  destruct (accept digits_set _) as [a t6] eqn:EA. intros H. apply bind_ok in H as (sec & H1 & H2).
  assert (SEC : 0 <= sec < 60).
  { destruct a.
    - destruct (accept digits_set t6) as [b t7] eqn:EB. destruct b; [|discriminate]. cbn [negb orb] in H1.
      destruct (peek t7); [discriminate|]. destruct (60 <=? digits_val 0 (tbuf t7)) eqn:ES; [discriminate|].
      injection H1 as <-. split; [|lia].
      destruct (two_accepted (Tok [] (trest t5)) t7 eq_refl) as (D & _).
      { rewrite EA. exact EB. }
      apply digits_val_bound in D. lia.
    - destruct (peek t6); [discriminate|]. injection H1 as <-. lia. }
  set (hh := digits_val 0 (tbuf t3)) in *. set (mm := digits_val 0 (tbuf t5)) in *.
  destruct neg.
  - destruct (_ =? 0); [discriminate|]. apply Ok_inj in H2. lia.
  - apply Ok_inj in H2. lia.
Qed.

(** So no larger offset comes back. *)
Lemma utcoffset_lost u : ~ (- 360000 < u < 360000) -> utcoffset_decode (concat (utcoffset_encode u)) <> Ok u.
Proof. intros H E. apply H, (utcoffset_range _ _ E). Qed.
