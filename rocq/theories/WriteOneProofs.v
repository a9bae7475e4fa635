(** There is only one text that says a value. *)
From Coq Require Import String Ascii ZArith Bool List Lia ZifyBool.
From Verif Require Import Base Lib Utf8 GoStrings Strtok Tokeniser SpecContent GoTime Types SpecText SpecDuration SpecTime SpecRecur SpecLang SpecRule SpecCal SpecValid SpecWrite.
From Verif Require Import NumProofs DurationProofs TimeProofs WriteProofs.
Import ListNotations.
Local Open Scope Z_scope.

Lemma code_inj a b : code a = code b -> a = b.
Proof. intros H. rewrite <- (chr_code a), <- (chr_code b), H. reflexivity. Qed.

(** ** Numbers *)
Lemma digits_one w a b n : digits_of w a n -> digits_of w b n -> a = b.
Proof.
  intros [A LA] [B LB]. apply decimal_spec in A as (_ & DA & VA), B as (_ & DB & VB). apply digits_val_inj; auto; congruence.
Qed.
Lemma digits_fun w a n m : digits_of w a n -> digits_of w a m -> n = m.
Proof. intros [(_ & _ & ->) _] [(_ & _ & ->) _]. reflexivity. Qed.
Lemma first_bound c t n : forallb is_digit (c :: t) = true -> code c <> 48 -> digits_val 0 (c :: t) = n -> 10 ^ Z.of_nat (length t) <= n < 10 ^ Z.of_nat (length (c :: t)).
Proof.
  intros D C <-. pose proof (digits_val_bound _ D) as B. split; [|apply B]. cbn [digits_val]. rewrite digits_val_acc.
  cbn [forallb] in D. apply andb_true_iff in D as [D1 D2]. pose proof (digits_val_bound _ D2) as B2. unfold is_digit, Utf8.in_range in D1.
  assert (1 <= 0 * 10 + (code c - 48)) by lia. nia.
Qed.
Lemma short_one a b n : short_decimal a n -> short_decimal b n -> a = b.
Proof.
  intros (A & LA & ZA) (B & LB & ZB). apply decimal_spec in A as (NA & DA & VA), B as (NB & DB & VB).
  destruct (Z.eq_dec n 0) as [N|N]; [rewrite ZA, ZB by exact N; reflexivity|].
  destruct a as [|c a]; [contradiction|]. destruct b as [|d b]; [contradiction|].
  assert (C : code c <> 48) by (intros Q; apply (LA N a); f_equal; apply code_inj; rewrite Q; reflexivity).
  assert (D : code d <> 48) by (intros Q; apply (LB N b); f_equal; apply code_inj; rewrite Q; reflexivity).
  pose proof (first_bound c a n DA C VA) as BA. pose proof (first_bound d b n DB D VB) as BB.
  apply digits_val_inj; auto; [|congruence].
  destruct (Nat.lt_trichotomy (length (c :: a)) (length (d :: b))) as [L|[L|L]]; [exfalso|exact L|exfalso].
  - cbn [length] in L. assert (10 ^ Z.of_nat (length (c :: a)) <= 10 ^ Z.of_nat (length b)) by (apply Z.pow_le_mono_r; cbn [length]; lia). lia.
  - cbn [length] in L. assert (10 ^ Z.of_nat (length (d :: b)) <= 10 ^ Z.of_nat (length a)) by (apply Z.pow_le_mono_r; cbn [length]; lia). lia.
Qed.
Lemma integer_one z a b : integer_says z a -> integer_says z b -> a = b.
Proof.
  intros [[P A]|[P (x & -> & A)]] [[Q B]|[Q (y & -> & B)]]; try lia; [exact (short_one _ _ _ A B)|]. rewrite (short_one _ _ _ A B). reflexivity.
Qed.
Lemma unsigned_one z a b : unsigned_says z a -> unsigned_says z b -> a = b.
Proof. intros [_ A] [_ B]. exact (integer_one _ _ _ A B). Qed.

(** ** Base 64 *)
Lemma sextet_one a b v : sextet a v -> sextet b v -> a = b.
Proof. unfold sextet. intros A B. apply code_inj. lia. Qed.
Lemma sextet_small a v : sextet a v -> 0 <= v < 64.
Proof. unfold sextet. lia. Qed.
Lemma base64_one l s : base64_says l s -> forall s', base64_says l s' -> s = s'.
Proof.
  induction 1 as [|a b x va vb A B E|a b c x y va vb vc A B C E|a b c d x y z va vb vc vd s out A B C D E S IH]; intros s' H; inversion H as [|a' b' x' va' vb' A' B' E'|a' b' c' x' y' va' vb' vc' A' B' C' E'|a' b' c' d' x' y' z' va' vb' vc' vd' s1 out' A' B' C' D' E' S']; subst.
  - reflexivity.
  - pose proof (sextet_small _ _ A). pose proof (sextet_small _ _ B). pose proof (sextet_small _ _ A'). pose proof (sextet_small _ _ B').
    assert (va = va') by lia. assert (vb = vb') by lia. subst va' vb'. rewrite (sextet_one _ _ _ A A'), (sextet_one _ _ _ B B'). reflexivity.
  - pose proof (sextet_small _ _ A). pose proof (sextet_small _ _ B). pose proof (sextet_small _ _ C). pose proof (sextet_small _ _ A'). pose proof (sextet_small _ _ B'). pose proof (sextet_small _ _ C').
    assert (va = va') by lia. assert (vb = vb') by lia. assert (vc = vc') by lia. subst va' vb' vc'. rewrite (sextet_one _ _ _ A A'), (sextet_one _ _ _ B B'), (sextet_one _ _ _ C C'). reflexivity.
  - pose proof (sextet_small _ _ A). pose proof (sextet_small _ _ B). pose proof (sextet_small _ _ C). pose proof (sextet_small _ _ D). pose proof (sextet_small _ _ A'). pose proof (sextet_small _ _ B'). pose proof (sextet_small _ _ C'). pose proof (sextet_small _ _ D').
    assert (va = va') by lia. assert (vb = vb') by lia. assert (vc = vc') by lia. assert (vd = vd') by lia. subst va' vb' vc' vd'.
    rewrite (sextet_one _ _ _ A A'), (sextet_one _ _ _ B B'), (sextet_one _ _ _ C C'), (sextet_one _ _ _ D D'), (IH _ S'). reflexivity.
Qed.

(** ** Offsets *)
Lemma offset_one u a b : offset_says u a -> offset_says u b -> a = b.
Proof.
  intros (sg & hh & h & mm & m & tl & x & -> & DH & DM & H & M & X & E & T & G) (sg' & hh' & h' & mm' & m' & tl' & x' & -> & DH' & DM' & H' & M' & X' & E' & T' & G').
  assert (h = h') by lia. assert (m = m') by lia. assert (x = x') by lia. subst h' m' x'.
  rewrite (digits_one _ _ _ _ DH DH'), (digits_one _ _ _ _ DM DM').
  assert (sg = sg') as -> by (destruct G as [[? ->]|[? ->]], G' as [[? ->]|[? ->]]; try lia; reflexivity).
  assert (tl = tl') as -> by (destruct T as [[? ->]|[? D]], T' as [[? ->]|[? D']]; try lia; [reflexivity|exact (digits_one _ _ _ _ D D')]). reflexivity.
Qed.

(** ** Texts *)
Lemma text_one t s : text_says t s -> forall s', text_says t s' -> s = s'.
Proof.
  induction 1 as [|t s T IH|c t s C T IH|c t s C T IH]; intros s' H.
  - inversion H. reflexivity.
  - inversion H as [|t' r T'|c' t' r C' T'|c' t' r C' T']; subst.
    + rewrite (IH _ T'). reflexivity.
    + destruct C' as [Q|[Q|[Q|[]]]]; discriminate.
    + destruct C'. left. reflexivity.
  - inversion H as [|t' r T'|c' t' r C' T'|c' t' r C' T']; subst.
    + destruct C as [Q|[Q|[Q|[]]]]; discriminate.
    + rewrite (IH _ T'). reflexivity.
    + destruct C'. right. exact C.
  - inversion H as [|t' r T'|c' t' r C' T'|c' t' r C' T']; subst.
    + destruct C. left. reflexivity.
    + destruct C. right. exact C'.
    + rewrite (IH _ T'). reflexivity.
Qed.
Lemma texts_one l s : texts_say l s -> forall s', texts_say l s' -> s = s'.
Proof.
  induction 1 as [|t s T|t s l r N T L IH]; intros s' H; inversion H as [|t' s1 T'|t' s1 l' r' N' T' L']; subst; try contradiction; try reflexivity.
  - exact (text_one _ _ T _ T').
  - rewrite (text_one _ _ T _ T'), (IH _ L'). reflexivity.
Qed.

(** ** Durations *)
Lemma amount_one P n l a b : amount P n l a -> amount P n l b -> a = b.
Proof. intros [[P1 (x & X & ->)]|[P1 ->]] [[P2 (y & Y & ->)]|[P2 ->]]; try contradiction; [rewrite (short_one _ _ _ X Y)|]; reflexivity. Qed.
Lemma clock_part_one d a b : clock_part d a -> clock_part d b -> a = b.
Proof.
  intros (h & m & x & -> & H & M & X) (h' & m' & x' & -> & H' & M' & X').
  rewrite (amount_one _ _ _ _ _ H H'), (amount_one _ _ _ _ _ M M'), (amount_one _ _ _ _ _ X X'). reflexivity.
Qed.
Lemma duration_one d a b : duration_says d a -> duration_says d b -> a = b.
Proof.
  intros (sg & bo & -> & G & B) (sg' & bo' & -> & G' & B').
  assert (sg = sg') as -> by (destruct G as [[? ->]|[? ->]], G' as [[? ->]|[? ->]]; congruence). do 2 f_equal.
  destruct B as [[W (x & X & ->)]|[W (days & cl & -> & D & C)]], B' as [[W' (y & Y & ->)]|[W' (days' & cl' & -> & D' & C')]]; try contradiction.
  - rewrite (short_one _ _ _ X Y). reflexivity.
  - rewrite (amount_one _ _ _ _ _ D D'). f_equal.
    destruct C as [(? & ? & ? & ? & ->)|[? C]], C' as [(? & ? & ? & ? & ->)|[? C']]; try tauto. exact (clock_part_one _ _ _ C C').
Qed.

Section Write.
Context {env : Env}.

(** ** Dates and clocks *)
Lemma shown_one t y mo d h mi x y' mo' d' h' mi' x' : shown t y mo d h mi x -> shown t y' mo' d' h' mi' x' ->
  y = y' /\ mo = mo' /\ d = d' /\ h = h' /\ mi = mi' /\ x = x'.
Proof.
  intros (R & H & M & X & E) (R' & H' & M' & X' & E'). apply real_date_spec in R as [R1 R2], R' as [R1' R2'].
  assert (D : day_number y mo d = day_number y' mo' d') by lia. rewrite <- !day_number_spec in D by assumption.
  pose proof (days_inverse y mo d R1 R2) as I. rewrite D, (days_inverse y' mo' d' R1' R2') in I. injection I as -> -> ->. lia.
Qed.
Lemma date_text_one a b y m d : date_text a y m d -> date_text b y m d -> a = b.
Proof.
  intros (dy & dm & dd & -> & L1 & L2 & L3 & Y & M & D) (dy' & dm' & dd' & -> & L1' & L2' & L3' & Y' & M' & D').
  rewrite (digits_one 4 dy dy' y), (digits_one 2 dm dm' m), (digits_one 2 dd dd' d); unfold digits_of; auto.
Qed.
Lemma clock_one a b h m x : clock_digits a h m x -> clock_digits b h m x -> a = b.
Proof.
  intros (hh & mm & ss & -> & H & M & X) (hh' & mm' & ss' & -> & H' & M' & X').
  rewrite (digits_one _ _ _ _ H H'), (digits_one _ _ _ _ M M'), (digits_one _ _ _ _ X X'). reflexivity.
Qed.
Lemma mark_one t a b : utc_mark t a -> utc_mark t b -> a = b.
Proof. intros [[? ->]|[? ->]] [[? ->]|[? ->]]; try contradiction; reflexivity. Qed.
Lemma date_one t a b : date_says t a -> date_says t b -> a = b.
Proof.
  intros (y & mo & d & h & mi & x & S1 & D) (y' & mo' & d' & h' & mi' & x' & S2 & D').
  destruct (shown_one _ _ _ _ _ _ _ _ _ _ _ _ _ S1 S2) as (-> & -> & -> & _). exact (date_text_one _ _ _ _ _ D D').
Qed.
Lemma datetime_one t a b : datetime_says t a -> datetime_says t b -> a = b.
Proof.
  intros (y & mo & d & h & mi & x & da & c & m & S1 & -> & D & C & U) (y' & mo' & d' & h' & mi' & x' & da' & c' & m' & S2 & -> & D' & C' & U').
  destruct (shown_one _ _ _ _ _ _ _ _ _ _ _ _ _ S1 S2) as (-> & -> & -> & -> & -> & ->).
  rewrite (date_text_one _ _ _ _ _ D D'), (clock_one _ _ _ _ _ C C'), (mark_one _ _ _ U U'). reflexivity.
Qed.
Lemma time_one t a b : time_says t a -> time_says t b -> a = b.
Proof.
  intros (y & mo & d & h & mi & x & c & m & S1 & -> & C & U) (y' & mo' & d' & h' & mi' & x' & c' & m' & S2 & -> & C' & U').
  destruct (shown_one _ _ _ _ _ _ _ _ _ _ _ _ _ S1 S2) as (-> & -> & -> & -> & -> & ->).
  rewrite (clock_one _ _ _ _ _ C C'), (mark_one _ _ _ U U'). reflexivity.
Qed.
Lemma period_one p a b : period_says p a -> period_says p b -> a = b.
Proof.
  intros (x & y & -> & X & Y) (x' & y' & -> & X' & Y'). rewrite (datetime_one _ _ _ X X'). do 2 f_equal.
  destruct Y as [[? Y]|[? Y]], Y' as [[? Y']|[? Y']]; try contradiction; [exact (duration_one _ _ _ Y Y')|exact (datetime_one _ _ _ Y Y')].
Qed.

(** ** Rules *)
Lemma listed_one {A} sep (P : bytes -> A -> Prop) : (forall w w' a, P w a -> P w' a -> w = w') ->
  forall s l, listed sep P s l -> forall s', listed sep P s' l -> s = s'.
Proof.
  intros F s l. induction 1 as [w a X N|w a s l X N L IH]; intros s' H; inversion H as [w' a' X' N'|w' a' s1 l' X' N' L']; subst.
  - exact (F _ _ _ X X').
  - inversion L'.
  - inversion L.
  - rewrite (F _ _ _ X X'), (IH _ L'). reflexivity.
Qed.
Lemma weekday_one w w' d : In (w, d) weekdays -> In (w', d) weekdays -> w = w'.
Proof. cbn. intuition congruence. Qed.
Lemma frequency_one w w' d : In (w, d) frequencies -> In (w', d) frequencies -> w = w'.
Proof. cbn. intuition congruence. Qed.
Lemma day_one d a b : day_says d a -> day_says d b -> a = b.
Proof.
  intros (n & w & -> & W & N) (n' & w' & -> & W' & N'). rewrite (weekday_one _ _ _ W W'). f_equal.
  destruct N as [[? ->]|[? N]], N' as [[? ->]|[? N']]; try contradiction; [reflexivity|exact (integer_one _ _ _ N N')].
Qed.
Lemma part_one p a b : part_says p a -> part_says p b -> a = b.
Proof.
  destruct p as [f|[] t|n|n|l|l|l|l|l|l|l|l|l|d]; cbn [part_says]; intros A B.
  - exact (frequency_one _ _ _ A B).
  - exact (datetime_one _ _ _ A B).
  - exact (date_one _ _ _ A B).
  - exact (unsigned_one _ _ _ A B).
  - exact (unsigned_one _ _ _ A B).
  - refine (listed_one _ _ _ _ _ A _ B). intros. eapply unsigned_one; eassumption.
  - refine (listed_one _ _ _ _ _ A _ B). intros. eapply unsigned_one; eassumption.
  - refine (listed_one _ _ _ _ _ A _ B). intros. eapply unsigned_one; eassumption.
  - refine (listed_one _ _ _ _ _ A _ B). intros. eapply day_one; eassumption.
  - refine (listed_one _ _ _ _ _ A _ B). intros. eapply integer_one; eassumption.
  - refine (listed_one _ _ _ _ _ A _ B). intros. eapply integer_one; eassumption.
  - refine (listed_one _ _ _ _ _ A _ B). intros. eapply integer_one; eassumption.
  - refine (listed_one _ _ _ _ _ A _ B). intros. eapply unsigned_one; eassumption.
  - refine (listed_one _ _ _ _ _ A _ B). intros. eapply integer_one; eassumption.
  - exact (weekday_one _ _ _ A B).
Qed.
Lemma set_one {A} P (a : A) l l' : if_set P a l -> if_set P a l' -> l = l'.
Proof. intros [U|U] [V|V]; try contradiction; reflexivity. Qed.
Lemma parts_one r ps ps' : rule_parts r ps -> rule_parts r ps' -> ps = ps'.
Proof.
  intros [b iv l1 l2 l3 l4 l5 l6 l7 l8 l9 wk B H1 H2 H3 H4 H5 H6 H7 H8 H9 H10 H11] [b' iv' m1 m2 m3 m4 m5 m6 m7 m8 m9 wk' B' G1 G2 G3 G4 G5 G6 G7 G8 G9 G10 G11].
  rewrite (set_one _ _ _ _ H1 G1), (set_one _ _ _ _ H2 G2), (set_one _ _ _ _ H3 G3), (set_one _ _ _ _ H4 G4), (set_one _ _ _ _ H5 G5), (set_one _ _ _ _ H6 G6),
    (set_one _ _ _ _ H7 G7), (set_one _ _ _ _ H8 G8), (set_one _ _ _ _ H9 G9), (set_one _ _ _ _ H10 G10), (set_one _ _ _ _ H11 G11).
  assert (b = b') as -> by (destruct B as [[B N]|[B N]], B' as [[B' N']|[B' N']]; try contradiction; exact (set_one _ _ _ _ B B')). reflexivity.
Qed.
Lemma recur_one r a b : recur_says r a -> recur_says r b -> a = b.
Proof.
  intros (ps & P & L) (ps' & P' & L'). rewrite (parts_one _ _ _ P P') in L. refine (listed_one _ _ _ _ _ L _ L').
  intros w w' p (v & -> & V) (v' & -> & V'). rewrite (part_one _ _ _ V V'). reflexivity.
Qed.

Lemma float_one f a b : float_says f a -> float_says f b -> a = b.
Proof. unfold float_says. intuition congruence. Qed.
Theorem value_one v a b : value_says v a -> value_says v b -> a = b.
Proof.
  destruct v as [l|l|u|t|t|d|f|[fa fb]|z|p|r|t|l|t|u|z]; cbn [value_says]; intros A B.
  - exact (base64_one _ _ A _ B).
  - intuition congruence.
  - congruence.
  - exact (date_one _ _ _ A B).
  - exact (datetime_one _ _ _ A B).
  - exact (duration_one _ _ _ A B).
  - exact (float_one _ _ _ A B).
  - destruct A as (x & y & -> & X & Y), B as (x' & y' & -> & X' & Y'). rewrite (float_one _ _ _ X X'), (float_one _ _ _ Y Y'). reflexivity.
  - exact (integer_one _ _ _ A B).
  - exact (period_one _ _ _ A B).
  - exact (recur_one _ _ _ A B).
  - exact (text_one _ _ A _ B).
  - exact (texts_one _ _ A _ B).
  - exact (time_one _ _ _ A B).
  - congruence.
  - exact (offset_one _ _ _ A B).
Qed.
Theorem value_written_exact v s : value_ok v -> value_writable v -> value_says v s <-> s = concat (value_encode v).
Proof.
  intros O W. pose proof (value_written v O W) as V. split; [intros H; exact (value_one v _ _ H V)|intros ->; exact V].
Qed.
End Write.
