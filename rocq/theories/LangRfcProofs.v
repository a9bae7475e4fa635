(** Lists of texts, and what is read compared with RFC 5545. *)
From Coq Require Import String Ascii ZArith Bool List Lia ZifyBool Permutation.
From Verif Require Import Base Lib Utf8 GoStrings Strtok Tokeniser GoTime Types SpecText SpecDuration SpecTime SpecLang SpecRule.
From Verif Require Import NumProofs TokeniserProofs TextProofs TotalProofs DurationProofs TimeProofs DateProofs LangProofs LangTimeProofs LangDurProofs LangRuleProofs.
Import ListNotations.
Local Open Scope Z_scope.

Section LangRfc.
Context {env : Env}.

(** ** Lists of texts *)
Lemma mtext_iff : forall f n acc s l, (length s < f)%nat -> (length s < n)%nat ->
  mtext_loop f n acc (Tok [] s) = Ok l <-> exists l', texts s l' /\ l = acc ++ l'.
Proof.
  induction f as [|f IH]; intros n acc s l F N; [lia|]. cbn [mtext_loop]. split.
  - intros H. destruct (reads_total (length s) s (le_n _)) as (t & rest & R). rewrite (decode_text_reads s t rest R) in H by exact N.
    cbn [bind peek trest app] in H. destruct rest as [|c rest].
    + apply Ok_inj in H. exists [t]. split; [apply Texts_last; exact R|symmetry; exact H].
    + cbn [peek trest] in H. destruct (beqc c ",") eqn:C; [|discriminate H]. apply beqc_eq in C. subst c. rewrite accept_hit in H by reflexivity. cbn [get trest] in H.
      pose proof (reads_length _ _ _ R) as L. cbn [length] in L. apply IH in H as (l' & T & ->); [|lia|lia]. exists (t :: l').
      split; [apply (Texts_more s t rest l' R T)|]. rewrite <- app_assoc. reflexivity.
  - intros (l' & T & ->). destruct T as [s t R|s t r l' R T].
    + rewrite (decode_text_reads s t [] R) by exact N. reflexivity.
    + rewrite (decode_text_reads s t _ R) by exact N. cbn [bind peek trest app]. change (beqc "," ",") with true. cbv iota.
      rewrite accept_hit by reflexivity. cbn [get trest]. pose proof (reads_length _ _ _ R) as L. cbn [length] in L. apply IH; [lia|lia|].
      exists l'. split; [exact T|]. rewrite <- app_assoc. reflexivity.
Qed.

Theorem mtext_lang m s v : value_decode KMText m s = Ok v <-> exists l, texts s l /\ v = VMText l.
Proof.
  unfold value_decode. rewrite rmap_ok. unfold mtext_decode, new_tok.
  split; intros (l & H & E); exists l; (split; [|exact E]).
  - apply mtext_iff in H as (l' & T & ->); [exact T|lia|lia].
  - apply mtext_iff; [lia|lia|]. exists l. auto.
Qed.

(** ** Floats *)
Lemma lower_letter c d : ~ 65 <= code d <= 90 -> lower_ascii c = d <-> same_letter c d.
Proof.
  intros U. unfold lower_ascii, same_letter, in_range. destruct ((65 <=? code c) && (code c <=? 90)) eqn:R.
  - split.
    + intros <-. right. split; [lia|]. apply code_chr. lia.
    + intros [->|[_ E]]; [destruct U; lia|]. apply code_inj. rewrite code_chr by lia. lia.
  - split; [auto|]. intros [E|[B _]]; [exact E|lia].
Qed.
Lemma spelled_iff w : forallb (fun c => negb ((65 <=? code c) && (code c <=? 90))) (bs w) = true ->
  forall s, map lower_ascii s = bs w <-> spelled w s.
Proof.
  unfold spelled. generalize (bs w). clear w. intros w. induction w as [|d w IH]; intros F s.
  - split; [destruct s; [constructor|discriminate]|]. intros H. inversion H. reflexivity.
  - cbn [forallb] in F. apply andb_true_iff in F as [A B]. assert (U : ~ 65 <= code d <= 90) by lia. split.
    + destruct s as [|c s]; [discriminate|]. cbn [map]. intros E. injection E as E1 E2. constructor; [apply lower_letter; assumption|apply IH; assumption].
    + intros H. inversion H as [|c ? s' ? C R]; subst. cbn [map]. f_equal; [apply lower_letter; assumption|apply IH; assumption].
Qed.

Lemma float_iff s f : parse_float s = Some f <-> float_text s f.
Proof.
  unfold parse_float, float_special, float_text.
  assert (SP : forall w, forallb (fun c => negb ((65 <=? code c) && (code c <=? 90))) (bs w) = true -> beq (map lower_ascii s) (bs w) = true <-> spelled w s)
    by (intros w F; rewrite beq_eq; apply spelled_iff; exact F).
  cbn [existsb]. rewrite !orb_false_r. set (l := map lower_ascii s) in *.
  assert (DJ : forall w w', beq l (bs w) = true -> beq l (bs w') = true -> bs w = bs w') by (intros w w' A B; apply beq_eq in A, B; congruence).
  rewrite <- (SP "nan"%string eq_refl), <- (SP "inf"%string eq_refl), <- (SP "+inf"%string eq_refl), <- (SP "infinity"%string eq_refl), <- (SP "+infinity"%string eq_refl),
    <- (SP "-inf"%string eq_refl), <- (SP "-infinity"%string eq_refl).
  assert (NW : (forall w, In w ["nan"; "inf"; "+inf"; "infinity"; "+infinity"; "-inf"; "-infinity"]%string -> ~ spelled w s) <->
    (beq l (bs "nan") = false /\ beq l (bs "inf") = false /\ beq l (bs "+inf") = false /\ beq l (bs "infinity") = false /\ beq l (bs "+infinity") = false /\
     beq l (bs "-inf") = false /\ beq l (bs "-infinity") = false)).
  { split.
    - intros H. assert (G : forall w, In w ["nan"; "inf"; "+inf"; "infinity"; "+infinity"; "-inf"; "-infinity"]%string ->
        forallb (fun c => negb ((65 <=? code c) && (code c <=? 90))) (bs w) = true -> beq l (bs w) = false).
      { intros w I F. destruct (beq l (bs w)) eqn:B; [|reflexivity]. destruct (H w I). apply SP; assumption. }
      repeat split; apply G; try reflexivity; cbn [In]; auto 10.
    - intros (A1 & A2 & A3 & A4 & A5 & A6 & A7) w I. cbn [In] in I.
      decompose [or] I; try contradiction; subst w; rewrite <- SP by reflexivity; congruence. }
  rewrite NW. clear NW SP.
  destruct (beq l (bs "nan")) eqn:B1.
  { split; [intros E; injection E as <-; auto|]. intros [[_ ->]|[[H _]|[[H _]|[[H _] _]]]]; [reflexivity|exfalso..|discriminate H].
    - destruct H as [H|[H|[H|H]]]; pose proof (DJ _ _ B1 H) as X; discriminate X.
    - destruct H as [H|H]; pose proof (DJ _ _ B1 H) as X; discriminate X. }
  destruct (beq l (bs "inf") || (beq l (bs "+inf") || (beq l (bs "infinity") || beq l (bs "+infinity")))) eqn:B2.
  { rewrite !orb_true_iff in B2. split; [intros E; injection E as <-; right; left; split; [exact B2|reflexivity]|].
    intros [[H _]|[[_ ->]|[[H _]|[H _]]]]; [discriminate H|reflexivity|exfalso..].
    - destruct B2 as [B|[B|[B|B]]]; destruct H as [H|H]; pose proof (DJ _ _ B H) as X; discriminate X.
    - destruct H as (_ & C1 & C2 & C3 & C4 & _). destruct B2 as [B|[B|[B|B]]]; congruence. }
  rewrite !orb_false_iff in B2. destruct B2 as (C1 & C2 & C3 & C4).
  destruct (beq l (bs "-inf") || beq l (bs "-infinity")) eqn:B3.
  { rewrite !orb_true_iff in B3. split; [intros E; injection E as <-; right; right; left; split; [exact B3|reflexivity]|].
    intros [[H _]|[[H _]|[[_ ->]|[H _]]]]; [discriminate H|exfalso|reflexivity|exfalso].
    - destruct H as [H|[H|[H|H]]]; congruence.
    - destruct H as (_ & _ & _ & _ & _ & D1 & D2). destruct B3; congruence. }
  apply orb_false_iff in B3 as [D1 D2]. split.
  - destruct (fin_parse s) as [x|] eqn:F; [|discriminate]. intros E. injection E as <-. right. right. right. split; [auto 10|]. exists x. auto.
  - intros [[H _]|[[H _]|[[H _]|[_ (x & -> & ->)]]]]; [discriminate H|exfalso|exfalso|reflexivity].
    + destruct H as [H|[H|[H|H]]]; congruence.
    + destruct H; congruence.
Qed.

Theorem float_lang m s v : value_decode KFloat m s = Ok v <-> exists f, float_text s f /\ v = VFloat f.
Proof.
  unfold value_decode. rewrite rmap_ok. unfold float_decode. split; intros (f & H & E); exists f; (split; [|exact E]).
  - apply of_option_ok in H. apply float_iff. exact H.
  - apply of_option_ok. apply float_iff. exact H.
Qed.

Theorem pair_lang m s v : value_decode KTFloat m s = Ok v <-> exists p, pair_text s p /\ v = VTFloat p.
Proof.
  unfold value_decode. rewrite rmap_ok. unfold tfloat_decode. split; intros (p & H & E); exists p; (split; [|exact E]).
  - destruct (cut ";"%char s) as [[a b]|] eqn:C; [|discriminate]. apply cut_some in C as [-> N]. apply bind_ok in H as (fa & A & H). apply bind_ok in H as (fb & B & H).
    apply Ok_inj in H. subst p. apply of_option_ok in A, B. apply float_iff in A, B. exists a, b. auto.
  - destruct H as (a & b & -> & N & A & B). change (bs ";" ++ b) with (";"%char :: b). rewrite (cut_app _ _ _ N). apply float_iff in A, B. rewrite A, B. cbn [of_option bind]. destruct p. reflexivity.
Qed.

(** ** Offsets *)
Lemma offset_rfc_read m s u : utcoffset_rfc s u -> (forall ds, s = bs "+" ++ ds \/ s = bs "-" ++ ds -> length ds = 6%nat -> skipn 4 ds <> bs "60") ->
  value_decode KUTCOffset m s = Ok (VUTCOffset u).
Proof.
  intros (ds & n & (hh & h & mm & mi & DH & DM & RH & RM & X) & C) N60. apply utcoffset_lang. exists u. split; [|reflexivity].
  destruct (two_shape _ _ DH) as (a & b & EH & _). destruct (two_shape _ _ DM) as (c & d & EM & _).
  exists ds, n. split; [|destruct C as [C|C]; [right; left; exact C|right; right; exact C]]. exists hh, h, mm, mi. split; [exact DH|]. split; [exact DM|]. split; [lia|]. split; [exact RM|].
  destruct X as [X|X]; [left; exact X|right]. destruct X as (ss & x & ES & DX & RX & EN). exists ss, x. split; [exact ES|]. split; [exact DX|]. split; [|exact EN].
  assert (x <> 60); [|lia]. intros ->. destruct (two_shape _ _ DX) as (e & f & ESS & E & F & V).
  assert (DS : s = bs "+" ++ ds \/ s = bs "-" ++ ds) by (destruct C as [C|C]; destruct C as [C _]; auto).
  apply (N60 ds DS); [rewrite ES, EH, EM, ESS; reflexivity|]. rewrite ES, EH, EM, ESS. cbn [app skipn]. cbn [digits_val] in V.
  unfold is_digit in E, F. assert (XE : e = "6"%char) by (apply code_inj; change (code "6") with 54; lia).
  assert (XF : f = "0"%char) by (apply code_inj; change (code "0") with 48; lia). subst. reflexivity.
Qed.

Lemma offset_witness m : value_decode KUTCOffset m (bs "9900") = Ok (VUTCOffset 356400) /\ (forall u, ~ utcoffset_rfc (bs "9900") u) /\
  value_decode KUTCOffset m (bs "+010060") = Err ErrInvalidOffset /\ utcoffset_rfc (bs "+010060") 3660.
Proof.
  split; [vm_compute; reflexivity|]. split.
  - intros u (ds & n & _ & [C|C]); destruct C as [C _]; discriminate C.
  - split; [vm_compute; reflexivity|]. exists (bs "010060"), 3660. split; [|left; split; reflexivity].
    exists (bs "01"), 1, (bs "00"), 0. 
    assert (D2 : forall a b, is_digit a = true -> is_digit b = true -> forall k, digits_val 0 [a; b] = k -> digits_of 2 [a; b] k) by (intros a b A B k <-; apply two_val_of; assumption).
    split; [apply D2; reflexivity|]. split; [apply D2; reflexivity|]. split; [lia|]. split; [lia|]. right. exists (bs "60"), 60.
    split; [reflexivity|]. split; [apply D2; reflexivity|]. split; [lia|reflexivity].
Qed.

(** ** Date-times and times of day *)
Lemma clock_rfc_text c h mi x : clock_rfc c h mi x -> x <> 60 -> clock_text c h mi x 0.
Proof.
  intros (D & RH & RM & RX) N. exists c, []. rewrite app_nil_r. split; [reflexivity|]. split; [exact D|]. split; [exact RH|]. split; [exact RM|]. split; [lia|]. left. auto.
Qed.

Lemma sixty_ends c h mi x : clock_rfc c h mi x -> x = 60 -> skipn 4 c = bs "60".
Proof.
  intros ((hh & mm & ss & -> & DH & DM & DX) & _) ->. destruct (two_shape _ _ DH) as (a & b & -> & _). destruct (two_shape _ _ DM) as (d & e & -> & _).
  destruct (two_shape _ _ DX) as (f & g & -> & F & G & V). cbn [app skipn]. cbn [digits_val] in V. unfold is_digit in F, G.
  assert (XE : f = "6"%char) by (apply code_inj; change (code "6") with 54; lia).
  assert (XF : g = "0"%char) by (apply code_inj; change (code "0") with 48; lia). subst. reflexivity.
Qed.

Lemma datetime_rfc_read m s : datetime_rfc (pmap_get m (bs "TZID")) s -> firstn 2 (skipn 13 s) <> bs "60" ->
  (forall tz, pmap_get m (bs "TZID") = Some tz -> load_location 0 tz <> None) -> exists t, value_decode KDateTime m s = Ok (VDateTime t).
Proof.
  intros (d & c & y & mo & da & h & mi & x & P & DT & RD & C) N Z.
  assert (LD : length d = 8%nat) by exact (date_length _ _ _ _ DT).
  assert (N60 : x <> 60).
  { intros E. pose proof (sixty_ends c h mi x C E) as S6. apply N.
    assert (SK : forall r, firstn 2 (skipn 13 (d ++ bs "T" ++ c ++ r)) = bs "60").
    { intros r. rewrite skipn_app, LD. rewrite (skipn_all2 (n := 13)) by lia. cbn [app]. change (13 - 8)%nat with 5%nat. change (skipn 5 (bs "T" ++ c ++ r)) with (skipn 4 (c ++ r)).
      rewrite skipn_app, S6. reflexivity. }
    destruct (pmap_get m (bs "TZID")); [rewrite P, <- (app_nil_r c); apply SK|]. destruct P as [-> | ->]; [rewrite <- (app_nil_r c); apply SK|apply SK]. }
  pose proof (clock_rfc_text c h mi x C N60) as CT.
  assert (L : exists l, placed 0 (pmap_get m (bs "TZID")) s (d ++ bs "T" ++ c) l).
  { unfold placed. destruct (pmap_get m (bs "TZID")) as [tz|].
    - specialize (Z tz eq_refl). destruct (load_location 0 tz) as [l|]; [exists l; auto|contradiction].
    - destruct P as [-> | ->]; [exists LLocal; auto|exists LUTC; left; split; [rewrite <- !app_assoc; reflexivity|reflexivity]]. }
  destruct L as (l & L). exists (go_date y mo da h mi x 0 l). apply datetime_lang. eexists. split; [|reflexivity].
  exists d, c, y, mo, da, h, mi, x, 0, l. auto.
Qed.

Lemma time_rfc_read m s : time_rfc (pmap_get m (bs "TZID")) s -> firstn 2 (skipn 4 s) <> bs "60" ->
  (forall tz, pmap_get m (bs "TZID") = Some tz -> load_location 0 tz <> None) -> exists t, value_decode KTime m s = Ok (VTime t).
Proof.
  intros (c & h & mi & x & P & C) N Z.
  assert (N60 : x <> 60).
  { intros E. pose proof (sixty_ends c h mi x C E) as S6. apply N.
    assert (SK : forall r, firstn 2 (skipn 4 (c ++ r)) = bs "60") by (intros r; rewrite skipn_app, S6; reflexivity).
    destruct (pmap_get m (bs "TZID")); [rewrite P, <- (app_nil_r c); apply SK|]. destruct P as [-> | ->]; [rewrite <- (app_nil_r c); apply SK|apply SK]. }
  pose proof (clock_rfc_text c h mi x C N60) as CT.
  assert (L : exists l, placed 0 (pmap_get m (bs "TZID")) s c l).
  { unfold placed. destruct (pmap_get m (bs "TZID")) as [tz|].
    - specialize (Z tz eq_refl). destruct (load_location 0 tz) as [l|]; [exists l; auto|contradiction].
    - destruct P as [-> | ->]; [exists LLocal; auto|exists LUTC; auto]. }
  destruct L as (l & L). exists (go_date 0 1 1 h mi x 0 l). apply time_lang. eexists. split; [|reflexivity].
  exists c, h, mi, x, 0, l. auto.
Qed.

(** ** Durations *)
Lemma dur_hour_T t neg w d h m s : dur_value t neg w d h m s -> In "H"%char t -> In "T"%char t.
Proof.
  assert (DIG : forall ds n, decimal ds n -> ~ In "H"%char ds) by (intros ds n D J; apply (digits_plain ds n _ D) in J; discriminate J).
  assert (TM : forall t h m s, dur_time t h m s -> In "T"%char t) by (intros t' h' m' s' T; destruct T; left; reflexivity).
  assert (BD : forall t w d h m s, dur_body t w d h m s -> In "H"%char t -> In "T"%char t).
  { intros t' w' d' h' m' s' B. destruct B as [ds w' D|ds d' D|ds d' t' h' m' s' D T|t' h' m' s' T]; intros I.
    - apply in_app_iff in I as [I|[I|[]]]; [destruct (DIG _ _ D I)|discriminate].
    - apply in_app_iff in I as [I|[I|[]]]; [destruct (DIG _ _ D I)|discriminate].
    - apply in_app_iff. right. apply in_app_iff. right. exact (TM _ _ _ _ T).
    - exact (TM _ _ _ _ T). }
  intros V I. destruct V as [t w d h m s B|t w d h m s B|t w d h m s B]; apply in_app_iff in I; apply in_app_iff; right; apply (BD _ _ _ _ _ _ B);
    (destruct I as [I|I]; [cbn in I; intuition discriminate|exact I]).
Qed.

Lemma duration_witness m : value_decode KDuration m (bs "P1H") = Ok (VDuration (Duration false 0 0 1 0 0)) /\
  value_decode KDuration m (bs "P1DT2H3MT4H") = Ok (VDuration (Duration false 0 1 4 3 0)) /\
  (forall neg w d h mi s, ~ dur_value (bs "P1H") neg w d h mi s).
Proof.
  split; [vm_compute; reflexivity|]. split; [vm_compute; reflexivity|]. intros neg w d h mi s V.
  apply dur_hour_T in V; [|right; right; left; reflexivity]. cbn in V. intuition discriminate.
Qed.

(** ** Recurrence rules *)
Lemma listed_impl {A} sep (P Q : bytes -> A -> Prop) s l : (forall w a, P w a -> Q w a) -> listed sep P s l -> listed sep Q s l.
Proof. intros I. induction 1 as [w a H N|w a s l H N L IH]; [apply L_one; auto|apply L_more; auto]. Qed.

Lemma rvalue_rfc tz v p : rvalue day_rfc tz v p -> rvalue day_text tz v p.
Proof. destruct p; cbn [rvalue]; auto. apply listed_impl. intros w a H. left. exact H. Qed.

Lemma untouched {A} (f : recur -> A) (name : string) : (forall r p, rname p <> bs name -> f (add_part r p) = f r) ->
  forall ps r, ~ Exists (named name) ps -> f (fold_left add_part ps r) = f r.
Proof.
  intros H. induction ps as [|p ps IH]; intros r N; [reflexivity|]. cbn [fold_left]. rewrite IH by (intros E; apply N; right; exact E).
  apply H. intros E. apply N. left. exact E.
Qed.

Lemma parts_rfc_ordered ps : parts_rfc ps -> parts_ordered ps.
Proof.
  intros (_ & ND & NB) before p after E. subst ps. rewrite map_app in ND. cbn [map] in ND. apply NoDup_remove_2 in ND.
  assert (NP : forall name, rname p = bs name -> ~ Exists (named name) before).
  { intros name EN X. apply Exists_exists in X as (q & IQ & Q). apply ND. apply in_app_iff. left. rewrite EN, <- Q. apply in_map. exact IQ. }
  unfold rule_of. destruct p; cbn [after_parts]; [exact Logic.I|..].
  - rewrite (untouched r_count "COUNT"); [reflexivity| |].
    + intros [] q NQ; destruct q; try reflexivity. contradiction NQ. reflexivity.
    + intros X. apply NB. split; [apply Exists_exists; exists (RUntil timed t); split; [apply in_app_iff; right; left; reflexivity|reflexivity]|].
      apply Exists_app. left. exact X.
  - rewrite (untouched r_until "UNTIL"); [reflexivity| |].
    + intros [] q NQ; destruct q; try reflexivity. contradiction NQ. reflexivity.
    + intros X. apply NB. split; [apply Exists_app; left; exact X|].
      apply Exists_exists; exists (RCount n); split; [apply in_app_iff; right; left; reflexivity|reflexivity].
  - rewrite (untouched r_interval "INTERVAL"); [reflexivity|intros [] q NQ; destruct q; try reflexivity; contradiction NQ; reflexivity|apply NP; reflexivity].
  - rewrite (untouched r_bysecond "BYSECOND"); [reflexivity|intros [] q NQ; destruct q; try reflexivity; contradiction NQ; reflexivity|apply NP; reflexivity].
  - rewrite (untouched r_byminute "BYMINUTE"); [reflexivity|intros [] q NQ; destruct q; try reflexivity; contradiction NQ; reflexivity|apply NP; reflexivity].
  - rewrite (untouched r_byhour "BYHOUR"); [reflexivity|intros [] q NQ; destruct q; try reflexivity; contradiction NQ; reflexivity|apply NP; reflexivity].
  - rewrite (untouched r_byday "BYDAY"); [reflexivity|intros [] q NQ; destruct q; try reflexivity; contradiction NQ; reflexivity|apply NP; reflexivity].
  - rewrite (untouched r_bymonthday "BYMONTHDAY"); [reflexivity|intros [] q NQ; destruct q; try reflexivity; contradiction NQ; reflexivity|apply NP; reflexivity].
  - rewrite (untouched r_byyearday "BYYEARDAY"); [reflexivity|intros [] q NQ; destruct q; try reflexivity; contradiction NQ; reflexivity|apply NP; reflexivity].
  - rewrite (untouched r_byweekno "BYWEEKNO"); [reflexivity|intros [] q NQ; destruct q; try reflexivity; contradiction NQ; reflexivity|apply NP; reflexivity].
  - rewrite (untouched r_bymonth "BYMONTH"); [reflexivity|intros [] q NQ; destruct q; try reflexivity; contradiction NQ; reflexivity|apply NP; reflexivity].
  - rewrite (untouched r_bysetpos "BYSETPOS"); [reflexivity|intros [] q NQ; destruct q; try reflexivity; contradiction NQ; reflexivity|apply NP; reflexivity].
  - rewrite (untouched r_wkst "WKST"); [reflexivity|intros [] q NQ; destruct q; try reflexivity; contradiction NQ; reflexivity|apply NP; reflexivity].
Qed.

Theorem recur_rfc_read m s r : recur_rfc (pmap_get m (bs "TZID")) s r -> value_decode KRecur m s = Ok (VRecur r).
Proof.
  intros (ps & L & P & ->). apply recur_lang. exists (rule_of ps). split; [|reflexivity]. exists ps.
  split; [eapply listed_impl; [|exact L]; intros w p (v & E & V); exists v; split; [exact E|apply rvalue_rfc; exact V]|].
  split; [apply P|]. split; [apply parts_rfc_ordered; exact P|reflexivity].
Qed.

(** The order of the parts. *)
Lemma add_swap r p q : rname p <> rname q -> add_part (add_part r p) q = add_part (add_part r q) p.
Proof. destruct r, p, q; intros N; try reflexivity; contradiction N; reflexivity. Qed.

Lemma rule_of_perm ps ps' : Permutation ps ps' -> NoDup (map rname ps) -> forall r, fold_left add_part ps r = fold_left add_part ps' r.
Proof.
  induction 1 as [|p ps ps' P IH|p q ps|ps ps' ps'' P1 IH1 P2 IH2]; intros ND r.
  - reflexivity.
  - cbn [fold_left]. inversion ND; subst. apply IH. assumption.
  - cbn [fold_left]. rewrite add_swap; [reflexivity|]. cbn [map] in ND. inversion ND as [|? ? N1 N2]; subst. intros E. apply N1. left. symmetry. exact E.
  - rewrite IH1 by exact ND. apply IH2. apply (Permutation_NoDup (l := map rname ps)); [apply Permutation_map; exact P1|exact ND].
Qed.

Lemma parts_rfc_perm ps ps' : Permutation ps ps' -> parts_rfc ps -> parts_rfc ps'.
Proof.
  intros P (A & B & C).
  assert (EX : forall Q : rpart -> Prop, Exists Q ps <-> Exists Q ps').
  { intros Q. rewrite !Exists_exists. split; intros (x & I & H); exists x; (split; [|exact H]); [apply (Permutation_in x P I)|apply (Permutation_in x (Permutation_sym P) I)]. }
  split; [apply EX; exact A|]. split; [apply (Permutation_NoDup (l := map rname ps)); [apply Permutation_map; exact P|exact B]|].
  rewrite <- !EX. exact C.
Qed.

Theorem recur_any_order m s ps s' ps' : let tz := pmap_get m (bs "TZID") in
  listed ";"%char (rpart_text day_rfc tz) s ps -> parts_rfc ps -> Permutation ps ps' -> listed ";"%char (rpart_text day_rfc tz) s' ps' ->
  value_decode KRecur m s = Ok (VRecur (rule_of ps)) /\ value_decode KRecur m s' = Ok (VRecur (rule_of ps)).
Proof.
  intros tz L P PM L'. split; [apply recur_rfc_read; exists ps; auto|].
  assert (E : rule_of ps = rule_of ps') by (apply rule_of_perm; [exact PM|apply P]). rewrite E.
  apply recur_rfc_read. exists ps'. split; [exact L'|]. split; [exact (parts_rfc_perm ps ps' PM P)|reflexivity].
Qed.

Lemma named_text days tz w p k v : rpart_text days tz w p -> cut "="%char w = Some (k, v) -> rname p = k.
Proof. intros (v' & -> & _) C. destruct (names_distinct p (rname p) v' eq_refl) as [_ C']. rewrite C in C'. injection C' as <- _. reflexivity. Qed.

Lemma recur_witness m : value_decode KRecur m (bs "FREQ=DAILY;FREQ=WEEKLY") =
    Ok (VRecur (Recur 4 0 false zero_time 0 0 [] [] [] [] [] [] [] [] [])) /\
  (forall r, ~ recur_rfc (pmap_get m (bs "TZID")) (bs "FREQ=DAILY;FREQ=WEEKLY") r) /\
  (exists e, value_decode KRecur m (bs "freq=daily") = Err e).
Proof.
  split; [vm_compute; reflexivity|]. split; [|eexists; vm_compute; reflexivity]. intros r (ps & L & (_ & ND & _) & _). apply listed_split in L.
  change (split ";"%char (bs "FREQ=DAILY;FREQ=WEEKLY")) with [bs "FREQ=DAILY"; bs "FREQ=WEEKLY"] in L.
  inversion L as [|? p ? ps' H1 L']; subst. inversion L' as [|? q ? ps'' H2 L'']; subst.
  apply (named_text _ _ _ _ (bs "FREQ") (bs "DAILY")) in H1; [|vm_compute; reflexivity].
  apply (named_text _ _ _ _ (bs "FREQ") (bs "WEEKLY")) in H2; [|vm_compute; reflexivity].
  cbn [map] in ND. inversion ND as [|? ? N _]; subst. apply N. left. congruence.
Qed.
End LangRfc.
