(** The texts that are read as binary data, dates, times and periods. *)
From Coq Require Import String Ascii ZArith Bool List Lia ZifyBool.
From Verif Require Import Base Lib Utf8 GoStrings Strtok Tokeniser GoTime Types SpecDuration SpecTime SpecLang.
From Verif Require Import NumProofs TokeniserProofs DurationProofs TimeProofs DateProofs LangProofs.
Import ListNotations.
Local Open Scope Z_scope.

Section LangTime.
Context {env : Env}.

(** ** Base 64 *)
Lemma sextet_iff c v : b64_val c = Some v <-> sextet c v.
Proof.
  unfold b64_val, sextet, in_range. cbv zeta. generalize (code c). intros x.
  destruct ((65 <=? x) && (x <=? 90)) eqn:E1; [split; [intros H; injection H as <-; lia|intros H; f_equal; lia]|].
  destruct ((97 <=? x) && (x <=? 122)) eqn:E2; [split; [intros H; injection H as <-; lia|intros H; f_equal; lia]|].
  destruct ((48 <=? x) && (x <=? 57)) eqn:E3; [split; [intros H; injection H as <-; lia|intros H; f_equal; lia]|].
  destruct (x =? 43) eqn:E4; [split; [intros H; injection H as <-; lia|intros H; f_equal; lia]|].
  destruct (x =? 47) eqn:E5; [split; [intros H; injection H as <-; lia|intros H; f_equal; lia]|].
  split; [discriminate|lia].
Qed.

Lemma sextet_bound c v : sextet c v -> 0 <= v < 64 /\ beqc c "=" = false.
Proof. unfold sextet. rewrite beqc_code. change (code "=") with 61. lia. Qed.

Lemma base64_iff : forall n s out, (length s <= n)%nat -> b64_dec s = Some out <-> base64 s out.
Proof.
  induction n as [|n IH]; intros s out L.
  { destruct s; [|cbn [length] in L; lia]. cbn [b64_dec]. split; [intros H; injection H as <-; constructor|].
    intros H. inversion H. reflexivity. }
  split.
  - intros H. destruct s as [|a [|b [|c [|d r]]]]; try discriminate.
    { injection H as <-. constructor. }
    cbn [b64_dec] in H. destruct (b64_val a) as [va|] eqn:A; [|discriminate]. destruct (b64_val b) as [vb|] eqn:B; [|discriminate].
    apply sextet_iff in A, B. pose proof (proj1 (sextet_bound a va A)) as RA. pose proof (proj1 (sextet_bound b vb B)) as RB.
    destruct (beqc c "=") eqn:EC.
    { destruct (beqc d "=") eqn:ED; [|discriminate]. destruct r; [|discriminate]. injection H as <-.
      apply beqc_eq in EC, ED. subst c d. apply (B64_one a b _ va vb (vb mod 16)); auto; [apply Z.mod_pos_bound; lia|].
      rewrite code_chr by (Z.to_euclidean_division_equations; lia). Z.to_euclidean_division_equations. lia. }
    destruct (b64_val c) as [vc|] eqn:C; [|discriminate]. apply sextet_iff in C. pose proof (proj1 (sextet_bound c vc C)) as RC.
    destruct (beqc d "=") eqn:ED.
    { destruct r; [|discriminate]. injection H as <-. apply beqc_eq in ED. subst d.
      apply (B64_two a b c _ _ va vb vc (vc mod 4)); auto; [apply Z.mod_pos_bound; lia|].
      rewrite !code_chr by (Z.to_euclidean_division_equations; lia). Z.to_euclidean_division_equations. lia. }
    destruct (b64_val d) as [vd|] eqn:D; [|discriminate]. apply sextet_iff in D. pose proof (proj1 (sextet_bound d vd D)) as RD.
    destruct (b64_dec r) as [o|] eqn:R; [|discriminate]. injection H as <-. apply IH in R; [|cbn [length] in L; lia].
    apply (B64_three a b c d _ _ _ va vb vc vd); auto.
    rewrite !code_chr by (Z.to_euclidean_division_equations; lia). Z.to_euclidean_division_equations. lia.
  - intros H. destruct H as [|a b x va vb junk A B J V|a b c x y va vb vc junk A B C J V|a b c d x y z va vb vc vd s out A B C D V H].
    + reflexivity.
    + pose proof (proj1 (sextet_bound a va A)) as RA. pose proof (proj1 (sextet_bound b vb B)) as RB. apply sextet_iff in A, B.
      pose proof (code_range x) as RX. cbn [app bs list_ascii_of_string b64_dec]. rewrite A, B. change (beqc "=" "=") with true. cbv iota.
      f_equal. f_equal. rewrite <- (chr_code x). f_equal. Z.to_euclidean_division_equations. lia.
    + pose proof (proj1 (sextet_bound a va A)) as RA. pose proof (proj1 (sextet_bound b vb B)) as RB. destruct (sextet_bound c vc C) as [RC EC].
      apply sextet_iff in A, B, C. pose proof (code_range x) as RX. pose proof (code_range y) as RY.
      cbn [app bs list_ascii_of_string b64_dec]. rewrite A, B, C, EC. change (beqc "=" "=") with true. cbv iota.
      assert (X : va * 4 + vb / 16 = code x) by (Z.to_euclidean_division_equations; lia).
      assert (Y : vb mod 16 * 16 + vc / 4 = code y) by (Z.to_euclidean_division_equations; lia).
      rewrite X, Y, !chr_code. reflexivity.
    + pose proof (proj1 (sextet_bound a va A)) as RA. pose proof (proj1 (sextet_bound b vb B)) as RB. destruct (sextet_bound c vc C) as [RC EC].
      destruct (sextet_bound d vd D) as [RD ED]. apply sextet_iff in A, B, C, D.
      pose proof (code_range x) as RX. pose proof (code_range y) as RY. pose proof (code_range z) as RZ.
      apply IH in H; [|cbn [length] in L; lia]. cbn [b64_dec]. rewrite A, B, EC, C, ED, D, H.
      assert (X : va * 4 + vb / 16 = code x) by (Z.to_euclidean_division_equations; lia).
      assert (Y : vb mod 16 * 16 + vc / 4 = code y) by (Z.to_euclidean_division_equations; lia).
      assert (Z' : vc mod 4 * 64 + vd = code z) by (Z.to_euclidean_division_equations; lia).
      rewrite X, Y, Z', !chr_code. reflexivity.
Qed.

Lemma breaks_iff s : forall r, no_breaks s r <-> filter (fun c => negb (beqc c CR || beqc c LF)) s = r.
Proof.
  induction s as [|c s IH]; intros r; cbn [filter].
  - split; [intros H; inversion H; reflexivity|intros <-; constructor].
  - assert (CL : beqc c CR || beqc c LF = (code c =? 13) || (code c =? 10)) by (rewrite !beqc_code; reflexivity).
    rewrite CL. clear CL. split.
    + intros H. inversion H as [|c' s' r' E H' X1 X2|c' s' r' E1 E2 H' X1 X2]; subst.
      * destruct ((code c =? 13) || (code c =? 10)) eqn:F; [|lia]. cbn [negb]. apply IH. exact H'.
      * destruct ((code c =? 13) || (code c =? 10)) eqn:F; [lia|]. cbn [negb]. f_equal. apply IH. exact H'.
    + destruct ((code c =? 13) || (code c =? 10)) eqn:F; cbn [negb]; intros <-.
      * apply NB_skip; [lia|]. apply IH. reflexivity.
      * apply NB_keep; [lia|lia|]. apply IH. reflexivity.
Qed.

Theorem binary_lang m s v : value_decode KBinary m s = Ok v <->
  pmap_get m (bs "ENCODING") = Some (bs "BASE64") /\ exists r b, no_breaks s r /\ base64 r b /\ v = VBinary b.
Proof.
  unfold value_decode. rewrite rmap_ok. unfold binary_decode, b64_decode_string. split.
  - intros (b & H & ->). destruct (pmap_get m (bs "ENCODING")) as [e|]; [|discriminate]. destruct (beq e (bs "BASE64")) eqn:E; [|discriminate].
    apply beq_eq in E. subst e. split; [reflexivity|]. apply of_option_ok in H.
    exists (filter (fun c => negb (beqc c CR || beqc c LF)) s), b. split; [apply breaks_iff; reflexivity|]. split; [|reflexivity].
    eapply base64_iff; [apply Nat.le_refl|exact H].
  - intros (-> & r & b & N & B & ->). exists b. split; [|reflexivity]. change (beq (bs "BASE64") (bs "BASE64")) with true. cbv iota.
    apply breaks_iff in N. apply of_option_ok. rewrite N. eapply base64_iff; [apply Nat.le_refl|exact B].
Qed.

(** ** Dates *)
Lemma getnum_iff s n r : getnum s true = Some (n, r) <-> exists ds, s = ds ++ r /\ digits_of 2 ds n.
Proof.
  split.
  - intros H. apply getnum_inv in H as (ds & -> & L & D). exists ds. split; [reflexivity|split; assumption].
  - intros (ds & -> & D). destruct (two_shape ds n D) as (a & b & -> & A & B & <-). cbn [app getnum]. rewrite A, B. reflexivity.
Qed.

Lemma getnum_loose_iff s n r : getnum s false = Some (n, r) <->
  (exists ds, s = ds ++ r /\ digits_of 2 ds n) \/ (exists a, s = a :: r /\ is_digit a = true /\ n = code a - 48 /\ (r = [] \/ exists b r', r = b :: r' /\ is_digit b = false)).
Proof.
  split.
  - unfold getnum. destruct s as [|a [|b s]]; [discriminate| |].
    + destruct (is_digit a) eqn:A; [|discriminate]. intros H. injection H as <- <-. right. exists a. auto.
    + destruct (is_digit a) eqn:A; [|discriminate]. destruct (is_digit b) eqn:B; intros H; injection H as <- <-.
      * left. exists [a; b]. split; [reflexivity|]. replace ((code a - 48) * 10 + (code b - 48)) with (digits_val 0 [a; b]) by (cbn [digits_val]; lia).
        apply two_val_of; assumption.
      * right. exists a. split; [reflexivity|]. split; [exact A|]. split; [reflexivity|]. right. exists b, s. auto.
  - intros [H|H].
    + destruct H as (ds & -> & D). destruct (two_shape ds n D) as (a & b & -> & A & B & <-). cbn [app getnum]. rewrite A, B. reflexivity.
    + destruct H as (a & -> & A & -> & R). unfold getnum. rewrite A. destruct R as [->|R]; [reflexivity|]. destruct R as (b & r' & -> & B).
      rewrite B. reflexivity.
Qed.

Lemma ranged_iff lo hi o v r : ranged lo hi o = Some (v, r) <-> o = Some (v, r) /\ lo <= v <= hi.
Proof.
  split; [apply ranged_inv|]. intros [-> R]. unfold ranged, in_range. destruct ((lo <=? v) && (v <=? hi)) eqn:E; [reflexivity|lia].
Qed.

Lemma parse_ymd_iff s y m d r : parse_ymd s = Some (y, m, d, r) <-> exists t, s = t ++ r /\ date_text t y m d /\ real_date y m d.
Proof.
  split.
  - intros H. apply parse_ymd_inv in H as (t & E & A & B & _). exists t. auto.
  - intros (t & -> & (dy & dm & dd & -> & Ly & Lm & Ld & Dy & Dm & Dd) & R). unfold parse_ymd. rewrite <- !app_assoc.
    apply real_date_spec in R as [RM RD].
    assert (PY : parse_year (dy ++ dm ++ dd ++ r) = Some (y, dm ++ dd ++ r)).
    { apply decimal_bytes in Dy as (F & _ & V). destruct dy as [|a [|b [|c [|e [|? ?]]]]]; try discriminate Ly. cbn [app parse_year]. rewrite F, V. reflexivity. }
    rewrite PY. cbn [obind]. rewrite (proj2 (getnum_iff _ m (dd ++ r))) by (exists dm; split; [reflexivity|split; assumption]).
    unfold ranged, in_range at 1. destruct ((1 <=? m) && (m <=? 12)) eqn:E1; [|lia]. cbn [obind].
    rewrite (proj2 (getnum_iff _ d r)) by (exists dd; split; [reflexivity|split; assumption]). cbn [obind].
    unfold in_range. destruct ((1 <=? d) && (d <=? days_in m y)) eqn:E2; [reflexivity|lia].
Qed.

Lemma go_date_utc y m d h mi x ns : 1 <= m <= 12 -> go_date y m d h mi x ns LUTC = Time (86400 * day_number y m d + 3600 * h + 60 * mi + x) ns LUTC.
Proof.
  intros M. unfold go_date, lookup. cbv zeta beta iota. rewrite (day_number_spec y m d M). change (0 =? 0) with true. cbv iota. f_equal. lia.
Qed.

Theorem date_lang m s v : value_decode KDate m s = Ok v <-> exists y mo d, date_text s y mo d /\ real_date y mo d /\
  v = VDate (Time (86400 * day_number y mo d) 0 LUTC).
Proof.
  split.
  - intros H. apply date_decoded in H as (y & mo & d & A & B & _ & C). exists y, mo, d. auto.
  - intros (y & mo & d & A & B & ->). unfold value_decode. apply rmap_ok. exists (Time (86400 * day_number y mo d) 0 LUTC). split; [|reflexivity].
    unfold date_decode. apply of_option_ok. unfold parse_date.
    rewrite (proj2 (parse_ymd_iff s y mo d [])) by (exists s; rewrite app_nil_r; auto). cbn [obind].
    apply real_date_spec in B as [RM _]. rewrite go_date_utc by exact RM. f_equal. f_equal. lia.
Qed.

(** ** Times of day *)
Lemma frac_value n k : (k <= 9)%nat -> n * 10 ^ (9 - Z.of_nat k) = n * 10 ^ 9 / 10 ^ Z.of_nat k.
Proof.
  intros L. replace (10 ^ 9) with (10 ^ (9 - Z.of_nat k) * 10 ^ Z.of_nat k) by (rewrite <- Z.pow_add_r by lia; f_equal; lia).
  rewrite Z.mul_assoc, Z.div_mul; [reflexivity|]. apply Z.pow_nonzero; lia.
Qed.

Lemma frac_cut ds : forallb is_digit ds = true ->
  digits_val 0 (firstn 9 ds) * 10 ^ (9 - Z.of_nat (length (firstn 9 ds))) = digits_val 0 ds * 10 ^ 9 / 10 ^ Z.of_nat (length ds).
Proof.
  intros F. destruct (Nat.leb_spec (length ds) 9) as [L|L].
  - rewrite firstn_all2 by exact L. apply frac_value. exact L.
  - rewrite firstn_length, Nat.min_l by lia. change (9 - Z.of_nat 9) with 0. change (10 ^ 0) with 1. rewrite Z.mul_1_r.
    rewrite <- (firstn_skipn 9 ds) at 2. rewrite digits_val_app, (digits_val_acc (skipn 9 ds)).
    assert (FS : forallb is_digit (skipn 9 ds) = true).
    { rewrite <- (firstn_skipn 9 ds) in F. rewrite forallb_app in F. apply andb_true_iff in F as [_ F]. exact F. }
    pose proof (digits_val_bound _ FS) as B. rewrite skipn_length in *. remember (length ds - 9)%nat as k.
    replace (10 ^ Z.of_nat (length ds)) with (10 ^ Z.of_nat k * 10 ^ 9) by (rewrite <- Z.pow_add_r by lia; f_equal; lia).
    rewrite Z.div_mul_cancel_r by (try apply Z.pow_nonzero; lia).
    apply (Z.div_unique_pos _ _ _ (digits_val 0 (skipn 9 ds))); lia.
Qed.

(** The fraction, and what is left after it: nothing that could continue it. *)
Definition frac_stop (r : bytes) : Prop := match r with c :: _ => is_digit c = false | [] => True end.
Lemma parse_frac_iff r ns q : (q = [] \/ q = bs "Z") -> parse_frac r = (ns, q) <-> exists f, r = f ++ q /\ fraction f ns.
Proof.
  intros Q. split.
  - unfold parse_frac. destruct r as [|p [|d r]].
    + intros H. injection H as <- <-. exists []. split; [reflexivity|left; auto].
    + intros H. injection H as <- <-. exists []. split; [reflexivity|left; auto].
    + destruct (_ && is_digit d) eqn:E.
      * cbn [tl]. apply andb_true_iff in E as [E D]. destruct (span is_digit (d :: r)) as [ds r'] eqn:SP.
        pose proof (span_app is_digit (d :: r)) as S1. rewrite SP in S1. destruct S1 as (S1 & S2 & S3).
        intros H. injection H as <- <-. exists (p :: ds). split; [cbn [app]; rewrite S1; reflexivity|]. right.
        exists p, ds, (digits_val 0 ds). split; [reflexivity|]. split; [apply orb_true_iff in E as [E|E]; apply beqc_eq in E; auto|].
        assert (NE : ds <> []) by (intros ->; cbn [span] in SP; rewrite D in SP; destruct (span is_digit r); discriminate).
        split; [apply digits_decimal; [exact NE|exact S2]|]. apply frac_cut. exact S2.
      * intros H. injection H as <- <-. exists []. split; [reflexivity|left; auto].
  - intros (f & -> & [F|F]).
    + destruct F as [-> ->]. cbn [app]. destruct Q as [->| ->]; reflexivity.
    + destruct F as (c & ds & n & -> & C & D & ->). apply decimal_bytes in D as (F & NE & V). destruct ds as [|d ds]; [contradiction|].
      cbn [app parse_frac]. cbn [forallb] in F. pose proof (proj1 (andb_prop _ _ F)) as FD. rewrite FD, andb_true_r.
      replace (beqc c "." || beqc c ",") with true by (destruct C as [->| ->]; reflexivity). cbn [tl].
      change (d :: ds ++ q) with ((d :: ds) ++ q). rewrite (span_all is_digit); [|exact F|destruct Q as [->| ->]; [exact Logic.I|reflexivity]].
      rewrite frac_cut by exact F. rewrite V. reflexivity.
Qed.

Lemma parse_hms_iff s h mi x ns q : (q = [] \/ q = bs "Z") ->
  parse_hms s = Some (h, mi, x, ns, q) <-> exists c, s = c ++ q /\ clock_text c h mi x ns.
Proof.
  intros Q. unfold parse_hms. split.
  - intros H. apply obind_some in H as ([h' s1] & H1 & H). apply ranged_inv in H1 as [H1 RH].
    apply obind_some in H as ([m' s2] & H2 & H). apply ranged_inv in H2 as [H2 RM].
    apply obind_some in H as ([x' s3] & H3 & H). apply ranged_inv in H3 as [H3 RX].
    destruct (parse_frac s3) as [ns' s4] eqn:FR. injection H as -> -> -> -> ->.
    apply (parse_frac_iff s3 ns q Q) in FR as (f & -> & FR).
    apply getnum_iff in H2 as (mm & -> & DM). apply getnum_iff in H3 as (ss & -> & DX).
    apply getnum_loose_iff in H1 as [H1|H1].
    + destruct H1 as (hh & -> & DH). exists (hh ++ mm ++ ss ++ f). split; [rewrite <- !app_assoc; reflexivity|].
      exists (hh ++ mm ++ ss), f. split; [rewrite <- !app_assoc; reflexivity|]. split; [exists hh, mm, ss; auto|]. auto.
    + destruct H1 as (a & _ & _ & _ & [H1|H1]).
      * destruct (two_shape mm mi DM) as (b & c & -> & _). discriminate H1.
      * destruct H1 as (b & r & H1 & B). destruct (two_shape mm mi DM) as (b' & c & -> & B' & _). injection H1 as -> _. congruence.
  - intros (c & -> & a & f & -> & (hh & mm & ss & -> & DH & DM & DX) & RH & RM & RX & FR).
    rewrite <- !app_assoc.
    rewrite (proj2 (ranged_iff 0 23 _ h (mm ++ ss ++ f ++ q))) by (split; [apply getnum_loose_iff; left; exists hh; auto|exact RH]). cbn [obind].
    rewrite (proj2 (ranged_iff 0 59 _ mi (ss ++ f ++ q))) by (split; [apply getnum_iff; exists mm; auto|exact RM]). cbn [obind].
    rewrite (proj2 (ranged_iff 0 59 _ x (f ++ q))) by (split; [apply getnum_iff; exists ss; auto|exact RX]). cbn [obind].
    rewrite (proj2 (parse_frac_iff (f ++ q) ns q Q)) by (exists f; auto). reflexivity.
Qed.

Definition zsuffix (z : bool) : bytes := if z then bs "Z" else [].
Lemma zsuffix_ok z : zsuffix z = [] \/ zsuffix z = bs "Z".
Proof. destruct z; auto. Qed.

Lemma lit_iff c s r : lit c s = Some r <-> s = c :: r.
Proof.
  destruct s as [|a s]; cbn [lit]; [split; discriminate|]. destruct (beqc a c) eqn:E.
  - apply beqc_eq in E. subst a. split; intros H; injection H as <-; reflexivity.
  - split; [discriminate|]. intros H. injection H as -> _. rewrite beqc_refl in E. discriminate.
Qed.

Lemma zsuffix_lit (z : bool) s (P : time) k : match (if z then lit "Z"%char s else Some s) with Some [] => Some k | _ => None end = Some P <-> s = zsuffix z /\ k = P.
Proof.
  destruct z; cbn [zsuffix].
  - destruct (lit "Z"%char s) as [r|] eqn:L.
    + apply lit_iff in L. subst s. destruct r; [split; [intros H; injection H as <-; auto|intros [_ ->]; reflexivity]|split; [discriminate|intros [H _]; discriminate]].
    + split; [discriminate|]. intros [-> _]. discriminate L.
  - destruct s; [split; [intros H; injection H as <-; auto|intros [_ ->]; reflexivity]|split; [discriminate|intros [H _]; discriminate]].
Qed.

Lemma parse_datetime_iff z s l t : parse_datetime z s l = Some t <->
  exists d c y mo da h mi x ns, s = d ++ bs "T" ++ c ++ zsuffix z /\ date_text d y mo da /\ real_date y mo da /\ clock_text c h mi x ns /\
    t = go_date y mo da h mi x ns l.
Proof.
  unfold parse_datetime. split.
  - intros H. apply obind_some in H as ([[[y mo] da] s1] & H1 & H). apply parse_ymd_iff in H1 as (d & -> & DT & RD).
    apply obind_some in H as (s2 & H2 & H). apply lit_iff in H2. subst s1.
    apply obind_some in H as ([[[[h mi] x] ns] s3] & H3 & H).
    assert (Z3 : s3 = zsuffix z /\ go_date y mo da h mi x ns l = t).
    { apply zsuffix_lit. destruct z; cbn [obind] in H; [destruct (lit "Z"%char s3); [exact H|discriminate]|exact H]. }
    destruct Z3 as [-> <-]. apply parse_hms_iff in H3 as (c & -> & C); [|apply zsuffix_ok].
    exists d, c, y, mo, da, h, mi, x, ns. auto.
  - intros (d & c & y & mo & da & h & mi & x & ns & -> & DT & RD & C & ->).
    rewrite (proj2 (parse_ymd_iff _ y mo da (bs "T" ++ c ++ zsuffix z))) by (exists d; auto). cbn [obind].
    change (bs "T" ++ c ++ zsuffix z) with ("T"%char :: c ++ zsuffix z). cbn [lit]. change (beqc "T" "T") with true. cbn [obind].
    rewrite (proj2 (parse_hms_iff (c ++ zsuffix z) h mi x ns (zsuffix z) (zsuffix_ok z))) by (exists c; auto). cbn [obind].
    destruct z; reflexivity.
Qed.

Lemma parse_clock_iff z s l t : parse_clock z s l = Some t <->
  exists c h mi x ns, s = c ++ zsuffix z /\ clock_text c h mi x ns /\ t = go_date 0 1 1 h mi x ns l.
Proof.
  unfold parse_clock. split.
  - intros H. apply obind_some in H as ([[[[h mi] x] ns] s3] & H3 & H).
    assert (Z3 : s3 = zsuffix z /\ go_date 0 1 1 h mi x ns l = t).
    { apply zsuffix_lit. destruct z; cbn [obind] in H; [destruct (lit "Z"%char s3); [exact H|discriminate]|exact H]. }
    destruct Z3 as [-> <-]. apply parse_hms_iff in H3 as (c & -> & C); [|apply zsuffix_ok].
    exists c, h, mi, x, ns. auto.
  - intros (c & h & mi & x & ns & -> & C & ->).
    rewrite (proj2 (parse_hms_iff (c ++ zsuffix z) h mi x ns (zsuffix z) (zsuffix_ok z))) by (exists c; auto). cbn [obind].
    destruct z; reflexivity.
Qed.

(** A time of day ends in a digit. *)
Lemma decimal_ends ds n u : decimal ds n -> ends_with "Z"%char (u ++ ds) = false.
Proof.
  intros D. apply decimal_bytes in D as (F & N & _). apply digits_no_z; [|exact N]. intros c I. apply (proj1 (forallb_forall _ _) F c I).
Qed.

Lemma clock_ends c h mi x ns u : clock_text c h mi x ns -> ends_with "Z"%char (u ++ c) = false.
Proof.
  intros (a & f & -> & (hh & mm & ss & -> & _ & _ & [DX _]) & _ & _ & _ & [F|F]).
  - destruct F as [-> _]. rewrite app_nil_r. replace (u ++ hh ++ mm ++ ss) with ((u ++ hh ++ mm) ++ ss) by (rewrite <- !app_assoc; reflexivity).
    apply (decimal_ends ss x). exact DX.
  - destruct F as (p & ds & n & -> & _ & D & _).
    replace (u ++ (hh ++ mm ++ ss) ++ p :: ds) with ((u ++ hh ++ mm ++ ss ++ [p]) ++ ds) by (rewrite <- !app_assoc; reflexivity).
    apply (decimal_ends ds n). exact D.
Qed.

Lemma ends_z s : ends_with "Z"%char (s ++ bs "Z") = true.
Proof. apply ends_with_app. Qed.

(** [ends_with] says where the text comes from. *)
Lemma ends_with_split s : ends_with "Z"%char s = true -> exists a, s = a ++ bs "Z".
Proof.
  unfold ends_with. destruct (rev s) as [|c r] eqn:E; [discriminate|]. intros H. apply beqc_eq in H. subst c. exists (rev r).
  rewrite <- (rev_involutive s), E. reflexivity.
Qed.

Lemma datetime_iff id m s t : datetime_decode id m s = Ok t <-> datetime_text id (pmap_get m (bs "TZID")) s t.
Proof.
  unfold datetime_decode, datetime_text, placed. destruct (pmap_get m (bs "TZID")) as [tz|].
  - destruct (load_location id tz) as [l|].
    + split.
      * intros H. apply of_option_ok in H. apply parse_datetime_iff in H as (d & c & y & mo & da & h & mi & x & ns & -> & A & B & C & D).
        cbn [zsuffix]. rewrite app_nil_r. exists d, c, y, mo, da, h, mi, x, ns, l. auto.
      * intros (d & c & y & mo & da & h & mi & x & ns & l' & (-> & L) & A & B & C & D). injection L as <-. apply of_option_ok, parse_datetime_iff.
        exists d, c, y, mo, da, h, mi, x, ns. cbn [zsuffix]. rewrite app_nil_r. auto.
    + split; [discriminate|]. intros (d & c & y & mo & da & h & mi & x & ns & l' & (_ & L) & _). discriminate L.
  - split.
    + destruct (ends_with "Z"%char s); intros H; apply of_option_ok in H; apply parse_datetime_iff in H as (d & c & y & mo & da & h & mi & x & ns & -> & A & B & C & D).
      * exists d, c, y, mo, da, h, mi, x, ns, LUTC. cbn [zsuffix]. split; [left; split; [rewrite <- !app_assoc; reflexivity|reflexivity]|auto].
      * exists d, c, y, mo, da, h, mi, x, ns, LLocal. cbn [zsuffix]. rewrite app_nil_r. auto.
    + intros (d & c & y & mo & da & h & mi & x & ns & l' & P & A & B & C & D). destruct P as [P|P].
      * destruct P as [-> ->]. rewrite ends_z. apply of_option_ok, parse_datetime_iff. exists d, c, y, mo, da, h, mi, x, ns. cbn [zsuffix].
        split; [rewrite <- !app_assoc; reflexivity|auto].
      * destruct P as [-> ->]. rewrite app_assoc, (clock_ends c h mi x ns _ C), <- app_assoc. apply of_option_ok, parse_datetime_iff.
        exists d, c, y, mo, da, h, mi, x, ns. cbn [zsuffix]. rewrite app_nil_r. auto.
Qed.

Theorem datetime_lang m s v : value_decode KDateTime m s = Ok v <-> exists t, datetime_text 0 (pmap_get m (bs "TZID")) s t /\ v = VDateTime t.
Proof.
  unfold value_decode. rewrite rmap_ok. split; intros (t & H & E); exists t; (split; [|exact E]); apply datetime_iff; exact H.
Qed.

Theorem time_lang m s v : value_decode KTime m s = Ok v <-> exists t, time_text (pmap_get m (bs "TZID")) s t /\ v = VTime t.
Proof.
  unfold value_decode. rewrite rmap_ok.
  assert (IFF : forall t, clock_decode m s = Ok t <-> time_text (pmap_get m (bs "TZID")) s t).
  { intros t. unfold clock_decode, time_text, placed. destruct (pmap_get m (bs "TZID")) as [tz|].
    - destruct (load_location 0 tz) as [l|].
      + split.
        * intros H. apply of_option_ok in H. apply parse_clock_iff in H as (c & h & mi & x & ns & -> & C & D).
          cbn [zsuffix]. rewrite app_nil_r. exists c, h, mi, x, ns, l. auto.
        * intros (c & h & mi & x & ns & l' & (-> & L) & C & D). injection L as <-. apply of_option_ok, parse_clock_iff.
          exists c, h, mi, x, ns. cbn [zsuffix]. rewrite app_nil_r. auto.
      + split; [discriminate|]. intros (c & h & mi & x & ns & l' & (_ & L) & _). discriminate L.
    - split.
      + destruct (ends_with "Z"%char s); intros H; apply of_option_ok in H; apply parse_clock_iff in H as (c & h & mi & x & ns & -> & C & D).
        * exists c, h, mi, x, ns, LUTC. cbn [zsuffix]. auto.
        * exists c, h, mi, x, ns, LLocal. cbn [zsuffix]. rewrite app_nil_r. auto.
      + intros (c & h & mi & x & ns & l' & P & C & D). destruct P as [P|P].
        * destruct P as [-> ->]. rewrite ends_z. apply of_option_ok, parse_clock_iff. exists c, h, mi, x, ns. auto.
        * destruct P as [-> ->]. pose proof (clock_ends c h mi x ns [] C) as E0. cbn [app] in E0. rewrite E0. apply of_option_ok, parse_clock_iff.
          exists c, h, mi, x, ns. cbn [zsuffix]. rewrite app_nil_r. auto. }
  split; intros (t & H & E); exists t; (split; [|exact E]); apply IFF; exact H.
Qed.

End LangTime.
