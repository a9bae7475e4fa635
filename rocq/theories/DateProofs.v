(** Round trips of dates, times and periods. *)
From Coq Require Import String Ascii ZArith Bool List Lia ZifyBool.
From Verif Require Import Base Lib Utf8 GoStrings Strtok Tokeniser GoTime Types SpecContent SpecDuration SpecTime NumProofs TimeProofs DurationProofs Sample.
Import ListNotations.
Local Open Scope Z_scope.

Lemma cut_app c a b : ~ In c a -> cut c (a ++ c :: b) = Some (a, b).
Proof.
  induction a as [|x a IH]; intros N; cbn [app cut].
  - rewrite beqc_refl. reflexivity.
  - destruct (beqc x c) eqn:E; [apply beqc_eq in E; subst; exfalso; apply N; left; reflexivity|].
    rewrite IH; [reflexivity|]. intros I. apply N. right. exact I.
Qed.

Lemma cut_some c s a b : cut c s = Some (a, b) -> s = a ++ c :: b /\ ~ In c a.
Proof.
  revert a b. induction s as [|x s IH]; intros a b H; cbn [cut] in H; [discriminate|].
  destruct (beqc x c) eqn:E.
  - apply beqc_eq in E. injection H as <- <-. subst. split; [reflexivity|intros []].
  - destruct (cut c s) as [[a' b']|] eqn:C; [|discriminate]. injection H as <- <-.
    destruct (IH a' b' eq_refl) as [-> N]. split; [reflexivity|]. intros [->|I]; [rewrite beqc_refl in E; discriminate|exact (N I)].
Qed.

Lemma digits_decimal ds : ds <> [] -> forallb is_digit ds = true -> decimal ds (digits_val 0 ds).
Proof. intros N D. apply decimal_spec. auto. Qed.

(** ** What the parsers accept *)
Lemma parse_year_inv s y r : parse_year s = Some (y, r) -> exists ds, s = ds ++ r /\ length ds = 4%nat /\ decimal ds y.
Proof.
  unfold parse_year. destruct s as [|a [|b [|c [|d s]]]]; try discriminate.
  destruct (forallb is_digit [a; b; c; d]) eqn:D; [|discriminate]. intros H. injection H as <- <-.
  exists [a; b; c; d]. split; [reflexivity|]. split; [reflexivity|]. apply digits_decimal; [discriminate|exact D].
Qed.

Lemma getnum_inv s n r : getnum s true = Some (n, r) -> exists ds, s = ds ++ r /\ length ds = 2%nat /\ decimal ds n.
Proof.
  unfold getnum. destruct s as [|a [|b s]]; [discriminate|destruct (is_digit a); discriminate|].
  destruct (is_digit a) eqn:A; [|discriminate]. destruct (is_digit b) eqn:B; [|discriminate]. intros H. injection H as <- <-.
  exists [a; b]. split; [reflexivity|]. split; [reflexivity|].
  replace ((code a - 48) * 10 + (code b - 48)) with (digits_val 0 [a; b]) by (cbn [digits_val]; lia).
  apply digits_decimal; [discriminate|]. cbn [forallb]. rewrite A, B. reflexivity.
Qed.

Lemma ranged_inv lo hi o v r : ranged lo hi o = Some (v, r) -> o = Some (v, r) /\ lo <= v <= hi.
Proof.
  unfold ranged, in_range. destruct o as [[v' r']|]; [|discriminate]. destruct (_ && _) eqn:E; [|discriminate].
  intros H. injection H as -> ->. split; [reflexivity|lia].
Qed.

Lemma obind_some {A B} (o : option A) (f : A -> option B) b : obind o f = Some b -> exists a, o = Some a /\ f a = Some b.
Proof. destruct o as [a|]; [|discriminate]. intros H. exists a. auto. Qed.

Lemma decimal_bound ds n : decimal ds n -> 0 <= n < 10 ^ Z.of_nat (length ds).
Proof. intros H. apply decimal_spec in H as (_ & D & <-). apply digits_val_bound, D. Qed.

Lemma parse_ymd_inv s y m d r : parse_ymd s = Some (y, m, d, r) ->
  exists t, s = t ++ r /\ date_text t y m d /\ real_date y m d /\ 0 <= y <= 9999.
Proof.
  unfold parse_ymd. intros H.
  apply obind_some in H as ([y' s1] & H1 & H). apply parse_year_inv in H1 as (dy & -> & Ly & Dy).
  apply obind_some in H as ([m' s2] & H2 & H). apply ranged_inv in H2 as [H2 RM]. apply getnum_inv in H2 as (dm & -> & Lm & Dm).
  apply obind_some in H as ([d' s3] & H3 & H). apply getnum_inv in H3 as (dd & -> & Ld & Dd).
  unfold in_range in H. destruct ((1 <=? d') && (d' <=? days_in m' y')) eqn:E; [|discriminate]. injection H as -> -> -> ->.
  exists (dy ++ dm ++ dd). split; [rewrite <- !app_assoc; reflexivity|].
  split; [exists dy, dm, dd; repeat split; auto; try apply Dy; try apply Dm; apply Dd|].
  split; [apply real_date_spec; lia|]. pose proof (decimal_bound dy y Dy) as B. rewrite Ly in B. change (10 ^ Z.of_nat 4) with 10000 in B. lia.
Qed.

Section Dates.
Context {env : Env}.

Lemma resolve_offset l w : exists u, resolve l w = w - offset_at l u.
Proof.
  unfold resolve. destruct (lookup l w) as [[off st] en] eqn:E.
  assert (O : offset_at l w = off) by (unfold offset_at; rewrite E; reflexivity).
  destruct (off =? 0) eqn:Z0; [exists w; lia|]. cbv zeta.
  destruct (_ || _); [exists (w - off); reflexivity|exists w; lia].
Qed.

Lemma date_decoded m s v : value_decode KDate m s = Ok v -> exists y mo d,
  date_text s y mo d /\ real_date y mo d /\ 0 <= y <= 9999 /\ v = VDate (Time (86400 * day_number y mo d) 0 LUTC).
Proof.
  cbn [value_decode]. unfold date_decode, parse_date. intros H.
  destruct (parse_ymd s) as [[[[y mo] d] r]|] eqn:P; [|discriminate]. cbn [obind] in H.
  destruct r; [|discriminate]. cbn [of_option rmap bind] in H. apply Ok_inj in H. subst v.
  apply parse_ymd_inv in P as (t & -> & T & R & Y). rewrite app_nil_r.
  exists y, mo, d. split; [exact T|]. split; [exact R|]. split; [exact Y|].
  rewrite go_date_resolve, resolve_utc. apply real_date_spec in R as [M _]. rewrite (day_number_spec y mo d M). f_equal. f_equal. lia.
Qed.

Lemma parse_datetime_inv z s l t : parse_datetime z s l = Some t -> t_loc t = l /\ reads_as s t.
Proof.
  unfold parse_datetime. intros H.
  apply obind_some in H as ([[[y mo] d] s1] & P & H). apply parse_ymd_inv in P as (dt & -> & T & R & Y).
  apply obind_some in H as (s2 & L & H).
  assert (E1 : s1 = bs "T" ++ s2).
  { unfold lit in L. destruct s1 as [|a s1]; [discriminate|]. destruct (beqc a "T") eqn:E; [|discriminate]. apply beqc_eq in E. injection L as ->. subst a. reflexivity. }
  apply obind_some in H as ([[[[h mi] x] ns] s3] & P & H). unfold parse_hms in P.
  apply obind_some in P as ([h' q1] & P1 & P). apply ranged_inv in P1 as [_ R1].
  apply obind_some in P as ([mi' q2] & P2 & P). apply ranged_inv in P2 as [_ R2].
  apply obind_some in P as ([x' q3] & P3 & P). apply ranged_inv in P3 as [_ R3].
  destruct (parse_frac q3) as [ns' q4]. injection P as <- <- <- <- <-.
  apply obind_some in H as (s4 & _ & H). destruct s4; [|discriminate]. injection H as <-. rewrite go_date_resolve.
  split; [reflexivity|]. destruct (resolve_offset l (days_from_civil y mo d * 86400 + h' * 3600 + mi' * 60 + x')) as [u U].
  exists y, mo, d, h', mi', x', dt, s2, u. cbn [t_sec t_loc]. rewrite U. repeat split; auto; try lia.
  - subst s1. reflexivity.
  - apply real_date_spec in R as [M _]. rewrite (day_number_spec y mo d M). lia.
Qed.

Lemma datetime_decode_inv id m s t : datetime_decode id m s = Ok t -> reads_as s t /\
  match pmap_get m (bs "TZID") with
  | Some tz => load_location id tz = Some (t_loc t)
  | None => t_loc t = if ends_with "Z"%char s then LUTC else LLocal
  end.
Proof.
  unfold datetime_decode. destruct (pmap_get m (bs "TZID")) as [tz|].
  - destruct (load_location id tz) as [l|]; [|discriminate]. intros H. apply of_option_ok in H.
    apply parse_datetime_inv in H as [L R]. subst l. auto.
  - destruct (ends_with "Z"%char s); intros H; apply of_option_ok in H; apply parse_datetime_inv in H as [L R]; auto.
Qed.

Lemma datetime_decoded m s v : value_decode KDateTime m s = Ok v -> exists t, v = VDateTime t /\ reads_as s t /\
  match pmap_get m (bs "TZID") with
  | Some tz => load_location 0 tz = Some (t_loc t)
  | None => t_loc t = if ends_with "Z"%char s then LUTC else LLocal
  end.
Proof.
  cbn [value_decode]. destruct (datetime_decode 0 m s) as [t| | |] eqn:D; try discriminate. cbn [rmap bind]. intros H.
  apply Ok_inj in H. exists t. split; [auto|]. apply (datetime_decode_inv 0 m s t D).
Qed.

(** ** Round trips *)
Lemma ends_with_app c a : ends_with c (a ++ [c]) = true.
Proof. unfold ends_with. rewrite rev_app_distr. cbn [rev app]. apply beqc_refl. Qed.

Lemma clock_no_z t u : ends_with "Z"%char (u ++ format_clock t) = false.
Proof.
  set (s := wall t mod 86400). assert (S' : 0 <= s < 86400) by (unfold s; dlia).
  unfold format_clock. fold s. rewrite !pad2 by dlia. rewrite !app_assoc.
  apply digits_no_z; [|discriminate]. intros c I. unfold two_digits in I. cbn [In] in I.
  destruct I as [<-|[<-|[]]]; apply digit_chr_digit; dlia.
Qed.

Lemma datetime_rt_utc id m sec : pmap_get m (bs "TZID") = None -> -62167219200 <= sec < 253402300800 ->
  datetime_decode id m (concat (datetime_encode (Time sec 0 LUTC))) = Ok (Time sec 0 LUTC).
Proof.
  intros M R. unfold datetime_encode, datetime_decode. cbn [t_loc concat]. rewrite M, app_nil_r.
  change (bs "Z") with ["Z"%char]. rewrite ends_with_app.
  assert (W : wall (Time sec 0 LUTC) = sec) by (unfold wall; cbn [t_sec t_loc]; unfold offset_at; cbn [lookup fst]; lia).
  pose proof (parse_datetime_format true (Time sec 0 LUTC) LUTC) as P. rewrite W in P. cbn [bs list_ascii_of_string] in P.
  rewrite P by exact R. reflexivity.
Qed.

Lemma datetime_rt_local id m sec : pmap_get m (bs "TZID") = None ->
  coherent LLocal -> bounded LLocal -> unambiguous LLocal sec -> calm LLocal sec ->
  -62167219200 <= sec + offset_at LLocal sec < 253402300800 ->
  datetime_decode id m (concat (datetime_encode (Time sec 0 LLocal))) = Ok (Time sec 0 LLocal).
Proof.
  intros M C B U K R. unfold datetime_encode, datetime_decode. cbn [t_loc concat]. rewrite M, app_nil_r.
  unfold format_datetime at 1. rewrite app_assoc, clock_no_z.
  pose proof (parse_datetime_format false (Time sec 0 LLocal) LLocal R) as P. rewrite app_nil_r in P. rewrite P.
  unfold wall. cbn [t_sec t_loc]. rewrite resolve_zone by assumption. reflexivity.
Qed.

Lemma datetime_rt_zone id m sec z : let l := LZone z id in
  pmap_get m (bs "TZID") = Some (zone_name z) -> load_location id (zone_name z) = Some l ->
  coherent l -> bounded l -> unambiguous l sec -> calm l sec ->
  -62167219200 <= sec + offset_at l sec < 253402300800 ->
  datetime_decode id m (concat (datetime_encode (Time sec 0 l))) = Ok (Time sec 0 l).
Proof.
  intros l M L C B U K R. unfold datetime_encode, datetime_decode. cbn [t_loc]. rewrite M, L. unfold l at 1. cbn [concat]. rewrite app_nil_r.
  pose proof (parse_datetime_format false (Time sec 0 l) l R) as P. rewrite app_nil_r in P. rewrite P.
  unfold wall. cbn [t_sec t_loc]. rewrite resolve_zone by assumption. reflexivity.
Qed.

Lemma moment_rt id t m : moment_good id t -> pmap_get m (bs "TZID") = zone_of t ->
  datetime_decode id m (concat (datetime_encode t)) = Ok t.
Proof.
  destruct t as [sec ns l]. unfold moment_good. cbn [t_nsec t_loc]. intros (-> & Y & G) M. unfold in_years, wall in Y. cbn [t_sec t_loc] in Y. destruct l as [| |z i].
  - apply datetime_rt_utc; [exact M|]. revert Y. unfold offset_at. cbn [lookup fst]. lia.
  - destruct G as (C & B & U & K). apply datetime_rt_local; assumption.
  - destruct G as (-> & L & _ & C & B & U & K). apply datetime_rt_zone; assumption.
Qed.
Lemma v_datetime_utc m sec : pmap_get m (bs "TZID") = None -> -62167219200 <= sec < 253402300800 ->
  value_decode KDateTime m (concat (value_encode (VDateTime (Time sec 0 LUTC)))) = Ok (VDateTime (Time sec 0 LUTC)).
Proof. intros M R. cbn [value_decode value_encode]. rewrite datetime_rt_utc by assumption. reflexivity. Qed.

Lemma v_date_utc m sec : sec mod 86400 = 0 -> -62167219200 <= sec < 253402300800 ->
  value_decode KDate m (concat (value_encode (VDate (Time sec 0 LUTC)))) = Ok (VDate (Time sec 0 LUTC)).
Proof.
  intros Z0 R. cbn [value_decode value_encode]. unfold date_encode, date_decode. cbn [concat]. rewrite app_nil_r.
  assert (W : wall (Time sec 0 LUTC) = sec) by (unfold wall; cbn [t_sec t_loc]; unfold offset_at; cbn [lookup fst]; lia).
  pose proof (parse_date_format (Time sec 0 LUTC)) as P. rewrite W in P. rewrite P by exact R. rewrite Z0, Z.sub_0_r. reflexivity.
Qed.

Lemma v_datetime_zoned m sec z : let l := LZone z 0 in
  pmap_get m (bs "TZID") = Some (zone_name z) -> load_location 0 (zone_name z) = Some l ->
  coherent l -> bounded l -> unambiguous l sec -> calm l sec ->
  -62167219200 <= sec + offset_at l sec < 253402300800 ->
  value_decode KDateTime m (concat (value_encode (VDateTime (Time sec 0 l)))) = Ok (VDateTime (Time sec 0 l)).
Proof. intros l M L C B U K R. cbn [value_decode value_encode]. pose proof (datetime_rt_zone 0 m sec z M L C B U K R) as P.
  fold l in P. rewrite P. reflexivity.
Qed.

Lemma v_datetime_local m sec : pmap_get m (bs "TZID") = None ->
  coherent LLocal -> bounded LLocal -> unambiguous LLocal sec -> calm LLocal sec ->
  -62167219200 <= sec + offset_at LLocal sec < 253402300800 ->
  value_decode KDateTime m (concat (value_encode (VDateTime (Time sec 0 LLocal)))) = Ok (VDateTime (Time sec 0 LLocal)).
Proof. intros M C B U K R. cbn [value_decode value_encode]. rewrite datetime_rt_local by assumption. reflexivity. Qed.

(** Times of day: the first of January of year 0, in UTC. *)
Lemma v_time_utc m sec : pmap_get m (bs "TZID") = None -> -62167219200 <= sec < -62167132800 ->
  value_decode KTime m (concat (value_encode (VTime (Time sec 0 LUTC)))) = Ok (VTime (Time sec 0 LUTC)).
Proof.
  intros M R. cbn [value_decode value_encode]. unfold clock_encode, clock_decode. cbn [t_loc concat]. rewrite M, app_nil_r.
  change (bs "Z") with ["Z"%char]. rewrite ends_with_app.
  assert (W : wall (Time sec 0 LUTC) = sec) by (unfold wall; cbn [t_sec t_loc]; unfold offset_at; cbn [lookup fst]; lia).
  pose proof (parse_clock_format true (Time sec 0 LUTC) LUTC) as P. rewrite W in P. cbn [bs list_ascii_of_string] in P.
  rewrite P by exact R. reflexivity.
Qed.

(** ** Characters of dates *)
Definition tchar (c : byte) : bool := is_digit c || beqc c "T" || beqc c "Z".

Lemma tchar_value c : tchar c = true -> value_char c = true /\ c <> "/"%char /\ c <> "P"%char /\ c <> "+"%char /\ c <> ";"%char /\ c <> "="%char /\ c <> ","%char.
Proof.
  intros H. pose proof (byte_forall (fun c => implb (tchar c) (value_char c && negb (inset c (bs "/P+;=,")))) ltac:(vm_compute; reflexivity) c) as B.
  cbv beta in B. rewrite H in B. cbn [implb] in B. apply andb_true_iff in B as [B1 B2]. split; [exact B1|].
  apply negb_true_iff, inset_nIn in B2. cbn [bs list_ascii_of_string In] in B2.
  repeat split; intros ->; apply B2; tauto.
Qed.

Lemma two_chars n : 0 <= n < 100 -> forallb tchar (two_digits n) = true.
Proof. intros H. unfold two_digits, tchar. cbn [forallb]. rewrite !digit_chr_digit by dlia. reflexivity. Qed.

Lemma format_date_chars t : -62167219200 <= wall t < 253402300800 -> forallb tchar (format_date t) = true.
Proof.
  intros W. destruct (wall_parts _ W) as (y & m & d & h & mi & s & S' & Y & M & D & H & MI & SS & V).
  rewrite (format_date_text t y m d h mi s) by auto. pose proof (days_in_le m y).
  unfold ymd_text. rewrite !forallb_app, !two_chars by dlia. reflexivity.
Qed.

Lemma format_clock_chars t : forallb tchar (format_clock t) = true.
Proof.
  set (s := wall t mod 86400). assert (S' : 0 <= s < 86400) by (unfold s; dlia).
  unfold format_clock. fold s. rewrite !pad2 by dlia. rewrite !forallb_app, !two_chars by dlia. reflexivity.
Qed.

Lemma datetime_chars t : -62167219200 <= wall t < 253402300800 -> forallb tchar (concat (datetime_encode t)) = true.
Proof.
  intros W. unfold datetime_encode, format_datetime. cbn [concat]. rewrite app_nil_r.
  destruct (t_loc t); rewrite ?forallb_app, format_date_chars, format_clock_chars by exact W; reflexivity.
Qed.

Lemma datetime_head t : -62167219200 <= wall t < 253402300800 -> exists c r, concat (datetime_encode t) = c :: r.
Proof.
  intros W. unfold datetime_encode, format_datetime. cbn [concat]. destruct (wall_parts _ W) as (y & m & d & h & mi & s & S' & Y & M & D & H & MI & SS & V).
  rewrite (format_date_text t y m d h mi s) by auto. unfold ymd_text, two_digits.
  destruct (t_loc t); cbn [app]; eexists _, _; reflexivity.
Qed.

(** ** Periods *)

Lemma slash_notin t : in_years t -> ~ In "/"%char (concat (datetime_encode t)).
Proof.
  intros W I. pose proof (datetime_chars t W) as C. rewrite forallb_forall in C.
  specialize (C _ I). apply tchar_value in C as (_ & N & _). apply N. reflexivity.
Qed.

(** The two halves of a period are decoded with the location ids 0 and 1. *)
Lemma period_rt_end m p : in_years (p_start p) -> in_years (p_end p) -> is_zero (p_end p) = false -> p_dur p = zero_duration ->
  datetime_decode 0 m (concat (datetime_encode (p_start p))) = Ok (p_start p) ->
  datetime_decode 1 m (concat (datetime_encode (p_end p))) = Ok (p_end p) ->
  period_decode m (concat (period_encode p)) = Ok p.
Proof.
  intros Ws We Z0 D0 Ds De. unfold period_encode. rewrite Z0, !concat_app. cbn [concat]. rewrite app_nil_r.
  change (bs "/") with ["/"%char]. cbn [app]. unfold period_decode. rewrite cut_app by (apply slash_notin, Ws).
  destruct (datetime_head (p_end p) We) as (c & r & E). rewrite E. cbv iota. rewrite Ds. cbn [bind].
  assert (C : beqc c "P" || beqc c "+" = false).
  { pose proof (datetime_chars (p_end p) We) as C. rewrite E in C. cbn [forallb] in C. apply andb_true_iff in C as [C _].
    apply tchar_value in C as (_ & _ & NP & NQ & _). apply orb_false_iff. split; apply beqc_neq; assumption. }
  rewrite C, <- E, De. cbn [bind]. destruct p; cbn in *; subst. reflexivity.
Qed.

Lemma period_rt_dur m p : in_years (p_start p) -> p_end p = zero_time -> d_neg (p_dur p) = false -> dur_fits (p_dur p) -> dur_plain (p_dur p) ->
  datetime_decode 0 m (concat (datetime_encode (p_start p))) = Ok (p_start p) ->
  period_decode m (concat (period_encode p)) = Ok p.
Proof.
  intros Ws Z0 N F P Ds. unfold period_encode. rewrite Z0. change (is_zero zero_time) with true. cbv iota. rewrite !concat_app. cbn [concat]. rewrite app_nil_r.
  change (bs "/") with ["/"%char]. cbn [app]. unfold period_decode. rewrite cut_app by (apply slash_notin, Ws).
  pose proof (duration_roundtrip _ F P) as R.
  assert (H : exists r, concat (duration_encode (p_dur p)) = "P"%char :: r).
  { unfold duration_encode. rewrite N. cbn [concat app bs list_ascii_of_string]. eexists. reflexivity. }
  destruct H as [r E]. rewrite E in R |- *. cbv iota. rewrite Ds. cbn [bind]. change (beqc "P" "P" || beqc "P" "+") with true. cbv iota.
  rewrite R. cbn [bind]. destruct p; cbn in *; subst. reflexivity.
Qed.

Lemma utc_years t : utc_in_years t -> in_years t.
Proof. intros (sec & -> & R). unfold in_years, wall. cbn [t_sec t_loc]. unfold offset_at. cbn [lookup fst]. lia. Qed.

Lemma v_period_utc m p : pmap_get m (bs "TZID") = None -> value_valid (VPeriod p) = None -> utc_in_years (p_start p) ->
  (utc_in_years (p_end p) /\ is_zero (p_end p) = false /\ p_dur p = zero_duration) \/
  (p_end p = zero_time /\ dur_fits (p_dur p) /\ dur_plain (p_dur p)) ->
  value_decode KPeriod m (concat (value_encode (VPeriod p))) = Ok (VPeriod p).
Proof.
  intros M V S' C. cbn [value_decode value_encode]. pose proof (utc_years _ S') as Ws.
  assert (Ds : datetime_decode 0 m (concat (datetime_encode (p_start p))) = Ok (p_start p)).
  { destruct S' as (sec & E & R). rewrite E. apply datetime_rt_utc; assumption. }
  destruct C as [(Ue & Z0 & D0)|(Z0 & F & P)].
  - rewrite period_rt_end; auto; [apply utc_years, Ue|]. destruct Ue as (sec & E & R). rewrite E. apply datetime_rt_utc; assumption.
  - rewrite period_rt_dur; auto. cbn [value_valid] in V. unfold period_valid in V. rewrite Z0 in V. change (is_zero zero_time) with true in V. cbv iota in V.
    destruct (is_zero (p_start p)); [discriminate|]. destruct (d_neg (p_dur p)); [discriminate|reflexivity].
Qed.

(** A decoded period. *)
Lemma period_decoded m s p : period_decode m s = Ok p -> exists a b, s = a ++ bs "/" ++ b /\ datetime_decode 0 m a = Ok (p_start p) /\
  ((datetime_decode 1 m b = Ok (p_end p) /\ p_dur p = zero_duration) \/
   (duration_decode b = Ok (p_dur p) /\ p_end p = zero_time /\ d_neg (p_dur p) = false)).
Proof.
  unfold period_decode. destruct (cut "/"%char s) as [[a b]|] eqn:C; [|discriminate]. apply cut_some in C as [-> _].
  destruct b as [|c b]; [discriminate|]. intros H. apply bind_ok in H as (st & D & H).
  exists a, (c :: b). split; [reflexivity|].
  destruct (beqc c "P" || beqc c "+") eqn:E.
  - apply bind_ok in H as (d & Dd & H). apply Ok_inj in H. subst p. cbn [p_start p_end p_dur]. split; [exact D|]. right.
    split; [exact Dd|]. split; [reflexivity|].
    unfold duration_decode in Dd. destruct (accept (bs "-") (new_tok (c :: b))) as [neg t] eqn:A.
    assert (neg = false).
    { unfold accept, new_tok in A. cbn [trest] in A. destruct (inset c (bs "-")) eqn:I; [|injection A as <- _; reflexivity].
      unfold inset in I. cbn [bs list_ascii_of_string existsb] in I. rewrite orb_false_r in I. apply beqc_eq in I. subst c. discriminate. }
    subst neg. destruct (accept (bs "+") t) as [x t1]. destruct (accept (bs "P") t1) as [y t2]. destruct y; [|discriminate].
    assert (G : forall f d0 level t0 d1, duration_loop f d0 level t0 = Ok d1 -> d_neg d1 = d_neg d0).
    { clear. induction f as [|f IH]; intros d0 level t0 d1; [discriminate|]. cbn [duration_loop].
      destruct (peek t0); [|destruct (level =? 0); [discriminate|intros X; apply Ok_inj in X; subst; reflexivity]].
      destruct (accept (bs "T") t0) as [isT t2]. destruct (get t2) as [g1 t3]. destruct (accept_run digits_set t3) as [mode t4].
      destruct (get t4) as [ds t5]. destruct (parse_uint 64 ds); [|discriminate]. destruct mode as [c|]; [|discriminate].
      repeat match goal with
      | |- context [if ?b then _ else _] => destruct b; try discriminate
      | |- context [accept ?a ?b] => destruct (accept a b); cbv iota
      | |- context [peek ?a] => destruct (peek a); try discriminate
      | |- duration_loop _ _ _ _ = Ok _ -> _ => intros X; apply IH in X; cbn [d_neg] in X; exact X
      | |- Ok _ = Ok _ -> _ => intros X; apply Ok_inj in X; subst; reflexivity
      end. }
    apply G in Dd. exact Dd.
  - apply bind_ok in H as (en & De & H). apply Ok_inj in H. subst p. cbn [p_start p_end p_dur]. split; [exact D|]. left. auto.
Qed.

(** With a zone, the end is in another *Location than the start. *)
Lemma period_zone_rejected m s p tz z : pmap_get m (bs "TZID") = Some tz -> load_location 0 tz = Some (LZone z 0) ->
  value_decode KPeriod m s = Ok (VPeriod p) -> is_zero (p_end p) = false -> value_valid (VPeriod p) <> None.
Proof.
  intros M L D Z0. cbn [value_decode] in D. destruct (period_decode m s) as [p'| | |] eqn:P; try discriminate. cbn [rmap bind] in D. apply Ok_inj in D. injection D as ->.
  apply period_decoded in P as (a & b & -> & D0 & [[D1 _]|(_ & E & _)]); [|rewrite E in Z0; discriminate].
  apply datetime_decode_inv in D0 as [_ L0]. apply datetime_decode_inv in D1 as [_ L1]. rewrite M in L0, L1.
  assert (L1' : load_location 1 tz = Some (LZone z 1)).
  { revert L. unfold load_location. destruct (beq tz [] || beq tz (bs "UTC")); [discriminate|]. destruct (beq tz (bs "Local")); [discriminate|].
    destruct (has_dotdot tz); [discriminate|]. destruct tz as [|c tz]; [discriminate|]. destruct (beqc c "/" || beqc c "\"); [discriminate|].
    destruct (load_zone (c :: tz)); [|discriminate]. intros Q. injection Q as <-. reflexivity. }
  rewrite L in L0. rewrite L1' in L1. injection L0 as L0. injection L1 as L1.
  cbn [value_valid]. unfold period_valid. rewrite Z0, <- L0, <- L1. cbn [loc_same Nat.eqb]. rewrite orb_true_r.
  destruct (is_zero (p_start p)); discriminate.
Qed.

(** Without, a period is accepted if its start is not the zero time and its end, if there is one, is
    after the start and written like it. *)
Lemma period_accepted m s p : value_decode KPeriod m s = Ok (VPeriod p) -> is_zero (p_start p) = false ->
  pmap_get m (bs "TZID") = None -> is_zero (p_end p) = true \/ (after (p_end p) (p_start p) = true /\ t_loc (p_end p) = t_loc (p_start p)) ->
  value_valid (VPeriod p) = None.
Proof.
  intros D S0 M H. cbn [value_decode] in D. destruct (period_decode m s) as [p'| | |] eqn:P; try discriminate. cbn [rmap bind] in D. apply Ok_inj in D. injection D as ->.
  apply period_decoded in P as (a & b & -> & D0 & C). cbn [value_valid]. unfold period_valid. rewrite S0.
  destruct H as [H|[A L]].
  - rewrite H. destruct C as [[D1 E]|(_ & _ & E)]; [rewrite E|rewrite E]; reflexivity.
  - destruct (is_zero (p_end p)) eqn:Z0.
    + destruct C as [[D1 E]|(_ & _ & E)]; [rewrite E|rewrite E]; reflexivity.
    + rewrite A, L. apply datetime_decode_inv in D0 as [_ L0]. rewrite M in L0. rewrite L0. destruct (ends_with _ a); reflexivity.
Qed.
End Dates.

(** ** Concrete cases *)
Lemma town_ok sec : let l := @LZone env0 (bs "Europe/Town") 0 in
  load_location 0 (bs "Europe/Town") = Some l /\ bounded l /\ unambiguous l sec /\ calm l sec /\ coherent l.
Proof.
  cbv zeta. assert (O : forall x, @offset_at env0 (@LZone env0 (bs "Europe/Town") 0) x = 3600) by reflexivity.
  split; [reflexivity|]. split; [intros x; rewrite O; lia|]. split; [intros u; rewrite !O; lia|].
  split; [exists 3600; intros x _; rewrite !O; auto|].
  intros x. unfold lookup, zone_lookup, env0. intros y _. apply O.
Qed.

Definition zoned_text : bytes := bs "20240301T090000/20240301T100000".
Lemma zoned_case : exists p, @value_decode env0 KPeriod [(bs "TZID", bs "Europe/Town")] zoned_text = Ok (VPeriod p) /\
  is_zero (p_end p) = false /\ after (p_end p) (p_start p) = true.
Proof. eexists. split; [vm_compute; reflexivity|]. split; reflexivity. Qed.
