(** Durations. *)
From Coq Require Import String Ascii ZArith Bool List Lia ZifyBool.
From Verif Require Import Base Lib Utf8 GoStrings Strtok Tokeniser GoTime Types NumProofs SpecDuration TokeniserProofs.
Import ListNotations.
Local Open Scope Z_scope.

Lemma decimal_val ds : forall a, fold_left (fun a c => 10 * a + (code c - 48)) ds a = digits_val a ds.
Proof. induction ds as [|c ds IH]; intros a; [reflexivity|]. cbn [fold_left digits_val]. rewrite IH. f_equal. lia. Qed.

Lemma decimal_spec ds n : decimal ds n <-> ds <> [] /\ forallb is_digit ds = true /\ digits_val 0 ds = n.
Proof.
  unfold decimal, decimal_value. rewrite decimal_val, Forall_forall, forallb_forall. unfold is_digit.
  split; intros (A & B & C); (split; [exact A|]); split; auto; intros c I; specialize (B c I); lia.
Qed.

Lemma decimal_parse ds n : decimal ds n -> n < 2 ^ 64 -> parse_uint 64 ds = Some n.
Proof.
  intros D L. apply decimal_spec in D as (N & D & V). unfold parse_uint. destruct ds; [contradiction|].
  rewrite D, V. cbv zeta. destruct (n <? 2 ^ 64) eqn:E; [reflexivity|lia].
Qed.

Lemma parse_decimal ds n : parse_uint 64 ds = Some n -> decimal ds n /\ 0 <= n < 2 ^ 64.
Proof. intros H. apply parse_uint_range in H as (R & D & N & V). split; [|exact R]. apply decimal_spec. auto. Qed.

Lemma decimal_nonneg ds n : decimal ds n -> 0 <= n.
Proof. intros D. apply decimal_spec in D as (N & D & <-). apply digits_val_bound in D. lia. Qed.

Lemma itoa_decimal n : 0 <= n < 2 ^ 64 -> decimal (itoa n) n.
Proof. intros H. destruct (itoa_spec n H) as (_ & _ & P). apply parse_decimal in P as [P _]. exact P. Qed.

(** One round of the loop. *)
Definition drop_T (s : bytes) : bool * bytes :=
  match s with c :: r => if beqc c "T" then (true, r) else (false, s) | [] => (false, s) end.

Lemma loop_S f d level b s : duration_loop (S f) d level (Tok b s) =
  match s with
  | [] => if level =? 0 then Err ErrInvalidDuration else Ok d
  | _ =>
    let (isT, s1) := drop_T s in
    let level := if isT then 1 else level in
    let (ds, r) := span is_digit s1 in
    match parse_uint 64 ds with
    | None => Err ErrStd
    | Some num =>
      match r with
      | [] => Err ErrInvalidDuration
      | c :: r' =>
          if beqc c "W" then
            if 0 <? level then Err ErrInvalidDuration
            else match r' with
              | _ :: _ => Err ErrInvalidDuration
              | [] => Ok (Duration (d_neg d) num (d_days d) (d_hours d) (d_minutes d) (d_seconds d))
              end
          else if beqc c "D" then
            if 0 <? level then Err ErrInvalidDuration
            else duration_loop f (Duration (d_neg d) (d_weeks d) num (d_hours d) (d_minutes d) (d_seconds d)) 1 (Tok [c] r')
          else if beqc c "H" then
            if 1 <? level then Err ErrInvalidDuration
            else duration_loop f (Duration (d_neg d) (d_weeks d) (d_days d) num (d_minutes d) (d_seconds d)) 2 (Tok [c] r')
          else if beqc c "M" then
            if 2 <? level then Err ErrInvalidDuration
            else duration_loop f (Duration (d_neg d) (d_weeks d) (d_days d) (d_hours d) num (d_seconds d)) 3 (Tok [c] r')
          else if beqc c "S" then
            if 3 <? level then Err ErrInvalidDuration
            else match r' with
              | _ :: _ => Err ErrInvalidDuration
              | [] => duration_loop f (Duration (d_neg d) (d_weeks d) (d_days d) (d_hours d) (d_minutes d) num) level (Tok [c] [])
              end
          else Err ErrInvalidDuration
      end
    end
  end.
Proof.
  cbn [duration_loop peek trest]. destruct s as [|c0 s]; [reflexivity|].
  assert (A : accept (bs "T") (Tok b (c0 :: s)) = let (isT, s1) := drop_T (c0 :: s) in (isT, Tok (if isT then b ++ [c0] else b) s1)).
  { unfold accept, drop_T. cbn [trest tbuf inset existsb bs list_ascii_of_string]. rewrite orb_false_r.
    destruct (beqc c0 "T"); reflexivity. }
  rewrite A. destruct (drop_T (c0 :: s)) as [isT s1]. cbn [get trest tbuf].
  rewrite (accept_run_spec _ is_digit) by apply digits_char. cbn [get tbuf trest app].
  destruct (span is_digit s1) as [ds r]. cbn [fst snd]. destruct (parse_uint 64 ds) as [num|]; [|reflexivity].
  destruct r as [|c r']; cbn [pk]; [reflexivity|].
  destruct (beqc c "W") eqn:EW.
  { apply beqc_eq in EW. subst c. rewrite accept_hit by reflexivity. cbn [peek trest app]. destruct (0 <? _); [reflexivity|].
    destruct r'; reflexivity. }
  destruct (beqc c "D") eqn:ED.
  { apply beqc_eq in ED. subst c. rewrite accept_hit by reflexivity. reflexivity. }
  destruct (beqc c "H") eqn:EH.
  { apply beqc_eq in EH. subst c. rewrite accept_hit by reflexivity. reflexivity. }
  destruct (beqc c "M") eqn:EM.
  { apply beqc_eq in EM. subst c. rewrite accept_hit by reflexivity. reflexivity. }
  destruct (beqc c "S") eqn:ES; [|reflexivity].
  apply beqc_eq in ES. subst c. rewrite accept_hit by reflexivity. cbn [peek trest app]. destruct (3 <? _); [reflexivity|].
  destruct r'; reflexivity.
Qed.

(** Digits and a letter. *)
Lemma span_digits ds n c r : decimal ds n -> is_digit c = false -> span is_digit (ds ++ c :: r) = (ds, c :: r).
Proof. intros D C. apply decimal_spec in D as (_ & D & _). apply span_all; auto. Qed.

Lemma drop_T_digits ds n r : decimal ds n -> drop_T (ds ++ r) = (false, ds ++ r) /\ ds ++ r <> [].
Proof.
  intros D. apply decimal_spec in D as (N & D & _). destruct ds as [|c ds]; [contradiction|]. cbn [app drop_T].
  cbn [forallb] in D. apply andb_true_iff in D as [D _].
  pose proof (byte_forall (fun c => implb (is_digit c) (negb (beqc c "T"))) ltac:(vm_compute; reflexivity) c) as B.
  cbv beta in B. rewrite D in B. destruct (beqc c "T"); [discriminate|]. split; [reflexivity|discriminate].
Qed.

Lemma round_plain f d level b ds n c r : decimal ds n -> n < 2 ^ 64 -> is_digit c = false ->
  duration_loop (S f) d level (Tok b (ds ++ c :: r)) =
  if beqc c "W" then
    if 0 <? level then Err ErrInvalidDuration
    else match r with
      | _ :: _ => Err ErrInvalidDuration
      | [] => Ok (Duration (d_neg d) n (d_days d) (d_hours d) (d_minutes d) (d_seconds d))
      end
  else if beqc c "D" then
    if 0 <? level then Err ErrInvalidDuration
    else duration_loop f (Duration (d_neg d) (d_weeks d) n (d_hours d) (d_minutes d) (d_seconds d)) 1 (Tok [c] r)
  else if beqc c "H" then
    if 1 <? level then Err ErrInvalidDuration
    else duration_loop f (Duration (d_neg d) (d_weeks d) (d_days d) n (d_minutes d) (d_seconds d)) 2 (Tok [c] r)
  else if beqc c "M" then
    if 2 <? level then Err ErrInvalidDuration
    else duration_loop f (Duration (d_neg d) (d_weeks d) (d_days d) (d_hours d) n (d_seconds d)) 3 (Tok [c] r)
  else if beqc c "S" then
    if 3 <? level then Err ErrInvalidDuration
    else match r with
      | _ :: _ => Err ErrInvalidDuration
      | [] => duration_loop f (Duration (d_neg d) (d_weeks d) (d_days d) (d_hours d) (d_minutes d) n) level (Tok [c] [])
      end
  else Err ErrInvalidDuration.
Proof.
  intros D L C. rewrite loop_S. destruct (drop_T_digits ds n (c :: r) D) as [E N]. rewrite E.
  rewrite (span_digits ds n c r D C), (decimal_parse ds n D L).
  destruct (ds ++ c :: r); [contradiction|reflexivity].
Qed.

Lemma round_T f d level b s : s <> [] -> fst (drop_T s) = false ->
  duration_loop (S f) d level (Tok b ("T"%char :: s)) = duration_loop (S f) d 1 (Tok [] s).
Proof.
  intros N H. rewrite !loop_S. unfold drop_T at 1. change (beqc "T" "T") with true. cbv iota.
  destruct s as [|c s]; [contradiction|]. unfold drop_T in *. destruct (beqc c "T"); [discriminate|]. reflexivity.
Qed.

Lemma end_loop f d level b : level <> 0 -> duration_loop (S f) d level (Tok b []) = Ok d.
Proof. intros H. rewrite loop_S. destruct (level =? 0) eqn:E; [lia|reflexivity]. Qed.

Lemma loop_second t s : dur_second t s -> s < 2 ^ 64 -> forall f d level b, 0 < level <= 3 -> (length t < f)%nat ->
  duration_loop f d level (Tok b t) = Ok (Duration (d_neg d) (d_weeks d) (d_days d) (d_hours d) (d_minutes d) s).
Proof.
  intros [ds n D] L f d level b R F. destruct f as [|f]; [lia|]. change (bs "S") with ["S"%char].
  rewrite (round_plain f d level b ds n "S" [] D L eq_refl). cbn [beqc]. change (beqc "S" "S") with true.
  change (beqc "S" "W") with false. change (beqc "S" "D") with false. change (beqc "S" "H") with false. change (beqc "S" "M") with false.
  cbv iota. destruct (3 <? level) eqn:E; [lia|].
  rewrite app_length in F. cbn [length bs list_ascii_of_string] in F. destruct f as [|f]; [lia|]. apply end_loop. lia.
Qed.

Lemma loop_minute t m s : dur_minute t m s -> m < 2 ^ 64 -> s < 2 ^ 64 -> forall f d level b, 0 < level <= 2 -> d_seconds d = 0 -> (length t < f)%nat ->
  duration_loop f d level (Tok b t) = Ok (Duration (d_neg d) (d_weeks d) (d_days d) (d_hours d) m s).
Proof.
  intros [ds n D|ds n t' s' D T] LM LS f d level b R Z F; (destruct f as [|f]; [lia|]).
  - change (bs "M") with ["M"%char]. rewrite (round_plain f d level b ds n "M" [] D LM eq_refl).
    change (beqc "M" "W") with false. change (beqc "M" "D") with false. change (beqc "M" "H") with false. change (beqc "M" "M") with true.
    cbv iota. destruct (2 <? level) eqn:E; [lia|].
    rewrite app_length in F. cbn [length bs list_ascii_of_string] in F. destruct f as [|f]; [lia|].
    rewrite Z. apply end_loop. lia.
  - change (bs "M" ++ t') with ("M"%char :: t'). rewrite (round_plain f d level b ds n "M" t' D LM eq_refl).
    change (beqc "M" "W") with false. change (beqc "M" "D") with false. change (beqc "M" "H") with false. change (beqc "M" "M") with true.
    cbv iota. destruct (2 <? level) eqn:E; [lia|].
    rewrite !app_length in F. cbn [length bs list_ascii_of_string] in F.
    rewrite (loop_second t' s' T LS) by lia. reflexivity.
Qed.

Lemma loop_hour t h m s : dur_hour t h m s -> h < 2 ^ 64 -> m < 2 ^ 64 -> s < 2 ^ 64 -> forall f d level b, level = 1 -> d_minutes d = 0 -> d_seconds d = 0 -> (length t < f)%nat ->
  duration_loop f d level (Tok b t) = Ok (Duration (d_neg d) (d_weeks d) (d_days d) h m s).
Proof.
  intros [ds n D|ds n t' m' s' D T] LH LM LS f d level b R Z0 Z F; (destruct f as [|f]; [lia|]).
  - change (bs "H") with ["H"%char]. rewrite (round_plain f d level b ds n "H" [] D LH eq_refl).
    change (beqc "H" "W") with false. change (beqc "H" "D") with false. change (beqc "H" "H") with true.
    cbv iota. destruct (1 <? level) eqn:E; [lia|].
    rewrite app_length in F. cbn [length bs list_ascii_of_string] in F. destruct f as [|f]; [lia|].
    rewrite Z, Z0. apply end_loop. lia.
  - change (bs "H" ++ t') with ("H"%char :: t'). rewrite (round_plain f d level b ds n "H" t' D LH eq_refl).
    change (beqc "H" "W") with false. change (beqc "H" "D") with false. change (beqc "H" "H") with true.
    cbv iota. destruct (1 <? level) eqn:E; [lia|].
    rewrite !app_length in F. cbn [length bs list_ascii_of_string] in F.
    rewrite (loop_minute t' m' s' T LM LS) by (cbn [d_seconds]; lia). reflexivity.
Qed.

Lemma second_head t s : dur_second t s -> t <> [] /\ fst (drop_T t) = false.
Proof. intros [ds n D]. destruct (drop_T_digits ds n (bs "S") D) as [E N]. rewrite E. auto. Qed.
Lemma minute_head t m s : dur_minute t m s -> t <> [] /\ fst (drop_T t) = false.
Proof.
  intros [ds n D|ds n t' s' D T].
  - destruct (drop_T_digits ds n (bs "M") D) as [E N]. rewrite E. auto.
  - destruct (drop_T_digits ds n (bs "M" ++ t') D) as [E N]. rewrite E. auto.
Qed.
Lemma hour_head t h m s : dur_hour t h m s -> t <> [] /\ fst (drop_T t) = false.
Proof.
  intros [ds n D|ds n t' m' s' D T].
  - destruct (drop_T_digits ds n (bs "H") D) as [E N]. rewrite E. auto.
  - destruct (drop_T_digits ds n (bs "H" ++ t') D) as [E N]. rewrite E. auto.
Qed.

Lemma loop_time t h m s : dur_time t h m s -> h < 2 ^ 64 -> m < 2 ^ 64 -> s < 2 ^ 64 -> forall f d level b,
  d_hours d = 0 -> d_minutes d = 0 -> d_seconds d = 0 -> (length t <= f)%nat ->
  duration_loop f d level (Tok b t) = Ok (Duration (d_neg d) (d_weeks d) (d_days d) h m s).
Proof.
  intros [t' h' m' s' T|t' m' s' T|t' s' T] LH LM LS f d level b Z0 Z1 Z2 F;
    (destruct f as [|f]; [cbn [length bs list_ascii_of_string app] in F; lia|]); change (bs "T" ++ t') with ("T"%char :: t'); cbn [length app bs list_ascii_of_string] in F.
  - destruct (hour_head _ _ _ _ T) as [N H]. rewrite round_T by assumption.
    apply (loop_hour t' h' m' s' T); auto; lia.
  - destruct (minute_head _ _ _ T) as [N H]. rewrite round_T by assumption.
    rewrite (loop_minute t' m' s' T) by (auto; lia). rewrite Z0. reflexivity.
  - destruct (second_head _ _ T) as [N H]. rewrite round_T by assumption.
    rewrite (loop_second t' s' T) by (auto; lia). rewrite Z0, Z1. reflexivity.
Qed.

Lemma loop_body t w d h m s : dur_body t w d h m s ->
  w < 2 ^ 64 -> d < 2 ^ 64 -> h < 2 ^ 64 -> m < 2 ^ 64 -> s < 2 ^ 64 -> forall f neg b, (length t < f)%nat ->
  duration_loop f (Duration neg 0 0 0 0 0) 0 (Tok b t) = Ok (Duration neg w d h m s).
Proof.
  intros [ds n D|ds n D|ds n t' h' m' s' D T|t' h' m' s' T] LW LD LH LM LS f neg b F; (destruct f as [|f]; [lia|]).
  - change (bs "W") with ["W"%char]. rewrite (round_plain _ _ _ _ ds n "W" [] D LW eq_refl). reflexivity.
  - change (bs "D") with ["D"%char]. rewrite (round_plain _ _ _ _ ds n "D" [] D LD eq_refl).
    change (beqc "D" "W") with false. change (beqc "D" "D") with true. cbv iota. cbn [Z.ltb Z.compare].
    rewrite app_length in F. cbn [length bs list_ascii_of_string] in F. destruct f as [|f]; [lia|].
    apply end_loop. lia.
  - change (bs "D" ++ t') with ("D"%char :: t'). rewrite (round_plain _ _ _ _ ds n "D" t' D LD eq_refl).
    change (beqc "D" "W") with false. change (beqc "D" "D") with true. cbv iota. cbn [Z.ltb Z.compare].
    rewrite !app_length in F. cbn [length bs list_ascii_of_string] in F.
    rewrite (loop_time t' h' m' s' T) by (auto; lia). reflexivity.
  - rewrite (loop_time t' h' m' s' T) by (auto; cbn [length]; lia). reflexivity.
Qed.

Theorem duration_accepts t neg w d h m s : dur_value t neg w d h m s ->
  w < 2 ^ 64 -> d < 2 ^ 64 -> h < 2 ^ 64 -> m < 2 ^ 64 -> s < 2 ^ 64 ->
  duration_decode t = Ok (Duration neg w d h m s).
Proof.
  intros V LW LD LH LM LS. destruct V as [t w d h m s B|t w d h m s B|t w d h m s B]; unfold duration_decode, new_tok.
  - change (bs "-P" ++ t) with ("-"%char :: "P"%char :: t). rewrite !accept_hit by reflexivity.
    cbv iota. apply (loop_body t w d h m s B); auto; cbn [length]; lia.
  - change (bs "+P" ++ t) with ("+"%char :: "P"%char :: t). rewrite (accept_miss (bs "-")) by reflexivity.
    cbv iota. rewrite accept_hit by reflexivity. rewrite accept_hit by reflexivity. apply (loop_body t w d h m s B); auto; cbn [length]; lia.
  - change (bs "P" ++ t) with ("P"%char :: t). rewrite (accept_miss (bs "-")) by reflexivity.
    cbv iota. rewrite (accept_miss (bs "+")) by reflexivity. rewrite accept_hit by reflexivity. apply (loop_body t w d h m s B); auto; cbn [length]; lia.
Qed.

Lemma duration_encode_value d : dur_fits d ->
  dur_value (concat (duration_encode d)) (d_neg d) (d_weeks d)
    (if d_weeks d =? 0 then d_days d else 0) (if d_weeks d =? 0 then d_hours d else 0)
    (if d_weeks d =? 0 then d_minutes d else 0) (if d_weeks d =? 0 then d_seconds d else 0).
Proof.
  destruct d as [neg w dd h m s]. unfold dur_fits, duration_encode. cbn [d_neg d_weeks d_days d_hours d_minutes d_seconds concat].
  intros (W & D & H & M & S'). rewrite app_nil_r.
  set (body := if negb (w =? 0) then itoa w ++ bs "W" else _).
  assert (B : dur_body body w (if w =? 0 then dd else 0) (if w =? 0 then h else 0) (if w =? 0 then m else 0) (if w =? 0 then s else 0)).
  { unfold body. clear body. destruct (w =? 0) eqn:EW; cbn [negb]; [|apply Weeks, itoa_decimal, W].
    apply Z.eqb_eq in EW. subst w.
    assert (SS : forall x, 0 <= x < 2 ^ 64 -> dur_second (itoa x ++ bs "S") x) by (intros; constructor; apply itoa_decimal; assumption).
    assert (MM : dur_minute (itoa m ++ bs "M" ++ (if negb (s =? 0) then itoa s ++ bs "S" else [])) m s).
    { destruct (s =? 0) eqn:ES; cbn [negb].
      - apply Z.eqb_eq in ES. subst s. rewrite app_nil_r. constructor. apply itoa_decimal, M.
      - constructor; auto. apply itoa_decimal, M. }
    set (T := bs "T" ++ _).
    assert (DT : dur_time T h m s).
    { unfold T. clear T. destruct (h =? 0) eqn:EH; cbn [negb].
      - apply Z.eqb_eq in EH. subst h. destruct (m =? 0) eqn:EM; cbn [negb].
        + apply Z.eqb_eq in EM. subst m. apply TimeSecond. auto.
        + apply TimeMinute. rewrite <- app_assoc. exact MM.
      - apply TimeHour. rewrite <- !app_assoc. destruct (negb (m =? 0) || negb (s =? 0)) eqn:EMS.
        + constructor; [apply itoa_decimal, H|]. exact MM.
        + apply orb_false_iff in EMS as [E1 E2]. apply negb_false_iff in E1, E2. apply Z.eqb_eq in E1, E2. subst m s.
          rewrite app_nil_r. constructor. apply itoa_decimal, H. }
    destruct (dd =? 0) eqn:ED; cbn [negb orb app].
    - apply Z.eqb_eq in ED. subst dd. apply JustTime. exact DT.
    - destruct (negb (h =? 0) || negb (m =? 0) || negb (s =? 0)) eqn:EHMS.
      + rewrite <- app_assoc. constructor; [apply itoa_decimal, D|exact DT].
      + apply orb_false_iff in EHMS as [EHM E3]. apply orb_false_iff in EHM as [E1 E2].
        apply negb_false_iff in E1, E2, E3. apply Z.eqb_eq in E1, E2, E3. subst h m s.
        rewrite app_nil_r. constructor. apply itoa_decimal, D. }
  clearbody body. destruct neg.
  - exact (Minus body _ _ _ _ _ B).
  - exact (Unsigned body _ _ _ _ _ B).
Qed.

Theorem duration_roundtrip d : dur_fits d -> dur_plain d -> duration_decode (concat (duration_encode d)) = Ok d.
Proof.
  intros F P. pose proof (duration_encode_value d F) as V.
  destruct d as [neg w dd h m s]. unfold dur_fits, dur_plain in *. cbn [d_neg d_weeks d_days d_hours d_minutes d_seconds] in *.
  rewrite (duration_accepts _ _ _ _ _ _ _ V); try (destruct (w =? 0); lia).
  destruct (w =? 0) eqn:E; [reflexivity|]. destruct P as [P|(-> & -> & -> & ->)]; [lia|reflexivity].
Qed.

(** A duration that mixes weeks with another unit loses the other units. *)
Theorem duration_weeks_only d : dur_fits d -> d_weeks d <> 0 ->
  duration_decode (concat (duration_encode d)) = Ok (Duration (d_neg d) (d_weeks d) 0 0 0 0).
Proof.
  intros F N. pose proof (duration_encode_value d F) as V.
  destruct d as [neg w dd h m s]. unfold dur_fits in *. cbn [d_neg d_weeks d_days d_hours d_minutes d_seconds] in *.
  rewrite (duration_accepts _ _ _ _ _ _ _ V); try (destruct (w =? 0) eqn:E; lia).
  destruct (w =? 0) eqn:E; [lia|reflexivity].
Qed.

(** ** What is decoded *)
Lemma loop_range : forall f d level b s d', dur_fits d -> d_weeks d = 0 -> 0 <= level ->
  (level = 0 -> d = Duration (d_neg d) 0 0 0 0 0) ->
  duration_loop f d level (Tok b s) = Ok d' -> dur_fits d' /\ dur_plain d'.
Proof.
  induction f as [|f IH]; intros d level b s d' F W LV L0 H; [discriminate|].
  rewrite loop_S in H. destruct s as [|c0 s]; [destruct (level =? 0); [discriminate|]; apply Ok_inj in H; subst; unfold dur_plain; auto|].
  destruct (drop_T (c0 :: s)) as [isT s1]. cbv zeta in H. set (lv := if isT then 1 else level) in *.
  assert (L1 : lv = 0 -> d = Duration (d_neg d) 0 0 0 0 0) by (unfold lv; destruct isT; [lia|exact L0]).
  assert (LV1 : 0 <= lv) by (unfold lv; destruct isT; lia). clearbody lv. clear L0 LV.
  destruct (span is_digit s1) as [ds r]. destruct (parse_uint 64 ds) as [num|] eqn:P; [|discriminate].
  apply parse_decimal in P as [_ R]. destruct r as [|c r]; [discriminate|].
  assert (STEP : forall d2 lv2 b2 s2, duration_loop f d2 lv2 (Tok b2 s2) = Ok d' -> dur_fits d2 -> d_weeks d2 = 0 ->
     0 < lv2 -> dur_fits d' /\ dur_plain d').
  { intros d2 lv2 b2 s2 H2 F2 W2 L2. apply (IH d2 lv2 b2 s2 d'); auto; lia. }
  destruct (beqc c "W").
  { destruct (0 <? lv) eqn:EL; [discriminate|]. destruct r; [|discriminate]. apply Ok_inj in H. subst d'.
    rewrite (L1 ltac:(lia)). unfold dur_fits, dur_plain. cbn [d_neg d_weeks d_days d_hours d_minutes d_seconds]. lia. }
  unfold dur_fits in F.
  destruct (beqc c "D").
  { destruct (0 <? lv); [discriminate|]. apply STEP in H; auto; unfold dur_fits; cbn [d_neg d_weeks d_days d_hours d_minutes d_seconds]; lia. }
  destruct (beqc c "H").
  { destruct (1 <? lv); [discriminate|]. apply STEP in H; auto; unfold dur_fits; cbn [d_neg d_weeks d_days d_hours d_minutes d_seconds]; lia. }
  destruct (beqc c "M").
  { destruct (2 <? lv); [discriminate|]. apply STEP in H; auto; unfold dur_fits; cbn [d_neg d_weeks d_days d_hours d_minutes d_seconds]; lia. }
  destruct (beqc c "S"); [|discriminate].
  destruct (3 <? lv); [discriminate|]. destruct r; [|discriminate].
  destruct (Z.eq_dec lv 0) as [->|N].
  - destruct f as [|f]; [discriminate|]. rewrite loop_S in H. discriminate.
  - apply STEP in H; auto; unfold dur_fits; cbn [d_neg d_weeks d_days d_hours d_minutes d_seconds]; lia.
Qed.

Theorem duration_decoded s d : duration_decode s = Ok d -> dur_fits d /\ dur_plain d.
Proof.
  unfold duration_decode. destruct (accept (bs "-") (new_tok s)) as [neg t].
  destruct (if neg then (true, t) else accept (bs "+") t) as [x t1].
  destruct (accept (bs "P") t1) as [p t2]. destruct p; [|discriminate]. destruct t2 as [b r].
  intros H. apply loop_range in H; auto; try reflexivity; try lia.
  unfold dur_fits. cbn [d_neg d_weeks d_days d_hours d_minutes d_seconds]. lia.
Qed.

Theorem duration_redecode s d : duration_decode s = Ok d -> duration_decode (concat (duration_encode d)) = Ok d.
Proof. intros H. destruct (duration_decoded s d H). apply duration_roundtrip; assumption. Qed.

(** Decoding never runs out of fuel or panics. *)
Lemma loop_no_hang : forall f d level b s, (length s < f)%nat ->
  match duration_loop f d level (Tok b s) with Ok _ | Err _ => True | _ => False end.
Proof.
  induction f as [|f IH]; intros d level b s F; [lia|].
  rewrite loop_S. destruct s as [|c0 s]; [destruct (level =? 0); exact Logic.I|].
  assert (LD : (length (snd (drop_T (c0 :: s))) <= length (c0 :: s))%nat).
  { unfold drop_T. destruct (beqc c0 "T"); cbn [snd length]; lia. }
  destruct (drop_T (c0 :: s)) as [isT s1]. cbn [snd] in LD. cbv zeta.
  pose proof (span_app is_digit s1) as SA. destruct (span is_digit s1) as [ds r].
  destruct (parse_uint 64 ds); [|exact Logic.I]. destruct r as [|c r]; [exact Logic.I|].
  assert (LR : (length r < f)%nat).
  { destruct SA as (E & _). rewrite E in LD. rewrite app_length in LD. cbn [length] in *. lia. }
  repeat match goal with
  | |- match (if ?b then _ else _) with _ => _ end => destruct b
  | |- match (match ?r with [] => _ | _ => _ end) with _ => _ end => destruct r
  | _ => exact Logic.I
  | |- match duration_loop _ _ _ _ with _ => _ end => apply IH; cbn [length] in *; lia
  end.
Qed.

Lemma duration_no_hang s : match duration_decode s with Ok _ | Err _ => True | _ => False end.
Proof.
  unfold duration_decode, new_tok.
  assert (A : forall set b s, exists b' s' x, accept set (Tok b s) = (x, Tok b' s') /\ (length s' <= length s)%nat).
  { intros set b s0. unfold accept. cbn [trest tbuf]. destruct s0 as [|c s0]; [eauto 6|].
    destruct (inset c set); eexists _, _, _; split; try reflexivity; cbn [length]; lia. }
  destruct (A (bs "-") [] s) as (b1 & s1 & neg & -> & L1).
  assert (A2 : exists b2 s2 x, (if neg then (true, Tok b1 s1) else accept (bs "+") (Tok b1 s1)) = (x, Tok b2 s2) /\ (length s2 <= length s1)%nat).
  { destruct neg; [eauto 6|]. destruct (A (bs "+") b1 s1) as (b2 & s2 & x & -> & L2). eauto 6. }
  destruct A2 as (b2 & s2 & x & -> & L2). destruct (A (bs "P") b2 s2) as (b3 & s3 & p & -> & L3).
  destruct p; [|exact Logic.I]. apply loop_no_hang. lia.
Qed.
