(** Numbers in what Decode returns are less than 2^64. *)
From Coq Require Import String Ascii ZArith Bool List Lia.
From Verif Require Import Base Lib Utf8 GoStrings Tokeniser SpecContent TokeniserProofs DecodeProofs GoTime Types Params ParamTable PropTable Props SecTable Sections Folder Codec SpecTree SpecRules SpecProps PropProofs SpecCal CalProofs HangProofs EncodableProofs DecodedProofs SpecRecur RecurProofs ValueProofs NumProofs GroupProofs MachineProofs SpecSize SpecGrow GrowProofs.
Import ListNotations.
Local Open Scope Z_scope.

Section D.
Context {env : Env} (ZN : zones_near).

Lemma civil_near y m d : 0 <= y <= 9999 -> 1 <= m <= 12 -> 1 <= d <= 31 -> - 2 ^ 30 <= days_from_civil y m d <= 2 ^ 30.
Proof.
  intros Y M D. unfold days_from_civil. set (y' := if m <=? 2 then y - 1 else y). assert (Y' : -1 <= y' <= 9999) by (subst y'; destruct (m <=? 2); lia). clearbody y'.
  assert (A : -1 <= y' / 400 <= 24) by (split; [apply Z.div_le_lower_bound; lia|apply Z.lt_succ_r, Z.div_lt_upper_bound; lia]).
  assert (B : 0 <= y' mod 400 < 400) by (apply Z.mod_pos_bound; lia). assert (C : 0 <= (m + 9) mod 12 < 12) by (apply Z.mod_pos_bound; lia).
  set (e := y' / 400) in *. set (q := y' mod 400) in *. set (mp := (m + 9) mod 12) in *. clearbody e q mp. cbv zeta.
  assert (0 <= q / 4 <= 100) by (split; [apply Z.div_pos; lia|apply Z.lt_succ_r, Z.div_lt_upper_bound; lia]).
  assert (0 <= q / 100 <= 4) by (split; [apply Z.div_pos; lia|apply Z.lt_succ_r, Z.div_lt_upper_bound; lia]).
  assert (0 <= (153 * mp + 2) / 5 <= 400) by (split; [apply Z.div_pos; lia|apply Z.lt_succ_r, Z.div_lt_upper_bound; lia]).
  lia.
Qed.
Lemma days_at_most m y : days_in m y <= 31.
Proof. unfold days_in. destruct (m =? 2); [destruct (is_leap y); lia|destruct (_ || _); lia]. Qed.
Lemma go_date_word y m d h mi x ns l : 0 <= y <= 9999 -> 1 <= m <= 12 -> 1 <= d <= 31 -> 0 <= h <= 23 -> 0 <= mi <= 59 -> 0 <= x <= 59 -> time_word (go_date y m d h mi x ns l).
Proof using ZN.
  intros Y M D H I X. pose proof (civil_near y m d Y M D) as C. unfold time_word, word, wall, go_date. cbv zeta. set (u := days_from_civil y m d * 86400 + h * 3600 + mi * 60 + x).
  assert (U : - 2 ^ 50 <= u <= 2 ^ 50) by (subst u; lia). clearbody u. pose proof (ZN l u) as O. unfold offset_at in O. destruct (lookup l u) as [[o st] en]. cbn [fst] in O.
  assert (F : forall z, - 2 ^ 63 <= z <= 2 ^ 63 -> - 2 ^ 64 < z + offset_at l z < 2 ^ 64) by (intros z B; pose proof (ZN l z); lia).
  cbv iota beta. cbn [t_sec t_loc]. apply F. destruct (o =? 0); [lia|]. destruct (_ || _); [pose proof (ZN l (u - o))|]; lia.
Qed.
Lemma zero_word : time_word zero_time.
Proof. split; reflexivity. Qed.
Lemma parse_date_word s t : parse_date s = Some t -> time_word t.
Proof using ZN.
  unfold parse_date. destruct (parse_ymd s) as [[[[y m] d] r]|] eqn:E; cbn [obind]; [|discriminate]. apply ymd_reading in E as (Y & M & D). destruct r; [|discriminate]. intros H. injection H as <-.
  pose proof (days_at_most m y). apply go_date_word; lia.
Qed.
Lemma parse_datetime_word z s l t : parse_datetime z s l = Some t -> time_word t.
Proof using ZN.
  unfold parse_datetime. destruct (parse_ymd s) as [[[[y m] d] r]|] eqn:E; cbn [obind]; [|discriminate]. apply ymd_reading in E as (Y & M & D).
  destruct (lit "T" r) as [r1|]; cbn [obind]; [|discriminate]. destruct (parse_hms r1) as [[[[[h mi] x] ns] r2]|] eqn:E2; cbn [obind]; [|discriminate]. apply hms_reading in E2.
  destruct (if z then lit "Z" r2 else Some r2) as [r3|]; cbn [obind]; [|discriminate]. destruct r3; [|discriminate]. intros H. injection H as <-.
  pose proof (days_at_most m y). apply go_date_word; lia.
Qed.
Lemma parse_clock_word z s l t : parse_clock z s l = Some t -> time_word t.
Proof using ZN.
  unfold parse_clock. destruct (parse_hms s) as [[[[[h mi] x] ns] r2]|] eqn:E2; cbn [obind]; [|discriminate]. apply hms_reading in E2.
  destruct (if z then lit "Z" r2 else Some r2) as [r3|]; cbn [obind]; [|discriminate]. destruct r3; [|discriminate]. intros H. injection H as <-. apply go_date_word; lia.
Qed.
Lemma of_option_ok {A} e (o : option A) a : of_option e o = Ok a -> o = Some a.
Proof. destruct o; cbn [of_option]; [intros H; apply Ok_inj in H; congruence|discriminate]. Qed.
Lemma datetime_word id m s t : datetime_decode id m s = Ok t -> time_word t.
Proof using ZN.
  unfold datetime_decode. destruct (pmap_get m (bs "TZID")) as [tz|].
  - destruct (load_location id tz) as [l|]; [|discriminate]. intros H. apply of_option_ok in H. eapply parse_datetime_word, H.
  - destruct (ends_with _ s); intros H; apply of_option_ok in H; eapply parse_datetime_word, H.
Qed.
Lemma clock_word m s t : clock_decode m s = Ok t -> time_word t.
Proof using ZN.
  unfold clock_decode. destruct (pmap_get m (bs "TZID")) as [tz|].
  - destruct (load_location 0 tz) as [l|]; [|discriminate]. intros H. apply of_option_ok in H. eapply parse_clock_word, H.
  - destruct (ends_with _ s); intros H; apply of_option_ok in H; eapply parse_clock_word, H.
Qed.
Lemma date_word s t : date_decode s = Ok t -> time_word t.
Proof using ZN. intros H. apply of_option_ok in H. eapply parse_date_word, H. Qed.
Lemma rule_word m r fq k v r' fq' : time_word (r_until r) -> recur_rule m r fq k v = Ok (r', fq') -> time_word (r_until r').
Proof using ZN.
  intros K H. destruct r as [fr wk ut un co iv bse bmi bho bda bmd byd bwn bmo bsp]. cbn [r_until] in K. unfold recur_rule in H.
  repeat match type of H with context [if ?b then _ else _] => destruct b; try discriminate H end;
    try (apply bind_ok in H as (l & _ & H); apply Ok_inj in H; injection H as <- <-; exact K).
  - destruct (index_of _ _); [|discriminate]. apply Ok_inj in H. injection H as <- <-. exact K.
  - destruct (datetime_decode 0 m v) eqn:Q; try discriminate. apply Ok_inj in H. injection H as <- <-. apply datetime_word in Q. exact Q.
  - destruct (date_decode v) eqn:Q; try discriminate. apply Ok_inj in H. injection H as <- <-. apply date_word in Q. exact Q.
  - destruct (parse_uint _ _); [|discriminate]. apply Ok_inj in H. injection H as <- <-. exact K.
  - destruct (parse_uint _ _); [|discriminate]. apply Ok_inj in H. injection H as <- <-. exact K.
  - destruct (day_of_word v); [|discriminate]. apply Ok_inj in H. injection H as <- <-. exact K.
Qed.
Lemma recur_word m s r : recur_decode m s = Ok r -> time_word (r_until r).
Proof using ZN.
  unfold recur_decode. intros H. apply bind_ok in H as ([r1 f1] & E & H). destruct f1; [|discriminate]. apply Ok_inj in H. subst.
  assert (L : forall rules r fq r' fq', time_word (r_until r) -> recur_rules m r fq rules = Ok (r', fq') -> time_word (r_until r')).
  { clear - ZN. induction rules as [|w rules IH]; intros r fq r' fq' R H; cbn [recur_rules] in H.
    - apply Ok_inj in H. injection H as <- <-. exact R.
    - destruct (cut "="%char w) as [[k v]|]; [|discriminate]. apply bind_ok in H as ([r1 f1] & E & H). apply (IH r1 f1 r' fq'); [|exact H]. exact (rule_word m r fq k v r1 f1 R E). }
  exact (L _ zero_recur _ _ _ zero_word E).
Qed.
Lemma range_words r : recur_in_range r -> uword (r_count r) /\ uword (r_interval r) /\
  Forall uword (r_bysecond r ++ r_byminute r ++ r_byhour r ++ r_bymonth r) /\
  Forall word (map dr_occ (r_byday r) ++ r_bymonthday r ++ r_byyearday r ++ r_byweekno r ++ r_bysetpos r).
Proof.
  intros (_ & _ & CO & IV & A & B & C & D & F & G & H & I & J & _). unfold within, within_signed, uword, word in *. split; [lia|]. split; [lia|].
  rewrite !Forall_app, Forall_map. repeat split; (eapply Forall_impl; [|eassumption]); cbv beta; intros; lia.
Qed.
Lemma int_word s z : parse_int 32 s = Some z -> word z.
Proof. intros H. apply parse_int_range in H; [|lia]. change (2 ^ (32 - 1)) with 2147483648 in H. unfold word. lia. Qed.
Lemma value_read_word k m d v : value_decode k m d = Ok v -> value_word v.
Proof using ZN.
  intros D. pose proof D as D'. destruct k; cbn [value_decode] in D; apply kind_rmap in D as (a & D & ->); cbn [value_word]; try exact Logic.I.
  all: try (eapply date_word; exact D). all: try (eapply datetime_word; exact D). all: try (eapply clock_word; exact D).
  - unfold integer_decode in D. apply of_option_ok in D. eapply int_word, D.
  - unfold period_decode in D. destruct (cut _ d) as [[x y]|]; [|discriminate]. destruct y; [discriminate|]. apply bind_ok in D as (st & D1 & D). apply datetime_word in D1.
    destruct (_ || _); apply bind_ok in D as (e & D2 & D); apply Ok_inj in D; subst a; (split; [exact D1|]); [exact zero_word|eapply datetime_word, D2].
  - split; [eapply recur_word, D|]. destruct (v_recur_decoded _ _ _ D') as (y & E & R & _). injection E as <-. apply range_words, R.
Qed.
Lemma prop_read_word pid l p : prop_decode pid (params_tokens (cl_params l)) (cl_value l) = Ok p -> prop_word p.
Proof using ZN.
  intros D. destruct (snd (prop_spec pid)) as [ps vs|ws|k] eqn:E.
  - destruct (struct_read _ _ _ _ _ _ E D) as (lp & a & w & k & b & v & -> & _ & (EV & _) & K & m & DV). cbn [prop_word]. intros v0 I.
    apply in_app_iff in I as [I|[I|I]]; [destruct (in_none _ _ I)| |destruct (in_none _ _ I)]. injection I as <-. eapply value_read_word, DV.
  - unfold prop_decode in D. rewrite E in D. destruct (index_of _ ws) as [n|]; [|discriminate]. apply Ok_inj in D. subst p. exact Logic.I.
  - unfold prop_decode in D. rewrite E in D. apply bind_ok in D as (v & DV & D). apply Ok_inj in D. subst p. eapply value_read_word, DV.
Qed.
Theorem decoded_words s cal : decode_bytes s = Ok cal -> cal_words cal.
Proof using ZN. intros D pid p H. destruct (decoded_props _ _ D) as [HP _]. destruct (HP _ _ H) as (l & _ & PD). eapply prop_read_word, PD. Qed.
Theorem read_grows s cal e out : decode_bytes s = Ok cal -> Encode ok_writer [] cal = EncDone e out -> (length (concat out) <= 502 * length s + 251 * named_in cal)%nat.
Proof using ZN. intros D. apply pipe_grows; [exact D|eapply decoded_words, D]. Qed.
End D.
