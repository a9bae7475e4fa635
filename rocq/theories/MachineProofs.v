(** Decoding on two machines. *)
From Coq Require Import String Ascii ZArith Bool List Lia.
From Verif Require Import Base Lib GoStrings Strtok Tokeniser SpecContent TokeniserProofs GoTime Types Params ParamTable PropTable Props SecTable Sections Folder Unfolder Codec SpecTree SpecRules TreeProofs ExactProofs TotalProofs HangProofs SpecFail FailProofs FailTextProofs NumProofs TimeProofs DateProofs SpecTime SpecMachine.
Import ListNotations.

(** ** Results side by side. [loose] allows that only one of them succeeds. *)
Definition rel {A B} (loose : Prop) (R : A -> B -> Prop) (r : res A) (r' : res B) : Prop :=
  match r, r' with
  | Ok a, Ok b => R a b
  | Err e, Err e' => e = e' \/ loose
  | Panic, Panic | NoFuel, NoFuel => True
  | _, _ => loose
  end.
Lemma rel_loose {A B} (loose : Prop) (R : A -> B -> Prop) r r' : loose -> (forall a b, r = Ok a -> r' = Ok b -> R a b) -> rel loose R r r'.
Proof. intros L H. destruct r, r'; cbn [rel]; auto. Qed.
Lemma rel_bind {A B C D} loose (R : A -> B -> Prop) (Q : C -> D -> Prop) r r' f g : rel loose R r r' ->
  (forall a b, r = Ok a -> r' = Ok b -> R a b -> rel loose Q (f a) (g b)) -> rel loose Q (bind r f) (bind r' g).
Proof.
  intros H F. destruct r as [a|e| |], r' as [b|e'| |]; cbn [bind]; [exact (F a b eq_refl eq_refl H)|..]; cbn [rel] in H; try exact H.
  all: try (destruct (f a) as [?|?| |]); try (destruct (g b) as [?|?| |]); cbn [rel]; auto.
Qed.
Lemma rel_eq {A B} loose (R : A -> B -> Prop) (r : res A) (f : A -> B) : (forall a, r = Ok a -> R a (f a)) -> rel loose R r (rmap f r).
Proof. intros H. destruct r; cbn [rel rmap bind]; auto. Qed.
Lemma rel_refl {A} loose (r : res A) : rel loose eq r r.
Proof. destruct r; cbn [rel]; auto. Qed.
Lemma rel_rmap {A B C D} loose (R : A -> B -> Prop) (Q : C -> D -> Prop) r r' f g : rel loose R r r' -> (forall a b, R a b -> Q (f a) (g b)) -> rel loose Q (rmap f r) (rmap g r').
Proof. intros H F. unfold rmap. eapply rel_bind; [exact H|]. intros a b _ _ X. cbn [rel]. auto. Qed.
Lemma rel_mono {A B} loose (R Q : A -> B -> Prop) r r' : (forall a b, R a b -> Q a b) -> rel loose R r r' -> rel loose Q r r'.
Proof. intros H. destruct r, r'; cbn [rel]; auto. Qed.

Inductive rel_opt {A B} (R : A -> B -> Prop) : option A -> option B -> Prop :=
| RO_none : rel_opt R None None
| RO_some a b : R a b -> rel_opt R (Some a) (Some b).
Lemma rel_of_option {A B} loose (R : A -> B -> Prop) e o o' : rel_opt R o o' -> rel loose R (of_option e o) (of_option e o').
Proof. intros []; cbn [of_option rel]; auto. Qed.

Lemma ymd_reading s y m d r : parse_ymd s = Some (y, m, d, r) -> (0 <= y <= 9999 /\ 1 <= m <= 12 /\ 1 <= d <= days_in m y)%Z.
Proof. intros H. apply parse_ymd_inv in H as (t & _ & _ & R & Y). apply real_date_spec in R as [M D]. auto. Qed.
Lemma frac_reading s ns r : parse_frac s = (ns, r) -> (0 <= ns < 10 ^ 9)%Z.
Proof.
  unfold parse_frac. destruct s as [|p [|d s]]; [intros H; injection H as <- _; lia|intros H; injection H as <- _; lia|].
  destruct (_ && _); [|intros H; injection H as <- _; lia]. cbn [tl]. pose proof (span_app is_digit (d :: s)) as SA.
  destruct (span is_digit (d :: s)) as [ds q]. destruct SA as (_ & F & _). cbv zeta. intros H. apply (f_equal fst) in H. cbn [fst] in H. subst ns.
  assert (FF : forallb is_digit (firstn 9 ds) = true) by (rewrite <- (firstn_skipn 9 ds), forallb_app in F; apply andb_true_iff in F; tauto).
  pose proof (digits_val_bound _ FF) as B. assert (L : (length (firstn 9 ds) <= 9)%nat) by apply firstn_le_length.
  assert (K : (0 <= Z.of_nat (length (firstn 9 ds)) <= 9)%Z) by lia. set (k := Z.of_nat (length (firstn 9 ds))) in *. clearbody k.
  assert (P : (10 ^ 9 = 10 ^ k * 10 ^ (9 - k))%Z) by (rewrite <- Z.pow_add_r by lia; f_equal; lia). rewrite P.
  assert (0 < 10 ^ (9 - k))%Z by (apply Z.pow_pos_nonneg; lia).
  split; [apply Z.mul_nonneg_nonneg; lia|apply Z.mul_lt_mono_pos_r; lia].
Qed.
Lemma hms_reading s h mi x ns r : parse_hms s = Some (h, mi, x, ns, r) -> (0 <= h <= 23 /\ 0 <= mi <= 59 /\ 0 <= x <= 59 /\ 0 <= ns < 10 ^ 9)%Z.
Proof.
  unfold parse_hms. intros H. apply obind_some in H as ([h' s1] & H1 & H). apply ranged_inv in H1 as [_ RH].
  apply obind_some in H as ([m' s2] & H2 & H). apply ranged_inv in H2 as [_ RM].
  apply obind_some in H as ([x' s3] & H3 & H). apply ranged_inv in H3 as [_ RX].
  destruct (parse_frac s3) as [ns' s4] eqn:FR. apply frac_reading in FR. injection H as -> -> -> -> _. auto.
Qed.

Section Machines.
Context {env : Env} (local : Z -> Z * Z * Z) (rules : zone -> Z -> Z * Z * Z) (load : bytes -> option zone) (loose : Prop).
Notation env' := (machine env local rules load).
Notation rel := (rel loose).
Notation talike := (time_alike local rules load).
Notation lalike := (loc_alike local rules load).

(** ** Moments *)
Lemma parse_date_alike s : rel_opt talike (parse_date s) (@parse_date env' s).
Proof.
  unfold parse_date. destruct (parse_ymd s) as [[[[y m] d] r]|] eqn:E; cbn [obind]; [|constructor]. apply ymd_reading in E. destruct r; constructor.
  exists y, m, d, 0%Z, 0%Z, 0%Z, 0%Z, LUTC, (@LUTC env'). split; [unfold reading; lia|]. split; [constructor|]. auto.
Qed.
Lemma parse_datetime_alike z s l l' : lalike l l' -> rel_opt talike (parse_datetime z s l) (@parse_datetime env' z s l').
Proof.
  intros L. unfold parse_datetime. destruct (parse_ymd s) as [[[[y m] d] r]|] eqn:E; cbn [obind]; [|constructor]. apply ymd_reading in E.
  destruct (lit "T" r) as [r1|]; cbn [obind]; [|constructor]. destruct (parse_hms r1) as [[[[[h mi] x] ns] r2]|] eqn:E2; cbn [obind]; [|constructor]. apply hms_reading in E2.
  destruct (if z then lit "Z" r2 else Some r2) as [r3|]; cbn [obind]; [|constructor]. destruct r3; constructor.
  exists y, m, d, h, mi, x, ns, l, l'. split; [unfold reading; tauto|]. auto.
Qed.
Lemma parse_clock_alike z s l l' : lalike l l' -> rel_opt talike (parse_clock z s l) (@parse_clock env' z s l').
Proof.
  intros L. unfold parse_clock. destruct (parse_hms s) as [[[[[h mi] x] ns] r2]|] eqn:E2; cbn [obind]; [|constructor]. apply hms_reading in E2.
  destruct (if z then lit "Z" r2 else Some r2) as [r3|]; cbn [obind]; [|constructor]. destruct r3; constructor.
  exists 0%Z, 1%Z, 1%Z, h, mi, x, ns, l, l'. split; [|auto]. split; [lia|]. split; [lia|]. split; [change (days_in 1 0) with 31%Z; lia|exact E2].
Qed.
Lemma zero_alike : talike zero_time (@zero_time env').
Proof.
  exists 1%Z, 1%Z, 1%Z, 0%Z, 0%Z, 0%Z, 0%Z, LUTC, (@LUTC env'). split; [|split; [constructor|split; reflexivity]].
  unfold reading. change (days_in 1 1) with 31%Z. lia.
Qed.

Hypothesis names : loose \/ same_names load.
Lemma load_alike id n : rel_opt lalike (load_location id n) (@load_location env' id n) \/
  (loose /\ (load_location id n = None \/ @load_location env' id n = None)).
Proof.
  unfold load_location. destruct (_ || _); [left; constructor; constructor|]. destruct (beq n (bs "Local")); [left; constructor; constructor|].
  destruct (has_dotdot n); [left; constructor|]. destruct n as [|c n]; [left; constructor|]. destruct (_ || _); [left; constructor|].
  change (@load_zone env' (c :: n)) with (load (c :: n)). destruct (load_zone (c :: n)) as [z|] eqn:A, (load (c :: n)) as [z'|] eqn:B.
  - left. constructor. econstructor; eassumption.
  - destruct names as [L|N]; [right; auto|]. apply N in B. congruence.
  - destruct names as [L|N]; [right; auto|]. apply N in A. congruence.
  - left. constructor.
Qed.

Lemma datetime_alike id m s : rel talike (datetime_decode id m s) (@datetime_decode env' id m s).
Proof.
  unfold datetime_decode. destruct (pmap_get m (bs "TZID")) as [tz|].
  - destruct (load_alike id tz) as [L|[L N]].
    + destruct L; [left; reflexivity|]. apply rel_of_option, parse_datetime_alike. assumption.
    + apply rel_loose; [exact L|]. destruct N as [-> | ->]; discriminate.
  - destruct (ends_with "Z" s); apply rel_of_option, parse_datetime_alike; constructor.
Qed.
Lemma clock_alike m s : rel talike (clock_decode m s) (@clock_decode env' m s).
Proof.
  unfold clock_decode. destruct (pmap_get m (bs "TZID")) as [tz|].
  - destruct (load_alike 0 tz) as [L|[L N]].
    + destruct L; [left; reflexivity|]. apply rel_of_option, parse_clock_alike. assumption.
    + apply rel_loose; [exact L|]. destruct N as [-> | ->]; discriminate.
  - destruct (ends_with "Z" s); apply rel_of_option, parse_clock_alike; constructor.
Qed.
Lemma date_alike s : rel talike (date_decode s) (@date_decode env' s).
Proof. apply rel_of_option, parse_date_alike. Qed.
Lemma period_alike_decode m s : rel (period_alike local rules load) (period_decode m s) (@period_decode env' m s).
Proof.
  unfold period_decode. destruct (cut "/" s) as [[a b]|]; [|left; reflexivity]. destruct b as [|c b]; [left; reflexivity|].
  eapply rel_bind; [apply datetime_alike|]. intros t t' _ _ T. destruct (_ || _).
  - eapply rel_bind; [apply rel_refl|]. intros d ? _ _ <-. split; [exact T|]. split; [apply zero_alike|reflexivity].
  - eapply rel_bind; [apply datetime_alike|]. intros u u' _ _ U. split; [exact T|]. split; [exact U|reflexivity].
Qed.

(** ** Rules *)
Definition counts (l : list bytes) : Prop := exists b, In (bs "COUNT=" ++ b) l.
Definition untils (l : list bytes) : Prop := exists a, In (bs "UNTIL=" ++ a) l.
Definition ralike (p : @recur env * bool) (p' : @recur env' * bool) : Prop := recur_alike local rules load (fst p) (fst p') /\ snd p' = snd p.
(** The moment of the UNTIL is the zero moment on both or on none. *)
Definition same_zero (r : @recur env) (r' : @recur env') : Prop := is_zero (r_until r) = @is_zero env' (r_until r').
Lemma rule_alike m r r' fq k v : recur_alike local rules load r r' -> (loose \/ same_zero r r' \/ k <> bs "COUNT") ->
  rel (fun p p' => ralike p p' /\ (k <> bs "UNTIL" -> same_zero r r' -> same_zero (fst p) (fst p')))
    (recur_rule m r fq k v) (@recur_rule env' m r' fq k v).
Proof.
  intros (t' & T & ->) Z. destruct r as [fr wk ut un co iv bse bmi bho bda bmd byd bwn bmo bsp]. cbn [r_freq r_wkst r_untiltime r_until r_count r_interval r_bysecond r_byminute r_byhour r_byday r_bymonthday r_byyearday r_byweekno r_bymonth r_bysetpos] in *.
  unfold recur_rule.
  assert (Q : forall X fr wk ut co iv bse bmi bho bda bmd byd bwn bmo bsp f, 
    ralike (@Recur env fr wk ut un co iv bse bmi bho bda bmd byd bwn bmo bsp, f) (@Recur env' fr wk ut t' co iv bse bmi bho bda bmd byd bwn bmo bsp, f) /\
    (X -> is_zero un = @is_zero env' t' -> is_zero un = @is_zero env' t')).
  { intros. split; [|auto]. split; [|reflexivity]. exists t'. auto. }
  unfold same_zero in *. cbn [r_until] in *.
  destruct (beq k (bs "FREQ")); [destruct (index_of v freq_words); [apply Q|left; reflexivity]|].
  destruct (beq k (bs "UNTIL")) eqn:KU.
  { apply beq_eq in KU. destruct (0 <? co)%Z; [left; reflexivity|]. destruct (Nat.ltb 10 (length v)).
    - pose proof (datetime_alike 0 m v) as D. destruct (datetime_safe 0 m v) as [D1 D2]. destruct (@datetime_safe env' 0 m v) as [D3 D4].
      destruct (datetime_decode 0 m v) as [t| | |], (@datetime_decode env' 0 m v) as [u| | |]; cbn [MachineProofs.rel] in *; try congruence; auto.
      split; [|congruence]. split; [|reflexivity]. exists u. auto.
    - pose proof (date_alike v) as D. unfold date_decode in *. destruct (parse_date v) as [t|], (@parse_date env' v) as [u|]; cbn [of_option MachineProofs.rel] in *; auto.
      split; [|congruence]. split; [|reflexivity]. exists u. auto. }
  destruct (beq k (bs "COUNT")) eqn:KC.
  { apply beq_eq in KC. assert (Z' : loose \/ is_zero un = @is_zero env' t') by tauto. destruct Z' as [Z'|Z'].
    - apply rel_loose; [exact Z'|]. destruct (negb (is_zero un)); [discriminate|]. destruct (negb (@is_zero env' t')); [discriminate|].
      destruct (parse_uint 64 v); [|discriminate]. intros a b A B. apply Ok_inj in A. apply Ok_inj in B. subst a b. apply Q.
    - destruct (negb (is_zero un)) eqn:N1, (negb (@is_zero env' t')) eqn:N2; try (rewrite Z' in N1; congruence); [left; reflexivity|].
      destruct (parse_uint 64 v); [apply Q|left; reflexivity]. }
  repeat (match goal with |- context [beq k ?w] => destruct (beq k w) end;
    [match goal with |- context [if ?c then _ else _] => destruct c; [left; reflexivity|] end;
     match goal with
     | |- MachineProofs.rel _ _ (bind ?a _) (bind ?b _) => eapply rel_bind; [apply (rel_refl loose a)|]; intros ? ? _ _ <-; apply Q
     | |- MachineProofs.rel _ _ (match ?o with Some _ => _ | None => _ end) _ => destruct o; [apply Q|left; reflexivity]
     end|]).
  left. reflexivity.
Qed.
Lemma rules_alike m : forall rs r r' fq, recur_alike local rules load r r' -> (loose \/ ~ (untils rs /\ counts rs)) -> (loose \/ same_zero r r' \/ ~ counts rs) ->
  rel ralike (recur_rules m r fq rs) (@recur_rules env' m r' fq rs).
Proof.
  induction rs as [|x rs IH]; intros r r' fq A M Z; cbn [recur_rules]; [split; [exact A|reflexivity]|].
  destruct (cut "=" x) as [[k v]|] eqn:C; [|left; reflexivity]. apply cut_some in C as [-> _].
  assert (CT : counts rs -> counts ((k ++ "="%char :: v) :: rs)) by (intros [b B]; exists b; right; exact B).
  assert (UN : untils rs -> untils ((k ++ "="%char :: v) :: rs)) by (intros [b B]; exists b; right; exact B).
  eapply rel_bind; [apply (rule_alike m r r' fq k v A)|].
  - destruct Z as [Z|[Z|Z]]; [auto|auto|]. right. right. intros ->. apply Z. exists v. left. reflexivity.
  - intros [r1 f1] [r1' f1'] _ _ [[A1 F1] Z1]. cbn [fst snd] in *. subst f1'. apply IH; [exact A1|tauto|].
    destruct M as [M|M]; [left; exact M|]. destruct Z as [Z|Z]; [left; exact Z|]. right. destruct (beq k (bs "UNTIL")) eqn:K.
    + apply beq_eq in K. right. intros X. apply M. split; [|apply CT, X]. exists v. left. rewrite K. reflexivity.
    + apply beq_neq in K. destruct Z as [Z|Z]; [left; apply Z1; assumption|]. right. tauto.
Qed.
Lemma recur_alike_decode m s : (loose \/ ~ mixed_rule s) -> rel (recur_alike local rules load) (recur_decode m s) (@recur_decode env' m s).
Proof.
  intros M. unfold recur_decode. eapply rel_bind; [apply (rules_alike m (split ";" s) zero_recur (@zero_recur env') false)|].
  - exists (@zero_time env'). split; [apply zero_alike|reflexivity].
  - destruct M as [M|M]; [left; exact M|]. right. intros [[a A] [b B]]. apply M. exists a, b. auto.
  - right. left. reflexivity.
  - intros [r f] [r' f'] _ _ [A F]. cbn [fst snd] in *. subst f'. destruct f; [exact A|left; reflexivity].
Qed.

(** ** Values, parameters and properties *)
Notation valike := (value_alike local rules load).
Notation cpv := (carry_pval local rules load).
Notation cfl := (carry_float local rules load).
Lemma parse_float_alike s : rel_opt (fun a b => b = cfl a) (parse_float s) (@parse_float env' s).
Proof.
  unfold parse_float, float_special. destruct (beq _ _); [constructor; reflexivity|]. destruct (existsb _ _); [constructor; reflexivity|].
  destruct (existsb _ _); [constructor; reflexivity|]. change (@fin_parse env' s) with (fin_parse s). destruct (fin_parse s); constructor. reflexivity.
Qed.
Lemma value_alike_decode k m s : (k = KRecur -> loose \/ ~ mixed_rule s) -> rel valike (value_decode k m s) (@value_decode env' k m s).
Proof.
  intros M. destruct k; unfold value_decode.
  - eapply rel_rmap; [apply rel_refl|]. intros ? ? <-. constructor.
  - eapply rel_rmap; [apply rel_refl|]. intros ? ? <-. constructor.
  - change (@url_decode env' s) with (@url_decode env s). destruct (@url_decode env s); cbn [rmap bind MachineProofs.rel]; [constructor|left; reflexivity|exact Logic.I|exact Logic.I].
  - eapply rel_rmap; [apply date_alike|]. intros. constructor. assumption.
  - eapply rel_rmap; [apply datetime_alike|]. intros. constructor. assumption.
  - eapply rel_rmap; [apply rel_refl|]. intros ? ? <-. constructor.
  - eapply rel_rmap; [apply rel_of_option, parse_float_alike|]. intros ? ? ->. constructor.
  - eapply (rel_rmap loose (fun a b => b = (cfl (fst a), cfl (snd a)))); [|intros [? ?] ? ->; constructor]. unfold tfloat_decode.
    destruct (cut ";" s) as [[a b]|]; [|left; reflexivity]. eapply rel_bind; [apply rel_of_option, parse_float_alike|]. intros x ? _ _ ->.
    eapply rel_bind; [apply rel_of_option, parse_float_alike|]. intros y ? _ _ ->. reflexivity.
  - eapply rel_rmap; [apply rel_refl|]. intros ? ? <-. constructor.
  - eapply rel_rmap; [apply period_alike_decode|]. intros. constructor. assumption.
  - eapply rel_rmap; [apply recur_alike_decode, M; reflexivity|]. intros. constructor. assumption.
  - eapply rel_rmap; [apply rel_refl|]. intros ? ? <-. constructor.
  - eapply rel_rmap; [apply rel_refl|]. intros ? ? <-. constructor.
  - eapply rel_rmap; [apply clock_alike|]. intros. constructor. assumption.
  - change (@url_decode env' s) with (@url_decode env s). destruct (@url_decode env s); cbn [rmap bind MachineProofs.rel]; [constructor|left; reflexivity|exact Logic.I|exact Logic.I].
  - eapply rel_rmap; [apply rel_refl|]. intros ? ? <-. constructor.
Qed.

Lemma param_alike_decode k vs : rel (fun a b => b = cpv a) (param_decode k vs) (@param_decode env' k vs).
Proof.
  destruct k; unfold param_decode.
  - eapply rel_bind; [apply rel_refl|]. intros t ? _ _ <-. eapply rel_bind; [apply rel_refl|]. intros d ? _ _ <-.
    change (@url_decode env' d) with (@url_decode env d). destruct (@url_decode env d); cbn [bind MachineProofs.rel]; [reflexivity|left; reflexivity|exact Logic.I|exact Logic.I].
  - eapply rel_bind; [apply rel_refl|]. intros t ? _ _ <-. eapply rel_bind; [apply rel_refl|]. intros d ? _ _ <-. reflexivity.
  - eapply rel_bind; [apply rel_refl|]. intros t ? _ _ <-. reflexivity.
  - change (mapM (fun t => let! d := quoted_data t in @url_decode env' d) vs) with (mapM (fun t => let! d := quoted_data t in @url_decode env d) vs).
    destruct (mapM _ vs); cbn [bind MachineProofs.rel]; [reflexivity|left; reflexivity|exact Logic.I|exact Logic.I].
  - eapply rel_bind; [apply rel_refl|]. intros t ? _ _ <-. change (@upper env' (t_data t)) with (upper (t_data t)).
    destruct (index_of _ ws); [reflexivity|]. destruct free; [reflexivity|left; reflexivity].
  - eapply rel_bind; [apply rel_refl|]. intros t ? _ _ <-. change (@upper env' (t_data t)) with (upper (t_data t)). destruct (beq _ w); [reflexivity|left; reflexivity].
  - eapply rel_bind; [apply rel_refl|]. intros t ? _ _ <-. destruct (regex_match _); [reflexivity|left; reflexivity].
  - eapply rel_bind; [apply rel_refl|]. intros t ? _ _ <-. eapply rel_bind; [apply rel_refl|]. intros b ? _ _ <-. reflexivity.
Qed.

Definition carry_st (st : @pstate env) : @pstate env' := @PState env' (map (option_map cpv) (ps_params st)) (ps_vtype st) (ps_other st).
Lemma set_nth_map {A B} (f : A -> B) a : forall l n, map f (set_nth n a l) = set_nth n (f a) (map f l).
Proof. induction l as [|x l IH]; intros [|n]; cbn [set_nth map]; [reflexivity|reflexivity|reflexivity|]. rewrite IH. reflexivity. Qed.
Lemma struct_param_alike ps vs st g : rel (fun a b => b = carry_st a) (struct_param ps vs st g) (@struct_param env' ps vs (carry_st st) g).
Proof.
  unfold struct_param. destruct g as [n tv]. destruct (param_index n ps) as [i|].
  - assert (E : nth i (@ps_params env' (carry_st st)) None = option_map cpv (nth i (ps_params st) None)) by exact (map_nth (option_map cpv) (ps_params st) None i). rewrite E.
    destruct (nth i (ps_params st) None); cbn [option_map]; [left; reflexivity|].
    eapply rel_bind; [apply param_alike_decode|]. intros v ? _ _ ->. cbn [MachineProofs.rel]. unfold carry_st. cbn [ps_params ps_vtype ps_other]. rewrite set_nth_map. reflexivity.
  - destruct (_ && _); [|reflexivity]. destruct tv as [|t [|t' tv]]; [left; reflexivity| |left; reflexivity].
    cbn [carry_st ps_vtype]. destruct (ps_vtype st); [left; reflexivity|]. change (@upper env' (t_data t)) with (upper (t_data t)).
    destruct (index_of _ _); [reflexivity|left; reflexivity].
Qed.
Lemma struct_params_alike ps vs : forall gs st, rel (fun a b => b = carry_st a) (struct_params ps vs st gs) (@struct_params env' ps vs (carry_st st) gs).
Proof.
  induction gs as [|g gs IH]; intros st; cbn [struct_params]; [reflexivity|]. eapply rel_bind; [apply struct_param_alike|]. intros a ? _ _ ->. apply IH.
Qed.
Lemma set_nth_alike {A B} (R : A -> B -> Prop) a b : R a b -> forall l l' n, Forall2 R l l' -> Forall2 R (set_nth n a l) (set_nth n b l').
Proof. intros H l l' n F. revert n. induction F; intros [|n]; cbn [set_nth]; constructor; auto. Qed.

Lemma prop_alike_decode pid ps data : (pid = PrRecurrenceRule -> loose \/ ~ mixed_rule data) ->
  rel (prop_alike local rules load) (prop_decode pid ps data) (@prop_decode env' pid ps data).
Proof.
  intros M. pose proof rrule_only as T. rewrite forallb_forall in T. specialize (T pid (all_props_in pid)). cbv beta in T.
  unfold prop_decode. destruct (snd (prop_spec pid)) as [qs vs|ws|k].
  - change (@groups env' ps) with (groups ps).
    replace (@PState env' (map (fun _ => None) qs) None []) with (carry_st (PState (map (fun _ => None) qs) None [])) by (unfold carry_st; cbn [ps_params ps_vtype ps_other]; rewrite map_map; reflexivity).
    eapply rel_bind; [apply struct_params_alike|]. intros st ? _ _ ->. cbn [carry_st ps_vtype ps_other]. 
    eapply rel_bind; [apply value_alike_decode|].
    + intros K. exfalso. destruct (nth_in_or_default (match ps_vtype st with Some i => i | None => 0 end) vs ([], KText)) as [I|E].
      * rewrite forallb_forall in T. specialize (T _ I). cbv beta in T. rewrite K in T. discriminate.
      * rewrite E in K. discriminate.
    + intros v v' _ _ V. constructor. apply set_nth_alike; [constructor; exact V|]. clear. induction vs; constructor; [constructor|assumption].
  - change (@upper env' data) with (upper data). destruct (index_of _ ws); [constructor|left; reflexivity].
  - change (@groups env' ps) with (groups ps). eapply rel_bind; [apply value_alike_decode|].
    + intros ->. apply M. destruct pid; try discriminate T. reflexivity.
    + intros v v' _ _ V. constructor. exact V.
Qed.

(** ** Components *)
Notation falike := (fval_alike local rules load).
Notation salike := (sec_alike local rules load).
Lemma isnil_alike {A B} (R : A -> B -> Prop) l l' : Forall2 R l l' -> isnil l' = isnil l.
Proof. intros []; reflexivity. Qed.
Lemma nth_alike {A B} (R : A -> B -> Prop) : forall l l' n, Forall2 (Forall2 R) l l' -> Forall2 R (nth n l []) (nth n l' []).
Proof. intros l l' n F. revert n. induction F; intros [|n]; cbn [nth]; try constructor; auto. Qed.
Lemma full_alike fd i fs fs' : Forall2 (Forall2 falike) fs fs' -> @full env' fd i fs' = full fd i fs.
Proof. intros F. unfold full. rewrite (isnil_alike _ _ _ (nth_alike _ _ _ i F)). reflexivity. Qed.
Lemma add_alike i v v' fs fs' : falike v v' -> Forall2 (Forall2 falike) fs fs' -> Forall2 (Forall2 falike) (add_field i v fs) (@add_field env' i v' fs').
Proof. intros V F. unfold add_field. apply set_nth_alike; [|exact F]. apply Forall2_app; [apply nth_alike, F|]. constructor; [exact V|constructor]. Qed.
Lemma missing_alike : forall l fs fs', Forall2 (Forall2 falike) fs fs' -> @missing env' l fs' = missing l fs.
Proof.
  induction l as [|f l IH]; intros fs fs' F; [reflexivity|]. destruct F as [|a b fs fs' H F]; [reflexivity|]. cbn [missing].
  rewrite (IH _ _ F). rewrite (isnil_alike _ _ _ H). reflexivity.
Qed.
Lemma finish_alike id fs fs' : Forall2 (Forall2 falike) fs fs' -> rel salike (finish id fs) (@finish env' id fs').
Proof.
  intros F. unfold finish. rewrite (missing_alike _ _ _ F). destruct (missing _ fs); [left; reflexivity|].
  assert (E : forallb (@req_ok env' fs') (sp_reqs (sec_spec id)) = forallb (req_ok fs) (sp_reqs (sec_spec id))).
  { generalize (sp_reqs (sec_spec id)). induction l as [|r l IH]; [reflexivity|]. cbn [forallb]. rewrite IH. f_equal.
    destruct r; unfold req_ok; rewrite !(fun i => isnil_alike _ _ _ (nth_alike _ _ _ i F)); reflexivity. }
  rewrite E. destruct (forallb (req_ok fs) _); [exact (SA local rules load id fs fs' F)|left; reflexivity].
Qed.
Lemma none_alike id : Forall2 (Forall2 falike) (no_fields id) (@no_fields env' id).
Proof. unfold no_fields. induction (fields_of id); constructor; [constructor|assumption]. Qed.

(** No line that comes is a rule with both. *)
Definition tame (s : src) : Prop := forall ls l s', reads s (ls ++ [l]) s' -> loose \/ ~ mixed_line l.
Lemma tame_later s ls s1 : reads s ls s1 -> tame s -> tame s1.
Proof. intros R T ks l s' K. apply (T (ls ++ ks) l s'). rewrite <- app_assoc. eapply reads_app; eassumption. Qed.
Lemma tame_list s ls s1 : reads s ls s1 -> tame s -> tame (SrcList (as_phrases ls)).
Proof.
  intros R T ks l s' K. apply reads_as_list in K as [more ->]. apply reads_split in R as (s2 & R & _). eapply T. exact R.
Qed.

Definition step_alike (p : @sec env * src) (p' : @sec env' * src) : Prop := salike (fst p) (fst p') /\ snd p = snd p'.
Lemma dec_alike : forall fuel id fs fs' s, src_ok s -> tame s -> Forall2 (Forall2 falike) fs fs' ->
  rel step_alike (dec_sec fuel id fs s) (@dec_sec env' fuel id fs' s).
Proof.
  induction fuel as [|f IH]; intros id fs fs' s O T F; [exact Logic.I|]. cbn [dec_sec].
  eapply rel_bind; [apply rel_refl|]. intros [ph s1] ? G _ <-. destruct ph as [data|]; [|left; reflexivity].
  destruct (get_ph_line _ _ _ O G) as (l & -> & W & O1). rewrite parts_tokens. cbn [bind]. apply reads_one_intro in G.
  pose proof (tame_later _ _ _ G T) as T1.
  change (@upper env' (cl_name l)) with (upper (cl_name l)). change (@upper env' (cl_value l)) with (upper (cl_value l)).
  destruct (beq (upper (cl_name l)) (bs "BEGIN")).
  - destruct (find_field (is_sec_field (upper (cl_value l))) (fields_of id)) as [[i fd]|].
    + rewrite (full_alike fd i fs fs' F). destruct (full fd i fs); [left; reflexivity|]. destruct (fd_type fd) as [pid|sid|]; [exact Logic.I| |].
      * eapply rel_bind; [apply IH; [exact O1|exact T1|apply none_alike]|]. intros [x s2] [x' ?] D _ [X E]. cbn [fst snd] in *. subst.
        apply dec_sec_means in D as (body & e & R & _ & O2 & _); [|exact O1].
        apply IH; [exact O2|eapply tame_later; eassumption|]. apply add_alike; [constructor; exact X|exact F].
      * eapply rel_bind; [apply rel_refl|]. intros [[pt ty] s2] ? D _ <-.
        apply gather_sound in D as (body & e & R & Wb & P & _ & _ & _ & O2); [|exact O1]. cbn [app] in P. subst pt.
        destruct ty as [sid|]; [|left; reflexivity].
        eapply rel_bind; [apply IH; [constructor; exact Wb|exact (tame_list _ _ _ R T1)|apply none_alike]|]. intros [x s3] [x' ?] _ _ [X _]. cbn [fst snd] in *.
        apply IH; [exact O2|eapply tame_later; eassumption|]. apply add_alike; [constructor; exact X|exact F].
    + change (@dec_dummy env' f (upper (cl_value l)) s1) with (@dec_dummy env f (upper (cl_value l)) s1). eapply rel_bind; [apply rel_refl|]. intros s2 ? D _ <-.
      apply skip_sound in D as (ds & e & R & _ & _ & _ & _ & O2); [|exact O1]. apply IH; [exact O2|eapply tame_later; eassumption|exact F].
  - destruct (find_field (is_prop_field (upper (cl_name l))) (fields_of id)) as [[i fd]|] eqn:FF.
    + apply find_field_some in FF as [N Pf]. apply prop_field_true in Pf as [_ Kf].
      rewrite (full_alike fd i fs fs' F). destruct (full fd i fs); [left; reflexivity|]. destruct (fd_type fd) as [pid|sid|] eqn:Ty; [|exact Logic.I|exact Logic.I].
      eapply rel_bind; [apply prop_alike_decode|].
      * intros ->. destruct (T [] l s1 G) as [L|L]; [left; exact L|]. right. intros Mx. apply L. split; [|exact Mx]. unfold line_is. rewrite <- Kf.
        apply (field_key id fd (nth_error_In _ _ N)). exact Ty.
      * intros p p' _ _ P. apply IH; [exact O1|exact T1|]. apply add_alike; [constructor; exact P|exact F].
    + destruct (beq (upper (cl_name l)) (bs "END")); [|apply IH; assumption].
      destruct (beq (cl_value l) (sp_name (sec_spec id))); [|left; reflexivity].
      eapply rel_bind; [apply finish_alike, F|]. intros x x' _ _ X. split; [exact X|reflexivity].
Qed.

Lemma decode_alike s ls en : cut_into s ls en -> Forall (fun l => loose \/ ~ mixed_line l) ls -> rel salike (decode_bytes s) (@decode_bytes env' s).
Proof.
  intros C M. unfold decode_bytes, decode_src. assert (O : src_ok (SrcTok (new_tokeniser s))) by (econstructor; constructor).
  assert (T : tame (SrcTok (new_tokeniser s))).
  { intros ks l s' R. destruct (feeds_reads _ _ _ R _ _ (cut_feeds s ls en C)) as (b & -> & _). apply Forall_app in M as [M _]. apply Forall_app in M as [_ M]. apply Forall_cons_iff in M as [M _]. exact M. }
  eapply rel_bind; [apply rel_refl|]. intros [ph s1] ? G _ <-. destruct ph as [data|]; [|left; reflexivity].
  destruct (get_ph_line _ _ _ O G) as (l & -> & W & O1). rewrite parts_tokens. cbn [bind]. apply reads_one_intro in G.
  change (@upper env' (cl_name l)) with (upper (cl_name l)). change (@upper env' (cl_value l)) with (upper (cl_value l)).
  destruct (_ && _); [|left; reflexivity].
  eapply rel_bind; [apply dec_alike; [exact O1|exact (tame_later _ _ _ G T)|apply none_alike]|]. intros [x s2] [x' s2'] _ _ [X _]. exact X.
Qed.
End Machines.

(** ** Writing *)
Lemma sec_encode_eq {env : Env} id fs : sec_encode (Sec id fs) =
  (if sp_own (sec_spec id) then [Wr (begin_line (sp_name (sec_spec id)))] else []) ++ flat_map (flat_map fval_encode) fs ++
  (if sp_own (sec_spec id) then [Wr (end_line (sp_name (sec_spec id)))] else []).
Proof. reflexivity. Qed.
Lemma alarm_encode {env : Env} x : fval_encode (FVAlarm (Some x)) =
  [Wr (begin_line (bs "VALARM")); Wr (bs "ACTION:" ++ alarm_word (sec_id x) ++ CRLF)] ++ sec_encode x ++ [Wr (end_line (bs "VALARM"))].
Proof. reflexivity. Qed.
Section Written.
Context {env : Env} (local : Z -> Z * Z * Z) (rules : zone -> Z -> Z * Z * Z) (load : bytes -> option zone).
Notation env' := (machine env local rules load).
Notation talike := (time_alike local rules load).
Notation falike := (fval_alike local rules load).
Notation salike := (sec_alike local rules load).
Notation carry_utc := (fun t => @Time env' (t_sec t) (t_nsec t) (@LUTC env')).

Lemma go_date_loc y mo d h mi s ns (l : @loc env) : t_loc (go_date y mo d h mi s ns l) = l.
Proof. unfold go_date. destruct (lookup l _) as [[off st] en]. reflexivity. Qed.
Lemma utc_alike t t' : talike t t' -> t_loc t = LUTC -> t' = carry_utc t.
Proof.
  intros (y & mo & d & h & mi & s & ns & l & l' & _ & L & -> & ->) U. rewrite go_date_loc in U. subst l. inversion L; subst. reflexivity.
Qed.

Definition utc (t : @time env) : Prop := t_loc t = LUTC.
Ltac utc1 := match goal with H : time_alike _ _ _ ?t ?t', U : utc ?t |- _ => apply utc_alike in H; [|exact U]; subst t' end.
Lemma valid_value_utc v v' : value_alike local rules load v v' -> Forall utc (value_times v) -> @value_valid env' v' = value_valid v.
Proof.
  intros A U. destruct A; cbn [value_times] in U; try reflexivity.
  - apply Forall_cons_iff in U as [U _]. utc1. reflexivity.
  - apply Forall_cons_iff in U as [U _]. utc1. reflexivity.
  - destruct f; reflexivity.
  - destruct a, b; reflexivity.
  - apply Forall_cons_iff in U as [U U2]. apply Forall_cons_iff in U2 as [U2 _]. destruct p as [s e d], p' as [s' e' d']. destruct H as (A & B & C). cbn [p_start p_end p_dur] in *. subst d'.
    repeat utc1. destruct s as [ss sn sl], e as [es en el]. unfold utc in U, U2. cbn [t_loc] in U, U2. subst sl el. reflexivity.
  - destruct H as (t' & A & ->). destruct r. reflexivity.
  - apply Forall_cons_iff in U as [U _]. utc1. reflexivity.
Qed.
Lemma format_utc t : utc t -> @format_datetime env' (carry_utc t) = format_datetime t /\ @format_date env' (carry_utc t) = format_date t /\ @format_clock env' (carry_utc t) = format_clock t.
Proof. destruct t as [s n l]. intros U. unfold utc in U. cbn [t_loc] in U. subst l. auto. Qed.
Lemma encode_utc t : utc t -> @datetime_encode env' (carry_utc t) = datetime_encode t /\ @date_encode env' (carry_utc t) = date_encode t /\
  @clock_encode env' (carry_utc t) = clock_encode t /\ @write_timezone env' (carry_utc t) = write_timezone t /\ @is_zero env' (carry_utc t) = is_zero t.
Proof. destruct t as [s n l]. intros U. unfold utc in U. cbn [t_loc] in U. subst l. repeat apply conj; reflexivity. Qed.
Lemma encode_value_utc v v' : value_alike local rules load v v' -> Forall utc (value_times v) -> @value_aencode env' v' = value_aencode v.
Proof.
  intros A U. destruct A; cbn [value_times] in U; try reflexivity.
  - apply Forall_cons_iff in U as [U _]. utc1. destruct (encode_utc t U) as (A & B & C & D & E). unfold value_aencode, value_encode. rewrite B. reflexivity.
  - apply Forall_cons_iff in U as [U _]. utc1. destruct (encode_utc t U) as (A & B & C & D & E). unfold value_aencode, value_encode. rewrite A, D. reflexivity.
  - destruct f as [|[]|]; reflexivity.
  - destruct a as [|[]|], b as [|[]|]; reflexivity.
  - apply Forall_cons_iff in U as [U U2]. apply Forall_cons_iff in U2 as [U2 _]. destruct p as [s e d], p' as [s' e' d']. destruct H as (A & B & C). cbn [p_start p_end p_dur] in *. subst d'.
    repeat utc1. unfold value_aencode, value_encode, period_encode. cbn [p_start p_end p_dur].
    destruct (encode_utc s U) as (A1 & _ & _ & D1 & _). destruct (encode_utc e U2) as (A2 & _ & _ & _ & E2). rewrite A1, D1, A2, E2. reflexivity.
  - destruct H as (t' & A & ->). apply Forall_cons_iff in U as [U _]. destruct r as [fr wk ut un co iv b1 b2 b3 b4 b5 b6 b7 b8 b9]. cbn [r_until] in U, A. utc1.
    destruct (encode_utc un U) as (A1 & B1 & C1 & D1 & E1). unfold value_aencode, value_encode, recur_encode.
    cbn [r_freq r_wkst r_untiltime r_until r_count r_interval r_bysecond r_byminute r_byhour r_byday r_bymonthday r_byyearday r_byweekno r_bymonth r_bysetpos].
    rewrite A1, B1, D1, E1. reflexivity.
  - apply Forall_cons_iff in U as [U _]. utc1. destruct (encode_utc t U) as (A & B & C & D & E). unfold value_aencode, value_encode. rewrite C, D. reflexivity.
Qed.

Lemma params_carry : forall ps l, @params_encode env' ps (map (option_map (carry_pval local rules load)) l) = params_encode ps l /\
  @params_valid env' ps (map (option_map (carry_pval local rules load)) l) = params_valid ps l.
Proof.
  induction ps as [|p ps IH]; intros l; [destruct l; auto|]. destruct l as [|[v|] l]; [auto| |]; cbn [map option_map params_encode params_valid]; destruct (IH l) as [E V]; [|auto].
  rewrite E, V. split; [f_equal|]; destruct v, (pkind_of p); reflexivity.
Qed.
Lemma values_utc vs vs' : Forall2 (opt_alike local rules load) vs vs' -> Forall utc (flat_map (fun o => match o with Some v => value_times v | None => [] end) vs) ->
  @values_valid env' vs' = values_valid vs /\ length (filter is_some vs') = length (filter is_some vs) /\
  forall first ks, @values_encode env' first ks vs' = values_encode first ks vs.
Proof.
  intros F U. induction F as [|o o' vs vs' H F IH]; [repeat apply conj; auto; intros first [|[w k] ks]; reflexivity|]. cbn [flat_map] in U.
  apply Forall_app in U as [U1 U2]. destruct (IH U2) as (V & L & E). destruct H as [|v v' H]; cbn [values_valid filter is_some length].
  - repeat apply conj; auto. intros first [|[w k] ks]; cbn [values_encode]; [reflexivity|]. rewrite E. reflexivity.
  - rewrite (valid_value_utc _ _ H U1), V, L. repeat apply conj; auto. intros first [|[w k] ks]; cbn [values_encode]; [reflexivity|]. rewrite E, (encode_value_utc _ _ H U1). reflexivity.
Qed.
Lemma prop_utc pid p p' : prop_alike local rules load p p' -> Forall utc (prop_times p) -> @prop_encode env' pid p' = prop_encode pid p /\ @prop_valid env' pid p' = prop_valid pid p.
Proof.
  intros A U. unfold prop_encode, prop_valid. destruct (prop_spec pid) as [key k]. cbn [snd]. destruct A as [ps vs vs' F|n|v v' H]; cbn [prop_times] in U.
  - destruct (values_utc _ _ F U) as (V & L & E). destruct k as [qs ws| |]; auto. destruct (params_carry qs ps) as [PE PV]. rewrite V, L, E, PE, PV. auto.
  - destruct k; auto.
  - destruct k; auto. rewrite (encode_value_utc _ _ H U), (valid_value_utc _ _ H U). auto.
Qed.

Lemma sec_utc : forall x x', salike x x' -> Forall utc (sec_times x) -> @sec_encode env' x' = sec_encode x /\ @sec_valid env' x' = sec_valid x.
Proof.
  induction x as [id fs IH] using sec_induct. intros x' A U. inversion A as [id0 fs0 fs' F]. subst id0 fs0 x'. clear A. change (Forall utc (flat_map (flat_map fval_times) fs)) in U.
  assert (FV : forall vs v v', In vs fs -> In v vs -> falike v v' -> Forall utc (fval_times v) -> @fval_encode env' v' = fval_encode v /\ @fval_valid env' v' = fval_valid v).
  { intros vs v v' I1 I2 FA U'. destruct FA as [pid p p' P|y y' Y| |y y' Y].
    - exact (prop_utc pid p p' P U').
    - exact (IH vs y I1 (or_introl I2) y' Y U').
    - auto.
    - destruct (IH vs y I1 (or_intror I2) y' Y U') as [E V]. rewrite !alarm_encode, E. split; [destruct Y; reflexivity|exact V]. }
  clear IH. assert (G : flat_map (flat_map (@fval_encode env')) fs' = flat_map (flat_map fval_encode) fs /\ first_err (first_err (@fval_valid env')) fs' = first_err (first_err fval_valid) fs).
  { clear id. induction F as [|l l' fs fs' H F IHF]; [auto|]. cbn [flat_map] in U. apply Forall_app in U as [U1 U2].
    destruct (IHF U2 (fun vs v v' I1 => FV vs v v' (or_intror I1))) as [E V]. specialize (fun v v' => FV l v v' (or_introl eq_refl)).
    assert (K : flat_map (@fval_encode env') l' = flat_map fval_encode l /\ first_err (@fval_valid env') l' = first_err fval_valid l).
    { clear - FV H U1. induction H as [|v v' l l' H F IHF]; [auto|]. cbn [flat_map] in U1. apply Forall_app in U1 as [U1 U2].
      destruct (IHF U2 (fun w w' I => FV w w' (or_intror I))) as [E V]. destruct (FV v v' (or_introl eq_refl) H U1) as [E1 V1].
      cbn [flat_map first_err]. rewrite E, E1. split; [reflexivity|]. rewrite V1. destruct (fval_valid v); [reflexivity|exact V]. }
    destruct K as [K1 K2]. cbn [flat_map first_err]. rewrite E, K1. split; [reflexivity|]. rewrite K2. destruct (first_err fval_valid l); [reflexivity|exact V]. }
  destruct G as [E V]. split; [|exact V]. rewrite !sec_encode_eq, E. reflexivity.
Qed.
End Written.

(** ** The theorems *)
Section Theorems.
Context {env : Env} (local : Z -> Z * Z * Z) (rules : zone -> Z -> Z * Z * Z) (load : bytes -> option zone).
Notation env' := (machine env local rules load).

Theorem both_read s cal cal' : decode_bytes s = Ok cal -> @decode_bytes env' s = Ok cal' -> sec_alike local rules load cal cal'.
Proof.
  intros D D'. destruct (cut_total s) as (ls & en & C).
  assert (F : Forall (fun l => True \/ ~ mixed_line l) ls) by (apply Forall_forall; auto).
  pose proof (decode_alike local rules load True (or_introl Logic.I) s ls en C F) as R. rewrite D, D' in R. exact R.
Qed.
Theorem both_decode fuel sizes chunks w cal cal' : Decode fuel sizes chunks w = Ok cal -> @Decode env' fuel sizes chunks w = Ok cal' -> sec_alike local rules load cal cal'.
Proof.
  unfold Decode. destruct (drain fuel sizes 0 [] (Rdr chunks w REOF) []) as [[d e]| | |]; cbn [bind]; try discriminate. apply both_read.
Qed.
Theorem same_reading s ls en : same_names load -> cut_into s ls en -> Forall (fun l => ~ mixed_line l) ls ->
  same_outcome local rules load (decode_bytes s) (@decode_bytes env' s).
Proof.
  intros N C M. assert (F : Forall (fun l => False \/ ~ mixed_line l) ls) by (eapply Forall_impl; [|exact M]; auto).
  pose proof (decode_alike local rules load False (or_intror N) s ls en C F) as R.
  destruct (decode_bytes s), (@decode_bytes env' s); cbn [rel same_outcome] in *; tauto.
Qed.
Theorem same_writing {W E} (wr : W -> bytes -> W * option E) (w : W) cal cal' : sec_alike local rules load cal cal' -> all_utc cal ->
  @Encode env' W E wr w cal' = Encode wr w cal.
Proof. intros A U. destruct (sec_utc local rules load cal cal' A U) as [Ee V]. unfold Encode. rewrite V, Ee. reflexivity. Qed.
(** A moment of UTC is one moment everywhere. *)
Theorem same_moment t t' : time_alike local rules load t t' -> t_loc t = LUTC -> t' = @Time env' (t_sec t) (t_nsec t) (@LUTC env').
Proof. apply utc_alike. Qed.
End Theorems.
