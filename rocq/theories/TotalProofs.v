(** No decoder runs out of fuel, and where panics can come from. *)
From Coq Require Import String Ascii ZArith Bool List Lia.
From Verif Require Import Base Lib GoStrings Strtok Tokeniser SpecContent TokeniserProofs GoTime Types NumProofs SpecText TextProofs SpecDuration DurationProofs Params ParamTable PropTable Props SecTable Sections Codec SpecTree TreeProofs ExactProofs SpecPanic DateProofs.
Import ListNotations.

Definition safe {A} (r : res A) : Prop := r <> NoFuel /\ r <> Panic.
Lemma safe_ok {A} (a : A) : safe (Ok a). Proof. split; discriminate. Qed.
Lemma safe_err {A} e : safe (@Err A e). Proof. split; discriminate. Qed.
Lemma safe_bind {A B} (r : res A) (f : A -> res B) : safe r -> (forall a, r = Ok a -> safe (f a)) -> safe (bind r f).
Proof. intros [H1 H2] F. destruct r; cbn [bind]; [apply F; reflexivity|apply safe_err|congruence|congruence]. Qed.
Lemma safe_rmap {A B} (f : A -> B) r : safe r -> safe (rmap f r).
Proof. intros H. apply safe_bind; [exact H|]. intros. apply safe_ok. Qed.
Lemma safe_option {A} e (o : option A) : safe (of_option e o).
Proof. destruct o; [apply safe_ok|apply safe_err]. Qed.
#[local] Hint Resolve safe_ok safe_err safe_option : core.

Lemma duration_loop_safe : forall f d level b s, length s < f -> safe (duration_loop f d level (Tok b s)).
Proof.
  induction f as [|f IH]; intros d level b s L; [lia|]. rewrite loop_S. destruct s as [|c0 s]; [destruct (level =? 0)%Z; auto|].
  assert (D : length (snd (drop_T (c0 :: s))) <= length (c0 :: s)) by (unfold drop_T; destruct (beqc c0 "T"); cbn [snd length]; lia).
  destruct (drop_T (c0 :: s)) as [isT s1]. cbn [snd] in D. pose proof (span_app is_digit s1) as SA. destruct (span is_digit s1) as [ds r].
  destruct SA as (-> & _). rewrite app_length in D. destruct (parse_uint 64 ds) as [num|]; [|auto]. destruct r as [|c r']; [auto|]. cbn [length] in D.
  set (lv := if isT then 1%Z else level). clearbody lv. cbv zeta. cbn [length] in L.
  destruct (beqc c "W"); [destruct (0 <? lv)%Z; [auto|destruct r'; auto]|].
  destruct (beqc c "D"); [destruct (0 <? lv)%Z; [auto|apply IH; lia]|].
  destruct (beqc c "H"); [destruct (1 <? lv)%Z; [auto|apply IH; lia]|].
  destruct (beqc c "M"); [destruct (2 <? lv)%Z; [auto|apply IH; lia]|].
  destruct (beqc c "S"); [destruct (3 <? lv)%Z; [auto|destruct r'; [apply IH; cbn [length] in *; lia|auto]]|auto].
Qed.

Lemma accept_length set t : length (trest (snd (accept set t))) <= length (trest t).
Proof. unfold accept. destruct (trest t) as [|c r] eqn:E; [cbn [snd]; rewrite E; lia|]. destruct (inset c set); cbn [snd trest length]; [lia|rewrite E; cbn [length]; lia]. Qed.

Lemma duration_safe s : safe (duration_decode s).
Proof.
  unfold duration_decode. pose proof (accept_length (bs "-") (new_tok s)) as L1. destruct (accept (bs "-") (new_tok s)) as [neg t]. cbn [snd] in L1.
  assert (L2 : length (trest (snd (if neg then (true, t) else accept (bs "+") t))) <= length (trest t)) by (destruct neg; [cbn [snd]; lia|apply accept_length]).
  destruct (if neg then (true, t) else accept (bs "+") t) as [q t2]. cbn [snd] in L2.
  pose proof (accept_length (bs "P") t2) as L3. destruct (accept (bs "P") t2) as [p [b r]]. cbn [snd trest] in L3. cbn [new_tok trest] in L1.
  destruct p; [|auto]. apply duration_loop_safe. lia.
Qed.

Lemma text_safe s : safe (text_decode s).
Proof.
  destruct (open_sep false s) eqn:E; [rewrite (proj1 (text_decode_exact s) E); auto|].
  destruct (proj2 (text_decode_exact s) E) as (t & -> & _). auto.
Qed.

Lemma reads_length s t rest : SpecText.reads s t rest -> length rest <= length s.
Proof.
  induction 1; cbn [length] in *; try lia. rewrite skipn_length in IHreads. cbn [length] in IHreads. lia.
Qed.

Lemma mtext_loop_safe : forall f n acc s, length s < f -> length s < n -> safe (mtext_loop f n acc (Tok [] s)).
Proof.
  induction f as [|f IH]; intros n acc s L N; [lia|]. cbn [mtext_loop].
  destruct (reads_total (length s) s (le_n _)) as (t & rest & R). rewrite (decode_text_reads s t rest R) by exact N. cbn [bind peek trest].
  pose proof (reads_length _ _ _ R) as LR. destruct rest as [|c rest]; cbn [peek trest]; [auto|]. destruct (beqc c ",") eqn:C; [|auto]. apply beqc_eq in C. subst c.
  rewrite accept_hit by reflexivity. cbn [get trest]. cbn [length] in LR. apply IH; lia.
Qed.
Lemma mtext_safe s : safe (mtext_decode s).
Proof. apply mtext_loop_safe; lia. Qed.

Section Total.
Context {env : Env}.

Lemma datetime_safe id m s : safe (datetime_decode id m s).
Proof. unfold datetime_decode. destruct (pmap_get m (bs "TZID")) as [tz|]; [destruct (load_location id tz); auto|destruct (ends_with _ s); auto]. Qed.
Lemma clock_safe m s : safe (clock_decode m s).
Proof. unfold clock_decode. destruct (pmap_get m (bs "TZID")) as [tz|]; [destruct (load_location 0 tz); auto|destruct (ends_with _ s); auto]. Qed.
Lemma binary_safe m s : safe (binary_decode m s).
Proof. unfold binary_decode. destruct (pmap_get m (bs "ENCODING")) as [e|]; [destruct (beq e (bs "BASE64")); auto|auto]. Qed.
Lemma tfloat_safe s : safe (tfloat_decode s).
Proof. unfold tfloat_decode. destruct (cut _ s) as [[a b]|]; [|auto]. apply safe_bind; [auto|]. intros fa _. apply safe_bind; auto. Qed.
Lemma period_safe m s : safe (period_decode m s).
Proof.
  unfold period_decode. destruct (cut _ s) as [[a b]|]; [|auto]. destruct b as [|c b]; [auto|]. apply safe_bind; [apply datetime_safe|]. intros st _.
  destruct (beqc c "P" || beqc c "+"); apply safe_bind; auto using duration_safe, datetime_safe.
Qed.
Lemma offset_safe s : safe (utcoffset_decode s).
Proof.
  unfold utcoffset_decode. cbv zeta.
  repeat match goal with
  | |- safe (let '(_, _) := ?x in _) => destruct x
  | |- safe (if ?b then _ else _) => destruct b; auto
  | |- safe (match ?b with _ => _ end) => destruct b; auto
  | |- safe (bind _ _) => apply safe_bind; [|intros ? _]
  end.
Qed.

Lemma mapM_safe {A B} (f : A -> res B) l : (forall a, In a l -> safe (f a)) -> safe (mapM f l).
Proof.
  induction l as [|a l IH]; intros H; cbn [mapM]; [auto|]. apply safe_bind; [apply H; left; reflexivity|]. intros b _.
  apply safe_bind; [apply IH; intros; apply H; right; assumption|]. auto.
Qed.
Lemma mapM_fuel {A B} (f : A -> res B) l : (forall a, In a l -> f a <> NoFuel) -> mapM f l <> NoFuel.
Proof.
  induction l as [|a l IH]; intros H; cbn [mapM]; [discriminate|]. pose proof (H a (or_introl eq_refl)) as H0. destruct (f a); cbn [bind]; try congruence.
  assert (H1 : mapM f l <> NoFuel) by (apply IH; intros; apply H; right; assumption). destruct (mapM f l); cbn [bind]; congruence.
Qed.
Lemma mapM_panic {A B} (f : A -> res B) l : mapM f l = Panic -> exists a, In a l /\ f a = Panic.
Proof.
  induction l as [|a l IH]; cbn [mapM]; [discriminate|]. destruct (f a) eqn:E; cbn [bind]; try discriminate.
  - destruct (mapM f l); cbn [bind]; try discriminate. intros _. destruct (IH eq_refl) as (x & I & P). exists x. split; [right; exact I|exact P].
  - intros _. exists a. split; [left; reflexivity|exact E].
Qed.

Lemma parse_day_total w : parse_day w <> NoFuel /\ (parse_day w = Panic -> bad_day w).
Proof.
  unfold parse_day. destruct w as [|c0 tl0]; [split; discriminate|]. destruct tl0 as [|c1 tl1]; [split; discriminate|].
  destruct (beqc c0 "-") eqn:NEG.
  - rewrite orb_true_r. cbn [andb]. destruct (Nat.ltb (length (c1 :: tl1)) 2) eqn:LT; [split; discriminate|].
    destruct tl1 as [|c2 tl2]; [discriminate|]. destruct (is_digit c1); cbn [bind negb orb].
    + destruct (is_digit c2); cbv zeta; match goal with |- context [if ?b then Err _ else _] => destruct b end; cbn [bind negb orb]; try (split; discriminate);
      match goal with |- context [if ?b then Err _ else _] => destruct b end; try (split; discriminate); destruct (day_of_word _); split; discriminate.
    + split; discriminate.
  - rewrite orb_false_r. cbn [andb negb]. destruct (beqc c0 "+") eqn:PL.
    + destruct (is_digit c1) eqn:DG; cbn [bind].
      * destruct tl1 as [|c2 tl2]; [cbn [bind]; split; [discriminate|]; intros _; apply beqc_eq in PL; subst c0; exists c1; split; [exact DG|reflexivity]|].
        destruct (is_digit c2); cbv zeta; match goal with |- context [if ?b then Err _ else _] => destruct b end; cbn [bind negb orb]; try (split; discriminate);
        match goal with |- context [if ?b then Err _ else _] => destruct b end; try (split; discriminate); destruct (day_of_word _); split; discriminate.
      * match goal with |- context [if ?b then Err _ else _] => destruct b end; try (split; discriminate); destruct (day_of_word _); split; discriminate.
    + destruct (is_digit c0) eqn:DG; cbn [bind].
      * destruct (is_digit c1); cbv zeta; match goal with |- context [if ?b then Err _ else _] => destruct b end; cbn [bind negb orb]; try (split; discriminate);
        match goal with |- context [if ?b then Err _ else _] => destruct b end; try (split; discriminate); destruct (day_of_word _); split; discriminate.
      * match goal with |- context [if ?b then Err _ else _] => destruct b end; try (split; discriminate); destruct (day_of_word _); split; discriminate.
Qed.

Lemma parse_ulist_safe lo hi s : safe (parse_ulist lo hi s).
Proof. apply mapM_safe. intros w _. destruct (parse_uint 8 w); [destruct (Utf8.in_range lo hi _)|]; auto. Qed.
Lemma parse_slist_safe b hi s : safe (parse_slist b hi s).
Proof. apply mapM_safe. intros w _. destruct (parse_int b w); [match goal with |- context [if ?b then _ else _] => destruct b end|]; auto. Qed.

Lemma recur_rule_total m r freq k v : recur_rule m r freq k v <> NoFuel /\
  (recur_rule m r freq k v = Panic -> k = bs "BYDAY" /\ exists w, In w (split ","%char v) /\ bad_day w).
Proof.
  assert (SAFE : forall A (x : res A) (P : Prop), safe x -> x <> NoFuel /\ (x = Panic -> P)) by (intros A x P [H1 H2]; split; [exact H1|intros; congruence]).
  destruct r as [fr wk ut un co iv bse bmi bho bda bmd byd bwn bmo bsp]. unfold recur_rule.
  destruct (beq k (bs "FREQ")); [apply SAFE; destruct (index_of v freq_words); auto|].
  destruct (beq k (bs "UNTIL")).
  { apply SAFE. destruct (0 <? co)%Z; [auto|]. destruct (Nat.ltb 10 (length v)); [destruct (datetime_decode 0 m v)|destruct (date_decode v)]; auto. }
  destruct (beq k (bs "COUNT")); [apply SAFE; destruct (negb (is_zero un)); [auto|destruct (parse_uint 64 v); auto]|].
  destruct (beq k (bs "INTERVAL")); [apply SAFE; destruct (0 <? iv)%Z; [auto|destruct (parse_uint 64 v); auto]|].
  destruct (beq k (bs "BYSECOND")); [apply SAFE; destruct (negb (isnil bse)); [auto|apply safe_bind; auto using parse_ulist_safe]|].
  destruct (beq k (bs "BYMINUTE")); [apply SAFE; destruct (negb (isnil bmi)); [auto|apply safe_bind; auto using parse_ulist_safe]|].
  destruct (beq k (bs "BYHOUR")); [apply SAFE; destruct (negb (isnil bho)); [auto|apply safe_bind; auto using parse_ulist_safe]|].
  destruct (beq k (bs "BYDAY")) eqn:B.
  { apply beq_eq in B. destruct (negb (isnil bda)); [split; discriminate|].
    assert (F : mapM parse_day (split ","%char v) <> NoFuel) by (apply mapM_fuel; intros; apply parse_day_total).
    destruct (mapM parse_day (split ","%char v)) eqn:M; cbn [bind]; try (split; [congruence|discriminate]).
    split; [discriminate|]. intros _. split; [exact B|]. apply mapM_panic in M as (w & I & P). exists w. split; [exact I|]. apply parse_day_total. exact P. }
  destruct (beq k (bs "BYMONTHDAY")); [apply SAFE; destruct (negb (isnil bmd)); [auto|apply safe_bind; auto using parse_slist_safe]|].
  destruct (beq k (bs "BYYEARDAY")); [apply SAFE; destruct (negb (isnil byd)); [auto|apply safe_bind; auto using parse_slist_safe]|].
  destruct (beq k (bs "BYWEEKNO")); [apply SAFE; destruct (negb (isnil bwn)); [auto|apply safe_bind; auto using parse_slist_safe]|].
  destruct (beq k (bs "BYMONTH")); [apply SAFE; destruct (negb (isnil bmo)); [auto|apply safe_bind; auto using parse_ulist_safe]|].
  destruct (beq k (bs "BYSETPOS")); [apply SAFE; destruct (negb (isnil bsp)); [auto|apply safe_bind; auto using parse_slist_safe]|].
  apply SAFE. destruct (beq k (bs "WKST")); [|auto]. destruct (negb (wk =? 0)%Z); [auto|]. destruct (day_of_word v); auto.
Qed.

Lemma recur_rules_total m : forall rules r freq, recur_rules m r freq rules <> NoFuel /\
  (recur_rules m r freq rules = Panic -> exists v w, In (bs "BYDAY=" ++ v) rules /\ In w (split ","%char v) /\ bad_day w).
Proof.
  induction rules as [|rule rules IH]; intros r freq; cbn [recur_rules]; [split; discriminate|].
  destruct (cut "="%char rule) as [[k v]|] eqn:C; [|split; discriminate]. destruct (recur_rule_total m r freq k v) as [F P].
  destruct (recur_rule m r freq k v) as [[r' freq']| | |]; cbn [bind]; [|split; discriminate| |congruence].
  - destruct (IH r' freq') as [F' P']. split; [exact F'|]. intros Q. destruct (P' Q) as (v2 & w & I & B). exists v2, w. split; [right; exact I|exact B].
  - split; [discriminate|]. intros _. destruct (P eq_refl) as (-> & w & I & B). exists v, w. split; [|split; assumption]. left.
    apply cut_some in C. rewrite (proj1 C). reflexivity.
Qed.

Lemma recur_total m s : recur_decode m s <> NoFuel /\ (recur_decode m s = Panic -> bad_rule s).
Proof.
  unfold recur_decode. destruct (recur_rules_total m (split ";"%char s) zero_recur false) as [F P].
  destruct (recur_rules m zero_recur false (split ";"%char s)) as [[r freq]| | |]; cbn [bind]; [destruct freq; split; discriminate|split; discriminate| |congruence].
  split; [discriminate|]. intros _. exact (P eq_refl).
Qed.

Lemma value_total k m s : value_decode k m s <> NoFuel /\ (value_decode k m s = Panic -> k = KRecur /\ bad_rule s).
Proof.
  assert (SAFE : forall A (x : res A) (P : Prop), safe x -> x <> NoFuel /\ (x = Panic -> P)) by (intros A x P [H1 H2]; split; [exact H1|intros; congruence]).
  destruct k; cbn [value_decode]; try (apply SAFE; apply safe_rmap; first [apply safe_option | apply binary_safe | apply datetime_safe | apply duration_safe | apply tfloat_safe
    | apply period_safe | apply text_safe | apply mtext_safe | apply clock_safe | apply offset_safe]).
  destruct (recur_total m s) as [F P]. destruct (recur_decode m s); cbn [rmap bind]; try (split; [congruence|discriminate]).
  split; [discriminate|]. intros _. split; [reflexivity|exact (P eq_refl)].
Qed.

Lemma param_safe k vs : safe (param_decode k vs).
Proof.
  assert (ONE : safe (one_value vs)) by (unfold one_value; destruct vs as [|t [|t' vs]]; auto).
  assert (Q : forall t, safe (quoted_data t)) by (intros t; unfold quoted_data; destruct (ttype_eqb _ _); auto).
  assert (U : forall d, safe (url_decode d)) by (intros; apply safe_option).
  destruct k; cbn [param_decode].
  - apply safe_bind; [exact ONE|]. intros t _. apply safe_bind; [apply Q|]. intros d _. apply safe_bind; auto.
  - apply safe_bind; [exact ONE|]. intros t _. apply safe_bind; [destruct quoted; auto|]. auto.
  - apply safe_bind; [|auto]. apply mapM_safe. intros t _. apply safe_bind; auto.
  - apply safe_bind; [|auto]. apply mapM_safe. intros t _. apply safe_bind; auto.
  - apply safe_bind; [exact ONE|]. intros t _. destruct (index_of _ ws); [auto|]. destruct free; auto.
  - apply safe_bind; [exact ONE|]. intros t _. destruct (beq _ w); auto.
  - apply safe_bind; [exact ONE|]. intros t _. destruct (regex_match _); auto.
  - apply safe_bind; [exact ONE|]. intros t _. apply safe_bind; [apply safe_option|auto].
Qed.

Lemma struct_param_safe ps vs st g : safe (struct_param ps vs st g).
Proof.
  unfold struct_param. destruct g as [n tv]. destruct (param_index n ps) as [i|].
  - destruct (nth i (ps_params st) None); [auto|]. apply safe_bind; [apply param_safe|]. auto.
  - destruct (_ && _); [|auto]. destruct tv as [|t [|t' tv]]; auto. destruct (ps_vtype st); auto. destruct (index_of _ _); auto.
Qed.
Lemma struct_params_safe ps vs : forall gs st, safe (struct_params ps vs st gs).
Proof. induction gs as [|g gs IH]; intros st; cbn [struct_params]; [auto|]. apply safe_bind; [apply struct_param_safe|]. auto. Qed.

(** Only RRULE has a rule. *)
Lemma rrule_only : forallb (fun pid => match snd (prop_spec pid) with
  | MStruct _ vs => forallb (fun x => match snd x with KRecur => false | _ => true end) vs
  | MNew KRecur => match pid with PrRecurrenceRule => true | _ => false end
  | _ => true end) all_props = true.
Proof. vm_compute. reflexivity. Qed.
Lemma all_props_in pid : In pid all_props.
Proof. destruct pid; vm_compute; tauto. Qed.

Lemma prop_total pid ps data : prop_decode pid ps data <> NoFuel /\
  (prop_decode pid ps data = Panic -> pid = PrRecurrenceRule /\ bad_rule data).
Proof.
  pose proof rrule_only as T. rewrite forallb_forall in T. specialize (T pid (all_props_in pid)). cbv beta in T.
  unfold prop_decode. destruct (snd (prop_spec pid)) as [qs vs|ws|k].
  - destruct (struct_params_safe qs vs (groups ps) (PState (map (fun _ => None) qs) None [])) as [S1 S2].
    destruct (struct_params _ _ _ _) as [st| | |]; cbn [bind]; try congruence; [|split; discriminate].
    set (k := snd (nth _ vs ([], KText))). assert (K : k <> KRecur).
    { unfold k. destruct (nth_in_or_default (match ps_vtype st with Some i => i | None => 0 end) vs ([], KText)) as [I|E].
      - rewrite forallb_forall in T. specialize (T _ I). cbv beta in T. destruct (snd _); congruence.
      - rewrite E. discriminate. }
    destruct (value_total k (ps_other st) data) as [V1 V2]. destruct (value_decode k (ps_other st) data); cbn [bind]; try (split; [congruence|discriminate]).
    destruct (V2 eq_refl). congruence.
  - destruct (index_of _ ws); split; discriminate.
  - set (m := fold_left _ _ _). destruct (value_total k m data) as [V1 V2]. destruct (value_decode k m data); cbn [bind]; try (split; [congruence|discriminate]).
    split; [discriminate|]. intros _. destruct (V2 eq_refl) as [-> B]. destruct pid; try discriminate T. auto.
Qed.

(** ** Components *)
Lemma dummy_total : forall fuel n s, src_ok s -> size s < fuel -> safe (dec_dummy fuel n s).
Proof.
  induction fuel as [|f IH]; intros n s O L; [lia|]. cbn [dec_dummy]. apply safe_bind; [apply get_ph_total; exact O|]. intros [ph s1] G.
  destruct ph as [data|]; [|auto]. destruct (get_ph_line _ _ _ O G) as (l & -> & W & O1). pose proof (get_ph_size _ _ _ O G) as SZ. rewrite parts_tokens. cbn [bind].
  destruct (beq (upper (cl_name l)) (bs "BEGIN")).
  - apply safe_bind; [apply IH; [exact O1|lia]|]. intros s2 D. apply skip_sound in D as (ds & e & R & _ & _ & _ & _ & O2); [|exact O1].
    apply reads_size in R as [R _]; [|exact O1]. apply IH; [exact O2|lia].
  - destruct (beq (upper (cl_name l)) (bs "END")); [destruct (beq (upper (cl_value l)) n); auto|]. apply IH; [exact O1|lia].
Qed.

Lemma dummy_no_panic : forall fuel n s, src_ok s -> dec_dummy fuel n s <> Panic.
Proof.
  induction fuel as [|f IH]; intros n s O; cbn [dec_dummy]; [discriminate|]. destruct (get_ph_total s O) as [G1 G2].
  destruct (get_ph s) as [[ph s1]| | |] eqn:G; cbn [bind]; try congruence.
  destruct ph as [data|]; [|discriminate]. destruct (get_ph_line _ _ _ O G) as (l & -> & W & O1). rewrite parts_tokens. cbn [bind].
  destruct (beq (upper (cl_name l)) (bs "BEGIN")).
  - pose proof (IH (cl_value l) s1 O1) as P. destruct (dec_dummy f (cl_value l) s1) as [s2| | |] eqn:D; cbn [bind]; try congruence.
    apply skip_sound in D as (ds & e & R & _ & _ & _ & _ & O2); [|exact O1]. apply IH. exact O2.
  - destruct (beq (upper (cl_name l)) (bs "END")); [destruct (beq (upper (cl_value l)) n); discriminate|]. apply IH. exact O1.
Qed.

Lemma gather_fuel : forall fuel ty acc s, src_ok s -> size s < fuel -> gather fuel ty acc s <> NoFuel.
Proof.
  induction fuel as [|f IH]; intros ty acc s O L; [lia|]. cbn [gather]. destruct (get_ph_total s O) as [G1 G2].
  destruct (get_ph s) as [[ph s1]| | |] eqn:G; cbn [bind]; try congruence; try discriminate.
  destruct ph as [data|]; [|discriminate]. destruct (get_ph_line _ _ _ O G) as (l & -> & W & O1). pose proof (get_ph_size _ _ _ O G) as SZ. rewrite parts_tokens. cbn [bind].
  destruct (beq (cl_name l) (bs "BEGIN")); [discriminate|]. destruct (beq (cl_name l) (bs "ACTION")); [destruct ty; [discriminate|apply IH; [exact O1|lia]]|].
  destruct (beq (cl_name l) (bs "END")); [discriminate|apply IH; [exact O1|lia]].
Qed.

Lemma field_keys : forallb (fun id => forallb (fun f => match fd_type f with
  | FTProp PrRecurrenceRule => beq (fd_key f) (bs "RRULE") | FTAlarm => beq (fd_key f) (bs "VALARM") | _ => true end) (fields_of id)) all_secs = true.
Proof. vm_compute. reflexivity. Qed.
Lemma field_key id f : In f (fields_of id) -> (fd_type f = FTProp PrRecurrenceRule -> fd_key f = bs "RRULE") /\ (fd_type f = FTAlarm -> fd_key f = bs "VALARM").
Proof.
  intros I. pose proof field_keys as T. rewrite forallb_forall in T. specialize (T id (all_secs_in id)). cbv beta in T. rewrite forallb_forall in T. specialize (T f I). cbv beta in T.
  split; intros E; rewrite E in T; apply beq_eq; exact T.
Qed.

(** Where a panic comes from: a bad rule, or the end of the text in an alarm. *)
Definition origin (s : src) : Prop :=
  (exists ls l s1, reads s (ls ++ [l]) s1 /\ rule_line l) \/
  (exists ls b body s1 s2, reads s (ls ++ b :: body) s1 /\ alarm_line b /\ open_alarm body /\ get_ph s1 = Ok (PhraseDone, s2)).
Lemma origin_later s ks s1 : reads s ks s1 -> origin s1 -> origin s.
Proof.
  intros R [(ls & l & s2 & R2 & T)|(ls & b & body & s2 & s3 & R2 & T)].
  - left. exists (ks ++ ls), l, s2. split; [|exact T]. rewrite <- app_assoc. eapply reads_app; eauto.
  - right. exists (ks ++ ls), b, body, s2, s3. split; [|exact T]. rewrite <- app_assoc. eapply reads_app; eauto.
Qed.

Lemma gather_panic : forall fuel ty acc s, src_ok s -> gather fuel ty acc s = Panic ->
  exists body s1 s2, reads s body s1 /\ open_alarm body /\ get_ph s1 = Ok (PhraseDone, s2).
Proof.
  induction fuel as [|f IH]; intros ty acc s O H; cbn [gather] in H; [discriminate|]. destruct (get_ph_total s O) as [G1 G2].
  destruct (get_ph s) as [[ph s1]| | |] eqn:G; cbn [bind] in H; try congruence.
  destruct ph as [data|]; [|exists [], s, s1; split; [constructor|split; [constructor|exact G]]].
  destruct (get_ph_line _ _ _ O G) as (l & -> & W & O1). rewrite parts_tokens in H. cbn [bind] in H.
  destruct (beq (cl_name l) (bs "BEGIN")) eqn:NB; [discriminate|]. apply beq_neq in NB.
  assert (STEP : cl_name l <> bs "END" -> forall ty' acc', gather f ty' acc' s1 = Panic -> exists body s1 s2, reads s body s1 /\ open_alarm body /\ get_ph s1 = Ok (PhraseDone, s2)).
  { intros NE ty' acc' P. destruct (IH _ _ _ O1 P) as (body & s2 & s3 & R & Ob & D). exists (l :: body), s2, s3. split; [econstructor; eauto|]. split; [|exact D].
    constructor; [split; assumption|exact Ob]. }
  destruct (beq (cl_name l) (bs "ACTION")) eqn:A; [destruct ty; [discriminate|]; eapply STEP; [|exact H]; apply beq_eq in A; rewrite A; discriminate|].
  destruct (beq (cl_name l) (bs "END")) eqn:NE; [discriminate|]. apply beq_neq in NE. eapply STEP; eauto.
Qed.

(** An alarm has no alarms, components or rules. *)
Definition flat (id : secid) : Prop := forall f, In f (fields_of id) -> exists pid, fd_type f = FTProp pid /\ pid <> PrRecurrenceRule.
Lemma flat_no_panic : forall fuel id fs s, flat id -> src_ok s -> dec_sec fuel id fs s <> Panic.
Proof.
  induction fuel as [|f IH]; intros id fs s F O; cbn [dec_sec]; [discriminate|]. destruct (get_ph_total s O) as [G1 G2].
  destruct (get_ph s) as [[ph s1]| | |] eqn:G; cbn [bind]; try congruence.
  destruct ph as [data|]; [|discriminate]. destruct (get_ph_line _ _ _ O G) as (l & -> & W & O1). rewrite parts_tokens. cbn [bind].
  destruct (beq (upper (cl_name l)) (bs "BEGIN")).
  - destruct (find_field (is_sec_field (upper (cl_value l))) (fields_of id)) as [[i fd]|] eqn:FF.
    + apply find_field_some in FF as [N Pf]. destruct (F fd (nth_error_In _ _ N)) as (pid & T & _). unfold is_sec_field in Pf. rewrite T in Pf. discriminate.
    + pose proof (dummy_no_panic f (upper (cl_value l)) s1 O1) as P. destruct (dec_dummy f (upper (cl_value l)) s1) as [s2| | |] eqn:D; cbn [bind]; try congruence.
      apply skip_sound in D as (ds & e & R & _ & _ & _ & _ & O2); [|exact O1]. apply IH; assumption.
  - destruct (find_field (is_prop_field (upper (cl_name l))) (fields_of id)) as [[i fd]|] eqn:FF.
    + apply find_field_some in FF as [N Pf]. destruct (F fd (nth_error_In _ _ N)) as (pid & T & NR). destruct (full fd i fs); [discriminate|]. rewrite T.
      destruct (prop_total pid (params_tokens (cl_params l)) (cl_value l)) as [_ P2].
      destruct (prop_decode pid (params_tokens (cl_params l)) (cl_value l)) as [p| | |]; cbn [bind]; try discriminate.
      * apply IH; assumption.
      * destruct (P2 eq_refl). congruence.
    + destruct (beq (upper (cl_name l)) (bs "END")).
      * destruct (beq (cl_value l) (sp_name (sec_spec id))); [|discriminate]. unfold finish. destruct (missing _ fs); [discriminate|]. destruct (forallb _ _); discriminate.
      * apply IH; assumption.
Qed.
Lemma alarms_flat w id : alarm_of_word w = Some id -> flat id.
Proof.
  intros H. apply action_spec in H. unfold action_is in H.
  assert (T : forallb (fun f => match fd_type f with FTProp PrRecurrenceRule => false | FTProp _ => true | _ => false end) (fields_of id) = true).
  { repeat destruct H as [H|H]; try (injection H as _ <-; vm_compute; reflexivity). destruct H. }
  intros f I. rewrite forallb_forall in T. specialize (T f I). cbv beta in T. destruct (fd_type f) as [pid| |]; try discriminate. exists pid. split; [reflexivity|].
  intros ->. discriminate.
Qed.

Lemma dec_sec_total : forall fuel id fs s, src_ok s -> length fs = length (fields_of id) ->
  (size s < fuel -> dec_sec fuel id fs s <> NoFuel) /\
  (dec_sec fuel id fs s = Panic -> origin s).
Proof.
  induction fuel as [|f IH]; intros id fs s O L; [split; [lia|discriminate]|]. cbn [dec_sec]. destruct (get_ph_total s O) as [G1 G2].
  destruct (get_ph s) as [[ph s1]| | |] eqn:G; cbn [bind]; try congruence; [|split; discriminate].
  destruct ph as [data|]; [|split; discriminate]. destruct (get_ph_line _ _ _ O G) as (l & -> & W & O1). pose proof (get_ph_size _ _ _ O G) as SZ.
  rewrite parts_tokens. cbn [bind].
  assert (LATER : forall ks s2, reads s1 ks s2 -> origin s2 -> origin s).
  { intros ks s2 R. apply origin_later with (l :: ks). econstructor; eauto. }
  assert (NEXT : origin s1 -> origin s) by (apply (LATER []); constructor).
  destruct (beq (upper (cl_name l)) (bs "BEGIN")) eqn:B.
  - apply beq_eq in B. destruct (find_field (is_sec_field (upper (cl_value l))) (fields_of id)) as [[i fd]|] eqn:FF.
    + apply find_field_some in FF as [N Pf]. apply sec_field_true in Pf as [Sf Kf]. destruct (full fd i fs); [split; discriminate|].
      unfold sec_field in Sf. destruct (fd_type fd) as [pid|sid|] eqn:T; [discriminate| |].
      * destruct (IH sid (no_fields sid) s1 O1 (no_fields_length sid)) as [I1 I2].
        destruct (dec_sec f sid (no_fields sid) s1) as [[y s2]| | |] eqn:D; cbn [bind].
        -- apply dec_sec_means in D as (body & e & R & _ & O2 & _); [|exact O1].
           destruct (IH id (add_field i (FVSec y) fs) s2 O2) as [I3 I4]; [rewrite add_field_length; exact L|].
           apply reads_size in R as R'; [|exact O1]. destruct R' as [R' _]. split; [intros; apply I3; lia|].
           intros P. eapply LATER; eauto.
        -- split; discriminate.
        -- split; [discriminate|]. auto.
        -- split; [|discriminate]. intros H. destruct I1; [lia|reflexivity].
      * assert (TR : alarm_line l) by (split; [exact B|]; rewrite <- Kf; apply (field_key id fd (nth_error_In _ _ N)); exact T).
        pose proof (gather_fuel f None [] s1 O1) as GF.
        destruct (gather f None [] s1) as [[[pt ty] s2]| | |] eqn:D; cbn [bind].
        -- apply gather_sound in D as (body & e & R & Wb & P & Fb & Ne & Ta & O2); [|exact O1]. cbn [app] in P. subst pt.
           apply reads_size in R as R'; [|exact O1]. destruct R' as [R' _]. destruct ty as [sid|]; [|split; discriminate].
           assert (O3 : src_ok (SrcList (as_phrases (body ++ [e])))) by (apply ok_list; exact Wb).
           destruct (IH sid (no_fields sid) _ O3 (no_fields_length sid)) as [I1 _].
           assert (FL : flat sid).
           { unfold ty_after in Ta. cbv beta iota in Ta. destruct Ta as [(us & w & id' & _ & _ & A & Q)|[_ Q]]; [|discriminate]. injection Q as ->. apply action_spec in A. exact (alarms_flat w id' A). }
           pose proof (flat_no_panic f sid (no_fields sid) _ FL O3) as NP.
           destruct (dec_sec f sid (no_fields sid) _) as [[y s3]| | |] eqn:D2; cbn [bind]; [|split; discriminate|congruence|].
           ++ destruct (IH id (add_field i (FVAlarm (Some y)) fs) s2 O2) as [I3 I4]; [rewrite add_field_length; exact L|]. split; [intros; apply I3; lia|].
              intros P. eapply LATER; eauto.
           ++ split; [|discriminate]. intros SL. destruct I1; [|reflexivity]. cbn [size]. unfold as_phrases. rewrite map_length. lia.
        -- split; discriminate.
        -- split; [discriminate|]. intros _. apply gather_panic in D as (body & s2 & s3 & R & Ob & DN); [|exact O1]. right.
           exists [], l, body, s2, s3. split; [econstructor; eauto|]. auto.
        -- split; [|discriminate]. intros SL. destruct GF; [lia|reflexivity].
    + destruct (Nat.lt_ge_cases (size s) (S f)) as [SL|SL].
      * destruct (dummy_total f (upper (cl_value l)) s1 O1 ltac:(lia)) as [D1 D2].
        destruct (dec_dummy f (upper (cl_value l)) s1) as [s2| | |] eqn:D; cbn [bind]; try congruence; [|split; discriminate].
        apply skip_sound in D as (ds & e & R & _ & _ & _ & _ & O2); [|exact O1]. destruct (IH id fs s2 O2 L) as [I3 I4].
        apply reads_size in R as R'; [|exact O1]. destruct R' as [R' _]. split; [intros; apply I3; lia|].
        intros P. eapply LATER; eauto.
      * split; [lia|]. destruct (dec_dummy f (upper (cl_value l)) s1) as [s2| | |] eqn:D; cbn [bind]; try discriminate.
        -- apply skip_sound in D as (ds & e & R & _ & _ & _ & _ & O2); [|exact O1]. destruct (IH id fs s2 O2 L) as [I3 I4].
           intros P. eapply LATER; eauto.
        -- intros _. exfalso. revert D. apply dummy_no_panic. exact O1.
  - destruct (find_field (is_prop_field (upper (cl_name l))) (fields_of id)) as [[i fd]|] eqn:FF.
    + apply find_field_some in FF as [N Pf]. apply prop_field_true in Pf as [Sf Kf]. destruct (full fd i fs); [split; discriminate|].
      unfold sec_field in Sf. destruct (fd_type fd) as [pid|sid|] eqn:T; try discriminate Sf.
      destruct (prop_total pid (params_tokens (cl_params l)) (cl_value l)) as [P1 P2].
      destruct (prop_decode pid (params_tokens (cl_params l)) (cl_value l)) as [p| | |]; cbn [bind]; [|split; discriminate| |congruence].
      * destruct (IH id (add_field i (FVProp pid p) fs) s1 O1) as [I3 I4]; [rewrite add_field_length; exact L|]. split; [intros; apply I3; lia|].
        auto.
      * split; [discriminate|]. intros _. left. exists [], l, s1. split; [apply reads_one_intro; exact G|]. destruct (P2 eq_refl) as [-> BR]. split; [|exact BR]. unfold line_is. rewrite <- Kf.
        apply (field_key id fd (nth_error_In _ _ N)). exact T.
    + destruct (beq (upper (cl_name l)) (bs "END")).
      * destruct (beq (cl_value l) (sp_name (sec_spec id))); [|split; discriminate]. unfold finish. destruct (missing _ fs); [split; discriminate|].
        destruct (forallb _ _); split; discriminate.
      * destruct (IH id fs s1 O1 L) as [I3 I4]. split; [intros; apply I3; lia|].
        auto.
Qed.

Lemma decode_bytes_fuel s : decode_bytes s <> NoFuel.
Proof.
  unfold decode_bytes, decode_src. assert (O : src_ok (SrcTok (new_tokeniser s))) by (econstructor; constructor).
  destruct (get_ph_total _ O) as [G1 G2]. destruct (get_ph (SrcTok (new_tokeniser s))) as [[[data|] s1]| | |] eqn:G; cbn [bind]; try congruence; try discriminate.
  destruct (get_ph_line _ _ _ O G) as (l & -> & W & O1). pose proof (get_ph_size _ _ _ O G) as SZ. rewrite parts_tokens. cbn [bind].
  destruct (_ && _); [|discriminate]. destruct (dec_sec_total (S (S (length s))) SCalendar (no_fields SCalendar) s1 O1 (no_fields_length _)) as [F _].
  cbn [size new_tokeniser z_tok new_tok trest] in SZ. assert (F' := F ltac:(lia)). destruct (dec_sec _ _ _ s1) as [[c s2]| | |]; cbn [bind]; congruence.
Qed.

Lemma decode_bytes_panic s : decode_bytes s = Panic ->
  (exists ls l tail, s = lines_text ls ++ cline_render l ++ tail /\ (tail = [] \/ exists r, tail = CRLF ++ r) /\ rule_line l) \/
  (exists ls b body, (s = lines_text (ls ++ b :: body) \/ s ++ CRLF = lines_text (ls ++ b :: body)) /\ alarm_line b /\ open_alarm body).
Proof.
  unfold decode_bytes, decode_src. assert (O : src_ok (SrcTok (new_tokeniser s))) by (econstructor; constructor).
  destruct (get_ph_total _ O) as [G1 G2]. destruct (get_ph (SrcTok (new_tokeniser s))) as [[[data|] s1]| | |] eqn:G; cbn [bind]; try congruence; try discriminate.
  destruct (get_ph_line _ _ _ O G) as (l & -> & W & O1). rewrite parts_tokens. cbn [bind].
  destruct (_ && _); [|discriminate]. destruct (dec_sec_total (S (S (length s))) SCalendar (no_fields SCalendar) s1 O1 (no_fields_length _)) as [_ F].
  destruct (dec_sec _ _ _ s1) as [[c s2]| | |]; cbn [bind]; try discriminate. intros _.
  assert (R0 : reads (SrcTok (new_tokeniser s)) [l] s1) by (apply reads_one_intro; exact G).
  pose proof (origin_later _ _ _ R0 (F eq_refl)) as Or. clear - Or. destruct Or as [(ls & t & s2 & R & T)|(ls & b & body & s2 & s3 & R & T & Ob & D)].
  - left. destruct (reads_text _ t (new_tokeniser s) s s2 (R_name s) R) as (tail & z' & _ & L & E). exists ls, t, tail. split; [exact E|]. split; [eapply line_end_tail; eauto|exact T].
  - right. exists ls, b, body. split; [|split; assumption]. destruct (exists_last (l := ls ++ b :: body)) as (k & e & K); [destruct ls; discriminate|]. rewrite K in R |- *.
    destruct (reads_text _ e (new_tokeniser s) s s2 (R_name s) R) as (tail & z' & -> & L & E). rewrite lines_text_app, E.
    assert (TL : forall x, lines_text [x] = cline_render x ++ CRLF) by (intros; unfold lines_text; cbn [map concat]; apply app_nil_r). rewrite TL.
    destruct L as [r|].
    + cbn [get_ph] in D. pose proof (get_phrase_sound _ r (R_name r)) as P. destruct (get_phrase _) as [[[data|] z']| | |]; cbn [bind] in D; try discriminate D.
      destruct P as [-> _]. left. reflexivity.
    + right. rewrite <- !app_assoc. reflexivity.
Qed.
End Total.
