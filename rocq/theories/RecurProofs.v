(** Recurrence rules. *)
From Coq Require Import String Ascii ZArith Bool List Lia ZifyBool.
From Verif Require Import Base Lib Utf8 GoStrings GoTime Types SpecContent SpecRecur SpecTime NumProofs TimeProofs DateProofs.
Import ListNotations.
Local Open Scope Z_scope.

(** ** Splitting *)
Lemma split_parts sep : forall l w, ~ In sep w -> Forall (fun x => ~ In sep x) l ->
  split sep (w ++ concat (map (cons sep) l)) = w :: l.
Proof.
  assert (G : forall w rest, ~ In sep w -> split sep (w ++ rest) = match split sep rest with [] => [w] | x :: xs => (w ++ x) :: xs end).
  { induction w as [|c w IH]; intros rest N.
    - cbn [app]. destruct (split sep rest) eqn:E; [|reflexivity]. exfalso. destruct rest; cbn [split] in E; [discriminate|].
      destruct (beqc a sep); [discriminate|]. destruct (split sep rest); discriminate.
    - cbn [app split]. destruct (beqc c sep) eqn:E; [apply beqc_eq in E; exfalso; apply N; left; exact E|].
      rewrite IH by (intros I; apply N; right; exact I). destruct (split sep rest); reflexivity. }
  induction l as [|x l IH]; intros w N F.
  - cbn [map concat]. rewrite G by exact N. cbn [split]. rewrite app_nil_r. reflexivity.
  - cbn [map concat]. inversion F; subst. rewrite G by exact N. cbn [app split]. rewrite beqc_refl.
    rewrite IH by assumption. rewrite app_nil_r. reflexivity.
Qed.

Definition commas {A} (f : A -> list bytes) (l : list A) : bytes :=
  match l with [] => [] | a :: l' => concat (f a) ++ concat (map (cons ","%char) (map (fun x => concat (f x)) l')) end.

Lemma comma_writes_concat {A} (f : A -> list bytes) l : concat (comma_writes f true l) = commas f l.
Proof.
  assert (G : forall l, concat (comma_writes f false l) = concat (map (cons ","%char) (map (fun x => concat (f x)) l))).
  { clear. induction l as [|a l IH]; [reflexivity|]. cbn [comma_writes map]. cbn [app]. rewrite !concat_cons, concat_app, IH. reflexivity. }
  destruct l as [|a l]; [reflexivity|]. cbn [comma_writes app commas]. rewrite concat_app, G. reflexivity.
Qed.

Lemma split_commas {A} (f : A -> list bytes) l : l <> [] -> Forall (fun x => ~ In ","%char (concat (f x))) l ->
  split ","%char (commas f l) = map (fun x => concat (f x)) l.
Proof.
  intros N F. destruct l as [|a l]; [contradiction|]. inversion F; subst. unfold commas. rewrite split_parts; [reflexivity|assumption|].
  clear - H2. induction H2; constructor; assumption.
Qed.

Lemma mapM_map {A B C} (g : A -> B) (f : B -> res C) (h : A -> C) l : Forall (fun x => f (g x) = Ok (h x)) l -> mapM f (map g l) = Ok (map h l).
Proof. induction 1 as [|x l E F IH]; [reflexivity|]. cbn [map mapM]. rewrite E. cbn [bind]. rewrite IH. reflexivity. Qed.

(** ** Numbers and days as text *)
Definition numchar (c : byte) : bool := is_digit c || beqc c "-" || in_range 65 90 (code c).
Lemma numchar_ok c : numchar c = true -> value_char c = true /\ c <> ";"%char /\ c <> ","%char.
Proof.
  intros H. pose proof (byte_forall (fun c => implb (numchar c) (value_char c && negb (inset c (bs ";,")))) ltac:(vm_compute; reflexivity) c) as B.
  cbv beta in B. rewrite H in B. cbn [implb] in B. apply andb_true_iff in B as [B1 B2]. split; [exact B1|].
  apply negb_true_iff, inset_nIn in B2. cbn [bs list_ascii_of_string In] in B2. split; intros ->; apply B2; tauto.
Qed.

Lemma numchar_comma s : forallb numchar s = true -> ~ In ","%char s.
Proof. intros H I. rewrite forallb_forall in H. specialize (H _ I). apply numchar_ok in H as (_ & _ & N). apply N. reflexivity. Qed.

Lemma fmt_uint_chars n : 0 <= n -> forallb numchar (fmt_uint n) = true.
Proof. intros H. eapply forallb_impl; [|apply fmt_uint_digits, H]. intros c D. unfold numchar. rewrite D. reflexivity. Qed.

Lemma fmt_int_chars n : forallb numchar (fmt_int n) = true.
Proof.
  unfold fmt_int. destruct (n <? 0) eqn:E; [|apply fmt_uint_chars; lia]. cbn [forallb]. rewrite fmt_uint_chars by lia. reflexivity.
Qed.

Definition fu (z : Z) : list bytes := [fmt_uint z].
Definition fi (z : Z) : list bytes := [fmt_int z].
Definition fd (d : dayrecur) : list bytes := (if dr_occ d =? 0 then [] else [fmt_int (dr_occ d)]) ++ day_writes (dr_day d).

Definition day_ok (d : dayrecur) : Prop := 1 <= dr_day d <= 7 /\ -53 <= dr_occ d <= 53.

Lemma day_sweep d : day_ok d -> parse_day (concat (fd d)) = Ok d /\ forallb numchar (concat (fd d)) = true.
Proof.
  destruct d as [day occ]. intros [D O]. cbn [dr_day dr_occ] in *.
  assert (B : forallb (fun i => forallb (fun j => match parse_day (concat (fd (DayRecur (i + 1) (j - 53)))) with
     Ok d => (dr_day d =? i + 1) && (dr_occ d =? j - 53) | _ => false end && forallb numchar (concat (fd (DayRecur (i + 1) (j - 53))))) (upto 107)) (upto 7) = true) by (vm_compute; reflexivity).
  pose proof (upto_forall 7 _ B (day - 1) ltac:(lia)) as B1. cbv beta in B1.
  pose proof (upto_forall 107 _ B1 (occ + 53) ltac:(lia)) as B2. cbv beta in B2.
  replace (day - 1 + 1) with day in B2 by lia. replace (occ + 53 - 53) with occ in B2 by lia.
  clear B B1. apply andb_true_iff in B2 as [B2 B3]. split; [|exact B3]. clear B3.
  revert B2. generalize (parse_day (concat (fd (DayRecur day occ)))) as X. intros X B2.
  destruct X as [[d' o']| | |]; try discriminate. cbn [dr_day dr_occ] in B2.
  f_equal. f_equal; lia.
Qed.

Lemma ulist_rt lo hi l : l <> [] -> 0 <= lo -> hi < 256 -> within lo hi l -> parse_ulist lo hi (commas fu l) = Ok l.
Proof.
  intros N L H W. unfold parse_ulist. rewrite split_commas; [|exact N|].
  - rewrite (mapM_map _ _ (fun z => z)); [rewrite map_id; reflexivity|]. eapply Forall_impl; [|exact W]. intros v R. cbv beta in R.
    unfold fu. cbn [concat]. rewrite app_nil_r, (parse_uint_fmt 8) by (change (2 ^ 8) with 256; lia).
    unfold in_range. replace ((lo <=? v) && (v <=? hi)) with true by lia. reflexivity.
  - eapply Forall_impl; [|exact W]. intros v R. cbv beta in R. apply numchar_comma. unfold fu. cbn [concat]. rewrite app_nil_r. apply fmt_uint_chars. lia.
Qed.

Lemma slist_rt bits hi l : l <> [] -> 0 < bits <= 64 -> hi < 2 ^ (bits - 1) -> within_signed hi l -> parse_slist bits hi (commas fi l) = Ok l.
Proof.
  intros N L H W. unfold parse_slist. rewrite split_commas; [|exact N|].
  - rewrite (mapM_map _ _ (fun z => z)); [rewrite map_id; reflexivity|]. eapply Forall_impl; [|exact W]. intros v [NZ R].
    unfold fi. cbn [concat]. rewrite app_nil_r, (parse_int_fmt bits) by lia.
    replace ((v =? 0) || (hi <? v) || (v <? - hi)) with false by lia. reflexivity.
  - apply Forall_forall. intros v _. apply numchar_comma. unfold fi. cbn [concat]. rewrite app_nil_r. apply fmt_int_chars.
Qed.

Lemma days_rt l : l <> [] -> Forall day_ok l -> mapM parse_day (split ","%char (commas fd l)) = Ok l.
Proof.
  intros N W. rewrite split_commas; [|exact N|].
  - rewrite (mapM_map _ _ (fun z => z)); [rewrite map_id; reflexivity|]. eapply Forall_impl; [|exact W]. intros d D. apply (day_sweep d D).
  - eapply Forall_impl; [|exact W]. intros d D. apply numchar_comma, (day_sweep d D).
Qed.

Lemma commas_chars {A} (f : A -> list bytes) (p : byte -> bool) l : p ","%char = true ->
  Forall (fun x => forallb p (concat (f x)) = true) l -> forallb p (commas f l) = true.
Proof.
  intros P F. destruct l as [|a l]; [reflexivity|]. inversion F; subst. unfold commas. rewrite forallb_app, H1. cbn [andb].
  clear - H2 P. induction H2 as [|x l E F IH]; [reflexivity|]. cbn [map concat app forallb]. rewrite P, forallb_app, E, IH. reflexivity.
Qed.

Section Rules.
Context {env : Env}.

(** ** The rules of a recurrence *)
Definition rule_text (k v : bytes) : bytes := k ++ bs "=" ++ v.
Definition opt (b : bool) (k v : bytes) : list bytes := if b then [rule_text k v] else [].
Definition until_text (r : recur) : bytes := concat (if r_untiltime r then datetime_encode (r_until r) else date_encode (r_until r)).

Definition more_rules (r : recur) : list bytes :=
  (if negb (r_count r =? 0) then opt true (bs "COUNT") (fmt_uint (r_count r))
   else opt (negb (is_zero (r_until r))) (bs "UNTIL") (until_text r)) ++
  opt (negb (r_interval r =? 0)) (bs "INTERVAL") (fmt_uint (r_interval r)) ++
  opt (negb (isnil (r_bysecond r))) (bs "BYSECOND") (commas fu (r_bysecond r)) ++
  opt (negb (isnil (r_byminute r))) (bs "BYMINUTE") (commas fu (r_byminute r)) ++
  opt (negb (isnil (r_byhour r))) (bs "BYHOUR") (commas fu (r_byhour r)) ++
  opt (negb (isnil (r_byday r))) (bs "BYDAY") (commas fd (r_byday r)) ++
  opt (negb (isnil (r_bymonthday r))) (bs "BYMONTHDAY") (commas fi (r_bymonthday r)) ++
  opt (negb (isnil (r_byyearday r))) (bs "BYYEARDAY") (commas fi (r_byyearday r)) ++
  opt (negb (isnil (r_byweekno r))) (bs "BYWEEKNO") (commas fi (r_byweekno r)) ++
  opt (negb (isnil (r_bymonth r))) (bs "BYMONTH") (commas fu (r_bymonth r)) ++
  opt (negb (isnil (r_bysetpos r))) (bs "BYSETPOS") (commas fi (r_bysetpos r)) ++
  opt (negb (r_wkst r =? 0)) (bs "WKST") (word_of_day (r_wkst r)).
Definition freq_word (r : recur) : bytes := nth (Z.to_nat (r_freq r)) freq_words [].

Definition semis (l : list bytes) : bytes := concat (map (cons ";"%char) l).
Lemma semis_app a b : semis (a ++ b) = semis a ++ semis b.
Proof. unfold semis. rewrite map_app, concat_app. reflexivity. Qed.

Lemma list_semis {A} key k (f : A -> list bytes) l : key = ";"%char :: k ++ bs "=" ->
  concat (list_writes key f l) = semis (opt (negb (isnil l)) k (commas f l)).
Proof.
  intros ->. unfold list_writes, opt, semis. destruct l as [|a l]; [reflexivity|]. cbn [isnil negb map concat]. rewrite concat_app, comma_writes_concat.
  cbn [concat]. unfold rule_text. rewrite !app_nil_r. cbn [app]. rewrite <- app_assoc. reflexivity.
Qed.

Lemma recur_encode_plain r : 0 <= r_freq r <= 6 -> 0 <= r_wkst r <= 7 ->
  concat (recur_encode r) = rule_text (bs "FREQ") (freq_word r) ++ semis (more_rules r).
Proof.
  intros R RW. unfold recur_encode, more_rules. rewrite !concat_app, !semis_app.
  rewrite (list_semis _ (bs "BYSECOND")), (list_semis _ (bs "BYMINUTE")), (list_semis _ (bs "BYHOUR")), (list_semis _ (bs "BYDAY")),
    (list_semis _ (bs "BYMONTHDAY")), (list_semis _ (bs "BYYEARDAY")), (list_semis _ (bs "BYWEEKNO")), (list_semis _ (bs "BYMONTH")),
    (list_semis _ (bs "BYSETPOS")) by reflexivity.
  unfold in_range at 1. replace ((0 <=? r_freq r) && (r_freq r <=? 6)) with true by lia.
  f_equal; [cbn [concat]; rewrite app_nil_r; reflexivity|].
  f_equal.
  { destruct (negb (r_count r =? 0)); [cbn [concat]; rewrite app_nil_r; unfold opt, semis, rule_text; cbn [map concat]; rewrite app_nil_r; reflexivity|].
    destruct (negb (is_zero (r_until r))); [|reflexivity]. rewrite concat_app. unfold opt, semis, rule_text, until_text. cbn [map concat]. rewrite !app_nil_r. reflexivity. }
  f_equal.
  { destruct (negb (r_interval r =? 0)); [|reflexivity]. cbn [concat]; rewrite app_nil_r; unfold opt, semis, rule_text; cbn [map concat]; rewrite app_nil_r; reflexivity. }
  do 9 (f_equal).
  destruct (r_wkst r =? 0) eqn:W; [reflexivity|]. cbn [negb]. unfold day_writes, in_range. replace ((1 <=? r_wkst r) && (r_wkst r <=? 7)) with true by lia.
  unfold opt, semis, rule_text. cbn [app map concat]. rewrite !app_nil_r. reflexivity.
Qed.

Lemma recur_encode_rules r : recur_in_range r ->
  concat (recur_encode r) = rule_text (bs "FREQ") (freq_word r) ++ semis (more_rules r).
Proof. intros R. unfold recur_in_range in R. apply recur_encode_plain; lia. Qed.

(** One rule at a time. *)
Lemma rules_step m r fq k v r' fq' rest : ~ In "="%char k -> recur_rule m r fq k v = Ok (r', fq') ->
  recur_rules m r fq (rule_text k v :: rest) = recur_rules m r' fq' rest.
Proof.
  intros N H. cbn [recur_rules]. unfold rule_text. change (bs "=" ++ v) with ("="%char :: v). rewrite cut_app by exact N. rewrite H. reflexivity.
Qed.

Lemma rules_opt m r fq b k v r' rest : ~ In "="%char k -> (b = true -> recur_rule m r fq k v = Ok (r', fq)) -> (b = false -> r' = r) ->
  recur_rules m r fq (opt b k v ++ rest) = recur_rules m r' fq rest.
Proof.
  intros N H H0. unfold opt. destruct b.
  - cbn [app]. apply rules_step; auto.
  - cbn [app]. rewrite H0; reflexivity.
Qed.

Lemma freq_sweep f : 0 <= f <= 6 -> index_of (nth (Z.to_nat f) freq_words []) freq_words = Some (Z.to_nat f) /\
  forallb numchar (nth (Z.to_nat f) freq_words []) = true.
Proof.
  intros H. pose proof (upto_forall 7 (fun f => match index_of (nth (Z.to_nat f) freq_words []) freq_words with Some n => Nat.eqb n (Z.to_nat f) | None => false end
    && forallb numchar (nth (Z.to_nat f) freq_words [])) ltac:(vm_compute; reflexivity) f ltac:(lia)) as B. cbv beta in B.
  apply andb_true_iff in B as [B1 B2]. split; [|exact B2]. destruct (index_of _ _); [|discriminate]. apply Nat.eqb_eq in B1. subst. reflexivity.
Qed.

Lemma wkst_sweep d : 1 <= d <= 7 -> day_of_word (word_of_day d) = Some d /\ forallb numchar (word_of_day d) = true.
Proof.
  intros H. pose proof (upto_forall 8 (fun d => implb (1 <=? d) (match day_of_word (word_of_day d) with Some n => n =? d | None => false end
    && forallb numchar (word_of_day d))) ltac:(vm_compute; reflexivity) d ltac:(lia)) as B. cbv beta in B. replace (1 <=? d) with true in B by lia. cbn [implb] in B.
  apply andb_true_iff in B as [B1 B2]. split; [|exact B2]. destruct (day_of_word _); [|discriminate]. f_equal. lia.
Qed.

Ltac keyneq := intros X; repeat (destruct X as [X|X]; [discriminate X|]); exact X.

Lemma isnil_true {A} (l : list A) : isnil l = true -> l = [].
Proof. destruct l; [reflexivity|discriminate]. Qed.
Lemma isnil_false {A} (l : list A) : isnil l = false -> l <> [].
Proof. destruct l; [discriminate|intros _ X; discriminate]. Qed.

Lemma until_length r : until_good r -> is_zero (r_until r) = false ->
  r_untiltime r = true -> Nat.ltb 10 (length (until_text r)) = true.
Proof.
  intros [[U _]|(_ & [(_ & U)|(U & _)])] Z0 T; [rewrite U in Z0; discriminate| |congruence].
  unfold until_text. rewrite T. destruct U as (_ & W & _). unfold in_years in W.
  destruct (wall_parts _ W) as (y & m & d & h & mi & s & S' & Y & M & D & H & MI & SS & V).
  unfold datetime_encode, format_datetime. rewrite (format_date_text _ y m d h mi s), (format_clock_text _ y m d h mi s) by auto.
  destruct (t_loc (r_until r)); reflexivity.
Qed.

Lemma until_length_date r : until_good r -> is_zero (r_until r) = false ->
  r_untiltime r = false -> Nat.ltb 10 (length (until_text r)) = false.
Proof.
  intros [[U _]|(_ & [(U & _)|(_ & U & _)])] Z0 T; [rewrite U in Z0; discriminate|congruence|].
  unfold until_text. rewrite T. unfold date_encode. cbn [concat]. rewrite app_nil_r.
  apply utc_years in U. unfold in_years in U.
  destruct (wall_parts _ U) as (y & m & d & h & mi & s & S' & Y & M & D & H & MI & SS & V).
  rewrite (format_date_text _ y m d h mi s) by auto. reflexivity.
Qed.

Lemma until_chars r : until_good r -> forallb tchar (until_text r) = true.
Proof.
  intros [[U T]|(_ & [(T & U)|(T & U & _)])]; unfold until_text; rewrite T.
  - rewrite U. unfold date_encode. cbn [concat]. rewrite app_nil_r. vm_compute. reflexivity.
  - apply datetime_chars, U.
  - unfold date_encode. cbn [concat]. rewrite app_nil_r. apply format_date_chars, utc_years, U.
Qed.

Theorem recur_rt m r : pmap_get m (bs "TZID") = zone_of (r_until r) -> recur_in_range r -> until_good r ->
  recur_decode m (concat (recur_encode r)) = Ok r.
Proof.
  intros TZ R U. rewrite recur_encode_rules by exact R. unfold recur_decode.
  assert (SEMI : forall s, forallb (fun c => numchar c || tchar c || beqc c "="%char || beqc c ","%char) s = true -> ~ In ";"%char s).
  { intros s H I. rewrite forallb_forall in H. specialize (H _ I). discriminate. }
  assert (NUM : forall s, forallb numchar s = true -> forallb (fun c => numchar c || tchar c || beqc c "="%char || beqc c ","%char) s = true).
  { intros s H. eapply forallb_impl; [|exact H]. intros c C. cbv beta. rewrite C. reflexivity. }
  pose proof R as R0.
  destruct R0 as (Rf & Rw & Rc & Ri & Rse & Rmi & Rho & Rda & Rmd & Ryd & Rwn & Rmo & Rsp & Rcu).
  assert (CU : forall lo hi l, 0 <= lo -> within lo hi l -> forallb (fun c => numchar c || tchar c || beqc c "="%char || beqc c ","%char) (commas fu l) = true).
  { intros lo hi l L W. apply commas_chars; [reflexivity|]. eapply Forall_impl; [|exact W]. intros v V. cbv beta in V. apply NUM. unfold fu. cbn [concat]. rewrite app_nil_r. apply fmt_uint_chars. lia. }
  assert (CI : forall l, forallb (fun c => numchar c || tchar c || beqc c "="%char || beqc c ","%char) (commas fi l) = true).
  { intros l. apply commas_chars; [reflexivity|]. apply Forall_forall. intros v _. apply NUM. unfold fi. cbn [concat]. rewrite app_nil_r. apply fmt_int_chars. }
  assert (CD : forallb (fun c => numchar c || tchar c || beqc c "="%char || beqc c ","%char) (commas fd (r_byday r)) = true).
  { apply commas_chars; [reflexivity|]. eapply Forall_impl; [|exact Rda]. intros d D. apply NUM, (day_sweep d D). }
  assert (OPT : forall b k v, forallb (fun c => numchar c || tchar c || beqc c "="%char || beqc c ","%char) k = true ->
     (b = true -> forallb (fun c => numchar c || tchar c || beqc c "="%char || beqc c ","%char) v = true) ->
     Forall (fun x => ~ In ";"%char x) (opt b k v)).
  { intros b k v K V. unfold opt. destruct b; constructor; [|constructor]. apply SEMI. unfold rule_text. rewrite !forallb_app, K, V by reflexivity. reflexivity. }
  unfold semis. rewrite split_parts.
  - rewrite (rules_step m _ _ _ _ (Recur (r_freq r) 0 false zero_time 0 0 [] [] [] [] [] [] [] [] []) true); [|keyneq|].
    2:{ unfold recur_rule, zero_recur. change (beq (bs "FREQ") (bs "FREQ")) with true. cbv iota. unfold freq_word.
        rewrite (proj1 (freq_sweep _ Rf)). rewrite Z2Nat.id by lia. reflexivity. }
    destruct r as [fr wk ut un co iv bse bmi bho bda bmd byd bwn bmo bsp].
    unfold more_rules. cbn [r_freq r_wkst r_untiltime r_until r_count r_interval r_bysecond r_byminute r_byhour r_byday r_bymonthday r_byyearday r_byweekno r_bymonth r_bysetpos] in *.
    assert (STEP1 : forall rest, recur_rules m (Recur fr 0 false zero_time 0 0 [] [] [] [] [] [] [] [] []) true
       ((if negb (co =? 0) then opt true (bs "COUNT") (fmt_uint co) else opt (negb (is_zero un)) (bs "UNTIL") (until_text (Recur fr wk ut un co iv bse bmi bho bda bmd byd bwn bmo bsp))) ++ rest) =
       recur_rules m (Recur fr 0 ut un co 0 [] [] [] [] [] [] [] [] []) true rest).
    { intros rest. destruct (co =? 0) eqn:C; cbn [negb].
      - assert (co = 0) by lia. subst co. apply rules_opt; [keyneq| |].
        + intros Z0. apply negb_true_iff in Z0. unfold recur_rule. change (beq (bs "UNTIL") (bs "FREQ")) with false. change (beq (bs "UNTIL") (bs "UNTIL")) with true. cbv iota.
          change (0 <? 0) with false. cbv iota.
          pose proof (until_length _ U Z0) as L1. pose proof (until_length_date _ U Z0) as L2. cbn [r_untiltime] in L1, L2.
          destruct U as [[U _]|(_ & [(T & MG)|(T & (sec & E & RR) & UT)])]; cbn [r_until r_untiltime] in *; [rewrite U in Z0; discriminate| |]; subst ut.
          * rewrite (L1 eq_refl). unfold until_text. cbn [r_untiltime r_until]. rewrite moment_rt by assumption. reflexivity.
          * subst un. rewrite (L2 eq_refl). unfold until_text. cbn [r_untiltime r_until].
            pose proof (v_date_utc m sec UT RR) as VD. cbn [value_decode value_encode] in VD.
            destruct (date_decode (concat (date_encode (Time sec 0 LUTC)))) as [t| | |]; cbn [rmap bind] in VD; try discriminate.
            apply Ok_inj in VD. injection VD as ->. reflexivity.
        + intros Z0. apply negb_false_iff in Z0. destruct U as [[U1 U2]|(Z1 & _)]; cbn [r_until r_untiltime] in *; [subst; reflexivity|congruence].
      - apply rules_opt; [keyneq| |discriminate]. intros _. unfold recur_rule. change (beq (bs "COUNT") (bs "FREQ")) with false.
        change (beq (bs "COUNT") (bs "UNTIL")) with false. change (beq (bs "COUNT") (bs "COUNT")) with true. cbv iota.
        change (is_zero zero_time) with true. cbn [negb]. rewrite parse_uint_fmt by lia.
        destruct Rcu as [Rcu|Rcu]; [lia|]. destruct U as [[U1 U2]|(Z1 & _)]; cbn [r_until r_untiltime] in *; [subst; reflexivity|congruence]. }
    rewrite STEP1. clear STEP1.
    rewrite (rules_opt m _ true _ _ _ (Recur fr 0 ut un co iv [] [] [] [] [] [] [] [] [])); [|keyneq| |].
    2:{ intros Z0. unfold recur_rule. change (beq (bs "INTERVAL") (bs "FREQ")) with false. change (beq (bs "INTERVAL") (bs "UNTIL")) with false.
        change (beq (bs "INTERVAL") (bs "COUNT")) with false. change (beq (bs "INTERVAL") (bs "INTERVAL")) with true. cbv iota.
        change (0 <? 0) with false. cbv iota. rewrite parse_uint_fmt by lia. reflexivity. }
    2:{ intros Z0. replace iv with 0 by lia. reflexivity. }
    rewrite (rules_opt m _ true _ _ _ (Recur fr 0 ut un co iv bse [] [] [] [] [] [] [] [])); [|keyneq| |].
    2:{ intros Z0. apply negb_true_iff, isnil_false in Z0. change (recur_rule m (Recur fr 0 ut un co iv [] [] [] [] [] [] [] [] []) true (bs "BYSECOND") (commas fu bse)) with
         (let! l := parse_ulist 0 60 (commas fu bse) in Ok (Recur fr 0 ut un co iv l [] [] [] [] [] [] [] [], true)). rewrite ulist_rt by (auto; lia). reflexivity. }
    2:{ intros Z0. apply negb_false_iff, isnil_true in Z0. subst. reflexivity. }
    rewrite (rules_opt m _ true _ _ _ (Recur fr 0 ut un co iv bse bmi [] [] [] [] [] [] [])); [|keyneq| |].
    2:{ intros Z0. apply negb_true_iff, isnil_false in Z0. change (recur_rule m (Recur fr 0 ut un co iv bse [] [] [] [] [] [] [] []) true (bs "BYMINUTE") (commas fu bmi)) with
         (let! l := parse_ulist 0 59 (commas fu bmi) in Ok (Recur fr 0 ut un co iv bse l [] [] [] [] [] [] [], true)). rewrite ulist_rt by (auto; lia). reflexivity. }
    2:{ intros Z0. apply negb_false_iff, isnil_true in Z0. subst. reflexivity. }
    rewrite (rules_opt m _ true _ _ _ (Recur fr 0 ut un co iv bse bmi bho [] [] [] [] [] [])); [|keyneq| |].
    2:{ intros Z0. apply negb_true_iff, isnil_false in Z0. change (recur_rule m (Recur fr 0 ut un co iv bse bmi [] [] [] [] [] [] []) true (bs "BYHOUR") (commas fu bho)) with
         (let! l := parse_ulist 0 23 (commas fu bho) in Ok (Recur fr 0 ut un co iv bse bmi l [] [] [] [] [] [], true)). rewrite ulist_rt by (auto; lia). reflexivity. }
    2:{ intros Z0. apply negb_false_iff, isnil_true in Z0. subst. reflexivity. }
    rewrite (rules_opt m _ true _ _ _ (Recur fr 0 ut un co iv bse bmi bho bda [] [] [] [] [])); [|keyneq| |].
    2:{ intros Z0. apply negb_true_iff, isnil_false in Z0. change (recur_rule m (Recur fr 0 ut un co iv bse bmi bho [] [] [] [] [] []) true (bs "BYDAY") (commas fd bda)) with
         (let! l := mapM parse_day (split ","%char (commas fd bda)) in Ok (Recur fr 0 ut un co iv bse bmi bho l [] [] [] [] [], true)). rewrite days_rt by auto. reflexivity. }
    2:{ intros Z0. apply negb_false_iff, isnil_true in Z0. subst. reflexivity. }
    rewrite (rules_opt m _ true _ _ _ (Recur fr 0 ut un co iv bse bmi bho bda bmd [] [] [] [])); [|keyneq| |].
    2:{ intros Z0. apply negb_true_iff, isnil_false in Z0. change (recur_rule m (Recur fr 0 ut un co iv bse bmi bho bda [] [] [] [] []) true (bs "BYMONTHDAY") (commas fi bmd)) with
         (let! l := parse_slist 8 31 (commas fi bmd) in Ok (Recur fr 0 ut un co iv bse bmi bho bda l [] [] [] [], true)). rewrite slist_rt by (auto; lia). reflexivity. }
    2:{ intros Z0. apply negb_false_iff, isnil_true in Z0. subst. reflexivity. }
    rewrite (rules_opt m _ true _ _ _ (Recur fr 0 ut un co iv bse bmi bho bda bmd byd [] [] [])); [|keyneq| |].
    2:{ intros Z0. apply negb_true_iff, isnil_false in Z0. change (recur_rule m (Recur fr 0 ut un co iv bse bmi bho bda bmd [] [] [] []) true (bs "BYYEARDAY") (commas fi byd)) with
         (let! l := parse_slist 16 366 (commas fi byd) in Ok (Recur fr 0 ut un co iv bse bmi bho bda bmd l [] [] [], true)). rewrite slist_rt by (auto; lia). reflexivity. }
    2:{ intros Z0. apply negb_false_iff, isnil_true in Z0. subst. reflexivity. }
    rewrite (rules_opt m _ true _ _ _ (Recur fr 0 ut un co iv bse bmi bho bda bmd byd bwn [] [])); [|keyneq| |].
    2:{ intros Z0. apply negb_true_iff, isnil_false in Z0. change (recur_rule m (Recur fr 0 ut un co iv bse bmi bho bda bmd byd [] [] []) true (bs "BYWEEKNO") (commas fi bwn)) with
         (let! l := parse_slist 8 53 (commas fi bwn) in Ok (Recur fr 0 ut un co iv bse bmi bho bda bmd byd l [] [], true)). rewrite slist_rt by (auto; lia). reflexivity. }
    2:{ intros Z0. apply negb_false_iff, isnil_true in Z0. subst. reflexivity. }
    rewrite (rules_opt m _ true _ _ _ (Recur fr 0 ut un co iv bse bmi bho bda bmd byd bwn bmo [])); [|keyneq| |].
    2:{ intros Z0. apply negb_true_iff, isnil_false in Z0. change (recur_rule m (Recur fr 0 ut un co iv bse bmi bho bda bmd byd bwn [] []) true (bs "BYMONTH") (commas fu bmo)) with
         (let! l := parse_ulist 1 12 (commas fu bmo) in Ok (Recur fr 0 ut un co iv bse bmi bho bda bmd byd bwn l [], true)). rewrite ulist_rt by (auto; lia). reflexivity. }
    2:{ intros Z0. apply negb_false_iff, isnil_true in Z0. subst. reflexivity. }
    rewrite (rules_opt m _ true _ _ _ (Recur fr 0 ut un co iv bse bmi bho bda bmd byd bwn bmo bsp)); [|keyneq| |].
    2:{ intros Z0. apply negb_true_iff, isnil_false in Z0. change (recur_rule m (Recur fr 0 ut un co iv bse bmi bho bda bmd byd bwn bmo []) true (bs "BYSETPOS") (commas fi bsp)) with
         (let! l := parse_slist 16 366 (commas fi bsp) in Ok (Recur fr 0 ut un co iv bse bmi bho bda bmd byd bwn bmo l, true)). rewrite slist_rt by (auto; lia). reflexivity. }
    2:{ intros Z0. apply negb_false_iff, isnil_true in Z0. subst. reflexivity. }
    rewrite <- (app_nil_r (opt (negb (wk =? 0)) (bs "WKST") (word_of_day wk))).
    rewrite (rules_opt m _ true _ _ _ (Recur fr wk ut un co iv bse bmi bho bda bmd byd bwn bmo bsp)); [|keyneq| |].
    2:{ intros Z0. change (recur_rule m (Recur fr 0 ut un co iv bse bmi bho bda bmd byd bwn bmo bsp) true (bs "WKST") (word_of_day wk)) with
         (match day_of_word (word_of_day wk) with Some d => Ok (Recur fr d ut un co iv bse bmi bho bda bmd byd bwn bmo bsp, true) | None => Err ErrInvalidRecur end).
        rewrite (proj1 (wkst_sweep wk ltac:(lia))). reflexivity. }
    2:{ intros Z0. replace wk with 0 by lia. reflexivity. }
    reflexivity.
  - apply SEMI. unfold rule_text. rewrite !forallb_app. unfold freq_word. rewrite (NUM (nth _ _ _)) by apply freq_sweep, Rf. reflexivity.
  - unfold more_rules. rewrite !Forall_app. repeat split; try (apply OPT; [reflexivity|intros _]).
    + destruct (negb (r_count r =? 0)); apply OPT; try reflexivity; intros _.
      * apply NUM, fmt_uint_chars. lia.
      * eapply forallb_impl; [|apply until_chars, U]. intros c C. cbv beta. rewrite C. rewrite orb_true_r. reflexivity.
    + apply NUM, fmt_uint_chars. lia.
    + apply (CU 0 60); [lia|assumption].
    + apply (CU 0 59); [lia|assumption].
    + apply (CU 0 23); [lia|assumption].
    + exact CD.
    + apply CI.
    + apply CI.
    + apply CI.
    + apply (CU 1 12); [lia|assumption].
    + apply CI.
    + destruct (Z.eq_dec (r_wkst r) 0) as [->|N]; [reflexivity|]. apply NUM, wkst_sweep. lia.
Qed.

(** The text of a rule has no control characters. *)
Lemma recur_chars r : recur_in_range r -> until_good r -> forallb value_char (concat (recur_encode r)) = true.
Proof.
  intros R U. rewrite recur_encode_rules by exact R.
  assert (NUM : forall s, forallb numchar s = true -> forallb value_char s = true).
  { intros s H. eapply forallb_impl; [|exact H]. intros c C. apply numchar_ok, C. }
  destruct R as (Rf & Rw & Rc & Ri & Rse & Rmi & Rho & Rda & Rmd & Ryd & Rwn & Rmo & Rsp & Rcu).
  assert (CU : forall lo hi l, 0 <= lo -> within lo hi l -> forallb value_char (commas fu l) = true).
  { intros lo hi l L W. apply commas_chars; [reflexivity|]. eapply Forall_impl; [|exact W]. intros v V. cbv beta in V. apply NUM. unfold fu. cbn [concat]. rewrite app_nil_r. apply fmt_uint_chars. lia. }
  assert (CI : forall l, forallb value_char (commas fi l) = true).
  { intros l. apply commas_chars; [reflexivity|]. apply Forall_forall. intros v _. apply NUM. unfold fi. cbn [concat]. rewrite app_nil_r. apply fmt_int_chars. }
  assert (CD : forallb value_char (commas fd (r_byday r)) = true).
  { apply commas_chars; [reflexivity|]. eapply Forall_impl; [|exact Rda]. intros d D. apply NUM, (day_sweep d D). }
  assert (OPT : forall b k v, forallb value_char k = true -> forallb value_char v = true -> forallb value_char (semis (opt b k v)) = true).
  { intros b k v K V. unfold opt, semis. destruct b; [|reflexivity]. cbn [map concat app forallb]. unfold rule_text. rewrite !forallb_app, K, V. reflexivity. }
  rewrite forallb_app. apply andb_true_iff. split.
  - unfold rule_text. rewrite !forallb_app. unfold freq_word. rewrite (NUM (nth _ _ _)) by apply freq_sweep, Rf. reflexivity.
  - unfold more_rules. rewrite !semis_app, !forallb_app. repeat (apply andb_true_iff; split); try (apply OPT; [reflexivity|]).
    + destruct (negb (r_count r =? 0)); apply OPT; try reflexivity.
      * apply NUM, fmt_uint_chars. lia.
      * eapply forallb_impl; [|apply until_chars, U]. intros c C. apply tchar_value, C.
    + apply NUM, fmt_uint_chars. lia.
    + apply (CU 0 60); [lia|assumption].
    + apply (CU 0 59); [lia|assumption].
    + apply (CU 0 23); [lia|assumption].
    + exact CD.
    + apply CI.
    + apply CI.
    + apply CI.
    + apply (CU 1 12); [lia|assumption].
    + apply CI.
    + destruct (Z.eq_dec (r_wkst r) 0) as [->|N]; [reflexivity|]. apply NUM, wkst_sweep. lia.
Qed.

(** ** Decoded rules *)
Lemma mapM_forall {A B} (f : A -> res B) (P : B -> Prop) : (forall a b, f a = Ok b -> P b) ->
  forall l l', mapM f l = Ok l' -> Forall P l'.
Proof.
  intros H. induction l as [|a l IH]; intros l' E; cbn [mapM] in E.
  - apply Ok_inj in E. subst. constructor.
  - apply bind_ok in E as (b & Eb & E). apply bind_ok in E as (l1 & El & E). apply Ok_inj in E. subst. constructor; eauto.
Qed.

Lemma ulist_range lo hi s l : parse_ulist lo hi s = Ok l -> within lo hi l.
Proof.
  unfold parse_ulist. apply mapM_forall. intros w v H. destruct (parse_uint 8 w) as [x|]; [|discriminate].
  unfold in_range in H. destruct (_ && _) eqn:E; [|discriminate]. apply Ok_inj in H. subst. lia.
Qed.

Lemma slist_range bits hi s l : parse_slist bits hi s = Ok l -> within_signed hi l.
Proof.
  unfold parse_slist. apply mapM_forall. intros w v H. destruct (parse_int bits w) as [x|]; [|discriminate].
  destruct (_ || _) eqn:E; [discriminate|]. apply Ok_inj in H. subst. lia.
Qed.

Lemma index_of_lt w l n : index_of w l = Some n -> (n < length l)%nat.
Proof.
  revert n. induction l as [|x l IH]; intros n H; [discriminate|]. cbn [index_of] in H. destruct (beq w x); [injection H as <-; cbn [length]; lia|].
  destruct (index_of w l) as [k|]; [|discriminate]. injection H as <-. specialize (IH k eq_refl). cbn [length]. lia.
Qed.

Lemma day_of_word_range w d : day_of_word w = Some d -> 1 <= d <= 7.
Proof.
  unfold day_of_word. destruct (index_of w day_words) as [n|] eqn:E; [|discriminate]. intros H. injection H as <-.
  apply index_of_lt in E. cbn [day_words length] in E. lia.
Qed.

Lemma parse_day_range w d : parse_day w = Ok d -> day_ok d.
Proof.
  unfold parse_day. destruct w as [|c0 [|c1 w]]; try discriminate. cbv zeta.
  set (neg := beqc c0 "-"). set (day1 := if beqc c0 "+" || neg then c1 :: w else c0 :: c1 :: w). clearbody day1 neg.
  destruct (neg && Nat.ltb (length day1) 2); [discriminate|]. destruct day1 as [|d0 day2]; [discriminate|].
  intros H. apply bind_ok in H as ([[num isnum] day3] & E & H).
  destruct (negb (isnum || negb neg) || negb (Nat.eqb (length day3) 2)); [discriminate|].
  destruct (day_of_word day3) as [dd|] eqn:D; [|discriminate]. apply Ok_inj in H. subst d. unfold day_ok. cbn [dr_day dr_occ].
  split; [apply (day_of_word_range _ _ D)|].
  destruct (is_digit d0) eqn:D0.
  - destruct day2 as [|d1 day2']; [discriminate|].
    destruct (if is_digit d1 then ((code d0 - 48) * 10 + (code d1 - 48), day2') else (code d0 - 48, d1 :: day2')) as [n3 r3] eqn:E3.
    destruct ((n3 =? 0) || (53 <? n3)) eqn:E4; [discriminate|]. apply Ok_inj in E. injection E as <- _ _.
    assert (0 <= n3).
    { unfold is_digit in *. destruct ((48 <=? code d1) && (code d1 <=? 57)) eqn:D1; apply (f_equal fst) in E3; cbn [fst] in E3; lia. }
    destruct neg; lia.
  - apply Ok_inj in E. injection E as <- _ _. lia.
Qed.

Lemma parse_uint_range bits s n : parse_uint bits s = Some n -> 0 <= n < 2 ^ bits.
Proof.
  unfold parse_uint. destruct s as [|c s]; [discriminate|]. destruct (forallb is_digit (c :: s)) eqn:D; [|discriminate].
  cbv zeta. destruct (_ <? _) eqn:E; [|discriminate]. pose proof (digits_val_bound _ D) as B.
  revert E B. generalize (digits_val 0 (c :: s)) as x. intros x E B H. injection H as <-. lia.
Qed.

Lemma recur_rule_range m r fq k v r' fq' : recur_in_range r -> recur_rule m r fq k v = Ok (r', fq') -> recur_in_range r'.
Proof.
  destruct r as [fr wk ut un co iv bse bmi bho bda bmd byd bwn bmo bsp]. unfold recur_in_range.
  cbn [r_freq r_wkst r_untiltime r_until r_count r_interval r_bysecond r_byminute r_byhour r_byday r_bymonthday r_byyearday r_byweekno r_bymonth r_bysetpos].
  intros (Rf & Rw & Rc & Ri & Rse & Rmi & Rho & Rda & Rmd & Ryd & Rwn & Rmo & Rsp & Rcu). unfold recur_rule.
  repeat match goal with
  | |- (if beq k ?w then _ else _) = _ -> _ => destruct (beq k w)
  | |- (if ?b then Err _ else _) = _ -> _ => let E := fresh "E" in destruct b eqn:E; [discriminate|]
  | |- (if Nat.ltb ?a ?b then _ else _) = _ -> _ => destruct (Nat.ltb a b)
  | |- Err _ = _ -> _ => discriminate
  end.
  all: intros H.
  all: try (apply bind_ok in H as (l & EL & H); apply Ok_inj in H; injection H as <- <-;
    cbn [r_freq r_wkst r_untiltime r_until r_count r_interval r_bysecond r_byminute r_byhour r_byday r_bymonthday r_byyearday r_byweekno r_bymonth r_bysetpos];
    first [apply ulist_range in EL | apply slist_range in EL | apply (mapM_forall _ _ parse_day_range) in EL]; intuition fail).
  - destruct (index_of v freq_words) as [n|] eqn:EI; [|discriminate]. apply Ok_inj in H. injection H as <- <-. apply index_of_lt in EI. cbn [freq_words length] in EI.
    cbn [r_freq r_wkst r_untiltime r_until r_count r_interval r_bysecond r_byminute r_byhour r_byday r_bymonthday r_byyearday r_byweekno r_bymonth r_bysetpos].
    repeat split; try assumption; lia.
  - destruct (datetime_decode 0 m v) as [t| | |]; try discriminate. apply Ok_inj in H. injection H as <- <-.
    cbn [r_freq r_wkst r_untiltime r_until r_count r_interval r_bysecond r_byminute r_byhour r_byday r_bymonthday r_byyearday r_byweekno r_bymonth r_bysetpos].
    repeat split; try assumption; lia.
  - destruct (date_decode v) as [t| | |]; try discriminate. apply Ok_inj in H. injection H as <- <-.
    cbn [r_freq r_wkst r_untiltime r_until r_count r_interval r_bysecond r_byminute r_byhour r_byday r_bymonthday r_byyearday r_byweekno r_bymonth r_bysetpos].
    repeat split; try assumption; lia.
  - destruct (parse_uint 64 v) as [n|] eqn:EU; [|discriminate]. apply parse_uint_range in EU. apply Ok_inj in H. injection H as <- <-.
    cbn [r_freq r_wkst r_untiltime r_until r_count r_interval r_bysecond r_byminute r_byhour r_byday r_bymonthday r_byyearday r_byweekno r_bymonth r_bysetpos].
    repeat split; try assumption; try lia.
  - destruct (parse_uint 64 v) as [n|] eqn:EU; [|discriminate]. apply parse_uint_range in EU. apply Ok_inj in H. injection H as <- <-.
    cbn [r_freq r_wkst r_untiltime r_until r_count r_interval r_bysecond r_byminute r_byhour r_byday r_bymonthday r_byyearday r_byweekno r_bymonth r_bysetpos].
    repeat split; try assumption; lia.
  - destruct (day_of_word v) as [d|] eqn:ED; [|discriminate]. apply day_of_word_range in ED. apply Ok_inj in H. injection H as <- <-.
    cbn [r_freq r_wkst r_untiltime r_until r_count r_interval r_bysecond r_byminute r_byhour r_byday r_bymonthday r_byyearday r_byweekno r_bymonth r_bysetpos].
    repeat split; try assumption; lia.
Qed.

Lemma recur_rules_range m rules : forall r fq r' fq', recur_in_range r -> recur_rules m r fq rules = Ok (r', fq') -> recur_in_range r'.
Proof.
  induction rules as [|w rules IH]; intros r fq r' fq' R H; cbn [recur_rules] in H.
  - apply Ok_inj in H. injection H as <- <-. exact R.
  - destruct (cut "="%char w) as [[k v]|]; [|discriminate]. apply bind_ok in H as ([r1 f1] & E & H).
    apply (IH r1 f1 r' fq'); [|exact H]. apply (recur_rule_range m r fq k v r1 f1 R E).
Qed.

Theorem recur_decoded m s r : recur_decode m s = Ok r -> recur_in_range r.
Proof.
  unfold recur_decode. intros H. apply bind_ok in H as ([r1 f1] & E & H). destruct f1; [|discriminate]. apply Ok_inj in H. subst.
  apply recur_rules_range in E; [exact E|]. unfold recur_in_range, zero_recur. cbn. repeat split; try lia; try constructor; reflexivity.
Qed.

Lemma recur_valid_range r : recur_in_range r -> recur_valid r = None.
Proof.
  intros (Rf & Rw & Rc & Ri & Rse & Rmi & Rho & Rda & Rmd & Ryd & Rwn & Rmo & Rsp & Rcu). unfold recur_valid, in_range.
  replace ((0 <=? r_freq r) && (r_freq r <=? 6)) with true by lia. cbn [negb]. unfold all_or.
  assert (G : forall lo hi l p, within lo hi l -> (forall v, lo <= v <= hi -> p v = true) -> forallb p l = true).
  { intros lo hi l p W P. apply forallb_forall. intros v I. unfold within in W. rewrite Forall_forall in W. apply P, W, I. }
  assert (GS : forall hi l p, within_signed hi l -> (forall v, v <> 0 /\ - hi <= v <= hi -> p v = true) -> forallb p l = true).
  { intros hi l p W P. apply forallb_forall. intros v I. unfold within_signed in W. rewrite Forall_forall in W. apply P, W, I. }
  rewrite (G _ _ _ _ Rse) by (intros; lia). rewrite (G _ _ _ _ Rmi) by (intros; lia). rewrite (G _ _ _ _ Rho) by (intros; lia).
  replace (forallb (fun d => (1 <=? dr_day d) && (dr_day d <=? 7)) (r_byday r)) with true.
  2:{ symmetry. apply forallb_forall. intros d I. rewrite Forall_forall in Rda. specialize (Rda d I). lia. }
  rewrite (GS _ _ _ Rmd) by (intros; lia). rewrite (GS _ _ _ Ryd) by (intros; lia). rewrite (GS _ _ _ Rwn) by (intros; lia).
  rewrite (G _ _ _ _ Rmo) by (intros; lia). rewrite (GS _ _ _ Rsp) by (intros; lia).
  replace (negb (r_wkst r =? 0) && negb ((1 <=? r_wkst r) && (r_wkst r <=? 7))) with false by lia. reflexivity.
Qed.

Lemma v_recur m r : pmap_get m (bs "TZID") = zone_of (r_until r) -> recur_in_range r -> until_good r ->
  value_decode KRecur m (concat (value_encode (VRecur r))) = Ok (VRecur r).
Proof. intros M R U. cbn [value_decode value_encode]. rewrite recur_rt by assumption. reflexivity. Qed.

Lemma recur_valid_in_range r : recur_typed r -> recur_valid r = None -> recur_sensible r -> recur_in_range r.
Proof.
  intros (Tf & Tw & Tc & Ti & Tse & Tmi & Tho & Tda & Tmd & Tyd & Twn & Tmo & Tsp) V (So & Sc). unfold recur_valid, in_range, all_or in V.
  repeat match type of V with (if ?c then _ else _) = None => destruct c eqn:?; try discriminate V end.
  repeat match goal with H : forallb _ _ = true |- _ => rewrite forallb_forall in H end.
  unfold within in *. rewrite Forall_forall in *.
  unfold recur_in_range, within, within_signed. rewrite !Forall_forall.
  repeat split; try lia; try assumption;
    match goal with
    | H : In ?x ?l |- _ => repeat match goal with F : forall x, In x l -> _ |- _ => specialize (F x H); cbv beta in F end
    end; lia.
Qed.

Lemma v_recur_exact m r : pmap_get m (bs "TZID") = zone_of (r_until r) -> recur_typed r -> value_valid (VRecur r) = None -> until_good r ->
  (value_decode KRecur m (concat (value_encode (VRecur r))) = Ok (VRecur r) <-> recur_sensible r).
Proof.
  intros T W V U. split.
  - intros D. destruct (recur_decode m (concat (value_encode (VRecur r)))) as [r'| | |] eqn:D'; cbn [value_decode] in D; rewrite D' in D; try discriminate D.
    cbn [rmap bind] in D. injection D as ->. apply recur_decoded in D'. destruct D' as (_ & _ & _ & _ & _ & _ & _ & Da & _ & _ & _ & _ & _ & C).
    split; [|exact C]. eapply Forall_impl; [|exact Da]. cbv beta. intros a [_ B]. exact B.
  - intros Q. apply v_recur; [exact T| |exact U]. exact (recur_valid_in_range r W V Q).
Qed.

Lemma v_recur_decoded m s v : value_decode KRecur m s = Ok v -> exists r, v = VRecur r /\ recur_in_range r /\ value_valid v = None.
Proof.
  cbn [value_decode]. destruct (recur_decode m s) as [r| | |] eqn:D; try discriminate. cbn [rmap bind]. intros H.
  apply Ok_inj in H. subst v. apply recur_decoded in D. exists r. split; [reflexivity|]. split; [exact D|]. apply recur_valid_range, D.
Qed.

Lemma v_recur_lost m r : ~ recur_in_range r -> value_decode KRecur m (concat (value_encode (VRecur r))) <> Ok (VRecur r).
Proof. intros N D. apply v_recur_decoded in D as (r' & E & R & _). injection E as <-. exact (N R). Qed.
End Rules.

(** Rules that Encode accepts and that are out of range: an ordinal of 54, and both COUNT and UNTIL. *)
Definition recur54 {env : Env} : recur := Recur 5 0 false zero_time 0 0 [] [] [] [DayRecur 2 54] [] [] [] [] [].
Definition recur_both {env : Env} : recur := Recur 3 0 true (Time 1700000000 0 LUTC) 10 0 [] [] [] [] [] [] [] [] [].
Lemma recur_bad {env : Env} : recur_valid recur54 = None /\ ~ recur_in_range recur54 /\ recur_valid recur_both = None /\ ~ recur_in_range recur_both.
Proof.
  split; [reflexivity|]. split.
  - intros (_ & _ & _ & _ & _ & _ & _ & D & _). unfold recur54 in D. cbn [r_byday] in D. inversion D as [|x l [_ B] F]. cbn [dr_occ] in B. lia.
  - split; [reflexivity|]. intros (_ & _ & _ & _ & _ & _ & _ & _ & _ & _ & _ & _ & _ & [C|C]); discriminate.
Qed.

Definition recur_good {env : Env} : recur :=
  Recur 6 2 true (Time 1700000000 0 LUTC) 0 2 [0; 30] [] [9] [DayRecur 2 0; DayRecur 6 (-1)] [-1] [] [20] [1; 12] [-2].
Lemma recur_good_ok {env : Env} : recur_typed recur_good /\ recur_sensible recur_good /\ until_good recur_good /\ value_valid (VRecur recur_good) = None /\
  concat (recur_encode recur_good) = bs "FREQ=YEARLY;UNTIL=20231114T221320Z;INTERVAL=2;BYSECOND=0,30;BYHOUR=9;BYDAY=MO,-1FR;BYMONTHDAY=-1;BYWEEKNO=20;BYMONTH=1,12;BYSETPOS=-2;WKST=MO".
Proof.
  assert (G : forall P Q : Prop, P -> Q -> P /\ Q) by (intros; split; assumption).
  apply G; [|apply G; [|split]].
  1,2: unfold recur_typed, recur_sensible, recur_good, within;
    cbn [r_freq r_wkst r_until r_count r_interval r_bysecond r_byminute r_byhour r_byday r_bymonthday r_byyearday r_byweekno r_bymonth r_bysetpos];
    repeat match goal with
    | |- _ /\ _ => split
    | |- Forall _ [] => constructor
    | |- Forall _ (_ :: _) => constructor; cbn [dr_day dr_occ]
    | |- _ = 0 \/ _ => left; reflexivity
    | |- _ => lia
    end.
  - right. split; [reflexivity|]. left. split; [reflexivity|]. split; [reflexivity|]. split; [|exact Logic.I]. apply utc_years. exists 1700000000. split; [reflexivity|lia].
  - split; [reflexivity|vm_compute; reflexivity].
Qed.
