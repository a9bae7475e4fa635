(** What Encode writes is no more than a number of times what the calendar holds. *)
From Coq Require Import String Ascii ZArith Bool List Lia ZifyBool.
From Verif Require Import Base Lib Utf8 Utf8Proofs GoStrings NumProofs Tokeniser SpecContent TextProofs BinaryProofs GoTime Types TimeProofs Params ParamTable PropTable Props SecTable Sections Folder Codec SpecLines FolderProofs SpecTree SpecRules SpecProps EncodeProofs SpecSize SizeProofs SpecParams ParamProofs HangProofs CalProofs EncodableProofs SpecOut OutProofs WrittenProofs FullProofs SpecGrow.
Import ListNotations.

Section Grow.
Context {env : Env}.

(** ** Numbers *)
Lemma uword_length z : uword z -> length (fmt_uint z) <= 20.
Proof. intros U. apply fmt_uint_length; [|lia]. unfold uword in U. split; [lia|]. eapply Z.lt_trans; [apply U|reflexivity]. Qed.
Lemma word_length z : word z -> length (fmt_int z) <= 21.
Proof. intros U. unfold word in U. unfold fmt_int. destruct (z <? 0)%Z eqn:N; cbn [length]; [apply le_n_S|apply le_S]; apply uword_length; unfold uword; lia. Qed.
Lemma itoa_length z : length (itoa z) <= 20.
Proof.
  unfold itoa. destruct (z =? 0)%Z; [cbn; lia|]. assert (X : forall p n acc, length (itoa_loop p n acc) <= p + length acc).
  { induction p as [|p IH]; intros n acc; [reflexivity|]. cbn [itoa_loop]. destruct (0 <? n)%Z; [|lia]. rewrite IH. cbn [length]. lia. }
  rewrite X. reflexivity.
Qed.

(** ** Moments *)
Lemma pad_length_le w z k : 0 < k -> w <= k -> (- 10 ^ Z.of_nat k < z < 10 ^ Z.of_nat k)%Z -> length (pad_int w z) <= S k.
Proof.
  intros K WK H. assert (X : forall n, (0 <= n < 10 ^ Z.of_nat k)%Z -> length (pad_uint w n) <= k).
  { intros n N. pose proof (fmt_uint_length n k N K) as L. unfold pad_uint. rewrite app_length, repeat_length. lia. }
  unfold pad_int. destruct (z <? 0)%Z eqn:N; cbn [length]; [apply le_n_S|apply le_S]; apply X; lia.
Qed.
Lemma year_word n y m d : civil_from_days n = (y, m, d) -> (- 2 ^ 64 < n < 2 ^ 64)%Z -> (- 10 ^ 20 < y < 10 ^ 20)%Z.
Proof.
  unfold civil_from_days. cbv zeta. intros Q H. injection Q as <- _ _.
  set (era := ((n + 719468) / 146097)%Z). set (doe := ((n + 719468) mod 146097)%Z).
  assert (D : (0 <= doe < 146097)%Z) by (apply Z.mod_pos_bound; lia).
  assert (E : (- 2 ^ 50 < era < 2 ^ 50)%Z) by (subst era; split; [apply Z.lt_le_trans with (- 2 ^ 49)%Z; [lia|apply Z.div_le_lower_bound; lia]|apply Z.div_lt_upper_bound; lia]).
  assert (Y : (0 <= (doe - doe / 1460 + doe / 36524 - doe / 146096) / 365 <= 1000)%Z).
  { assert (0 <= doe / 1460 <= 101)%Z by (split; [apply Z.div_pos; lia|apply Z.lt_succ_r, Z.div_lt_upper_bound; lia]).
    assert (0 <= doe / 36524 <= 10)%Z by (split; [apply Z.div_pos; lia|apply Z.lt_succ_r, Z.div_lt_upper_bound; lia]).
    assert (0 <= doe / 146096 <= 1)%Z by (split; [apply Z.div_pos; lia|apply Z.lt_succ_r, Z.div_lt_upper_bound; lia]).
    assert (doe / 1460 + doe / 146096 <= doe)%Z.
    { assert (1460 * (doe / 1460) <= doe)%Z by (apply Z.mul_div_le; lia). assert (146096 * (doe / 146096) <= doe)%Z by (apply Z.mul_div_le; lia). lia. }
    split; [apply Z.div_pos; lia|apply Z.lt_succ_r, Z.div_lt_upper_bound; lia]. }
  destruct (_ <=? 2)%Z; lia.
Qed.
Lemma date_length t : time_word t -> length (format_date t) <= 27.
Proof.
  intros W. unfold time_word, word in W. unfold format_date. pose proof (civil_inverse (wall t / 86400)) as C. destruct (civil_from_days (wall t / 86400)) as [[y m] d] eqn:Q. destruct C as (M & D & _).
  assert (DD : (d <= 31)%Z) by (unfold days_in in D; repeat match type of D with context [if ?b then _ else _] => destruct b end; lia).
  apply year_word in Q; [|split; [apply Z.lt_le_trans with (- 2 ^ 50)%Z; [lia|apply Z.div_le_lower_bound; lia]|apply Z.div_lt_upper_bound; lia]].
  rewrite !app_length. pose proof (pad_length_le 4 y 20 ltac:(lia) ltac:(lia) Q). pose proof (pad_length_le 2 m 2 ltac:(lia) ltac:(lia) ltac:(change (10 ^ Z.of_nat 2)%Z with 100%Z; lia)). pose proof (pad_length_le 2 d 2 ltac:(lia) ltac:(lia) ltac:(change (10 ^ Z.of_nat 2)%Z with 100%Z; lia)). lia.
Qed.
Lemma clock_length t : length (format_clock t) <= 9.
Proof.
  unfold format_clock. cbv zeta. set (s := (wall t mod 86400)%Z). assert (S0 : (0 <= s < 86400)%Z) by (apply Z.mod_pos_bound; lia). rewrite !app_length.
  assert (A : (0 <= s / 3600 < 100)%Z) by (split; [apply Z.div_pos; lia|apply Z.div_lt_upper_bound; lia]). assert (B : (0 <= s / 60 mod 60 < 60)%Z) by (apply Z.mod_pos_bound; lia). assert (C : (0 <= s mod 60 < 60)%Z) by (apply Z.mod_pos_bound; lia).
  pose proof (fun z H => pad_length_le 2 z 2 ltac:(lia) ltac:(lia) H) as P. change (10 ^ Z.of_nat 2)%Z with 100%Z in P. pose proof (P (s / 3600)%Z ltac:(lia)). pose proof (P (s / 60 mod 60)%Z ltac:(lia)). pose proof (P (s mod 60)%Z ltac:(lia)). lia.
Qed.
Lemma moment_length t : time_word t -> length (format_datetime t) <= 37.
Proof. intros W. unfold format_datetime. rewrite !app_length. pose proof (date_length t W). pose proof (clock_length t). cbn [length bs list_ascii_of_string]. lia. Qed.
Lemma datetime_length t : time_word t -> length (concat (datetime_encode t)) <= 38.
Proof. intros W. pose proof (moment_length t W). unfold datetime_encode. cbn [concat]. destruct (t_loc t); rewrite !app_length; cbn [length bs list_ascii_of_string]; lia. Qed.
Lemma zone_length t : length (concat (write_timezone t)) <= 6 + zone_named t.
Proof. unfold write_timezone, zone_named. destruct (t_loc t); cbn [concat]; rewrite ?app_length; cbn [length bs list_ascii_of_string]; lia. Qed.
Lemma duration_length d : length (concat (duration_encode d)) <= 90.
Proof.
  unfold duration_encode. cbv zeta. cbn [concat]. pose proof itoa_length as I. pose proof (I (d_weeks d)). pose proof (I (d_days d)). pose proof (I (d_hours d)). pose proof (I (d_minutes d)). pose proof (I (d_seconds d)).
  repeat match goal with |- context [if ?b then _ else _] => destruct b end; rewrite ?app_length; cbn [length bs list_ascii_of_string]; lia.
Qed.

(** ** Lists *)
Lemma comma_length {A} (f : A -> list bytes) k l : Forall (fun a => length (concat (f a)) <= k) l -> forall first, length (concat (comma_writes f first l)) <= (k + 1) * length l.
Proof.
  induction 1 as [|a l H F IH]; intros first; [cbn; lia|]. cbn [comma_writes]. rewrite !concat_app, !app_length. specialize (IH false). cbn [length]. rewrite Nat.mul_succ_r. set (m := (k + 1) * length l) in *. clearbody m. destruct first; cbn [concat app length bs list_ascii_of_string]; lia.
Qed.
Lemma list_length {A} key (f : A -> list bytes) k l : Forall (fun a => length (concat (f a)) <= k) l -> length (concat (list_writes key f l)) <= length key + (k + 1) * length l.
Proof. intros F. unfold list_writes. destruct (isnil l); [cbn; lia|]. rewrite concat_app, app_length. pose proof (comma_length f k l F true). cbn [concat]. rewrite app_nil_r. lia. Qed.
Lemma nth_length k : forall (ws : list bytes) n, Forall (fun w => length w <= k) ws -> length (nth n ws []) <= k.
Proof. intros ws n F. revert n. induction F as [|w ws H F IH]; intros [|n]; cbn [nth]; try (cbn; lia); auto. Qed.
Lemma day_length d : length (concat (day_writes d)) <= 2.
Proof.
  unfold day_writes. destruct (in_range 1 7 d) eqn:R; [|cbn; lia]. unfold word_of_day. rewrite R. cbn [concat]. rewrite app_nil_r. apply nth_length. repeat constructor.
Qed.
Lemma uwords_length l : Forall uword l -> Forall (fun z => length (concat [fmt_uint z]) <= 23) l.
Proof. intros F. eapply Forall_impl; [|exact F]. intros z U. cbn [concat]. rewrite app_nil_r. pose proof (uword_length z U). lia. Qed.
Lemma words_length l : Forall word l -> Forall (fun z => length (concat [fmt_int z]) <= 23) l.
Proof. intros F. eapply Forall_impl; [|exact F]. intros z U. cbn [concat]. rewrite app_nil_r. pose proof (word_length z U). lia. Qed.
Lemma recur_length r : value_word (VRecur r) -> length (concat (recur_encode r)) <= 230 * value_held (VRecur r).
Proof.
  intros (UN & CO & IV & US & WS). repeat rewrite Forall_app in US. repeat rewrite Forall_app in WS. destruct US as (U1 & U2 & U3 & U4), WS as (W1 & W2 & W3 & W4 & W5).
  unfold recur_encode. rewrite !concat_app, !app_length.
  assert (A : length (concat [bs "FREQ=" ++ (if in_range 0 6 (r_freq r) then nth (Z.to_nat (r_freq r)) freq_words [] else bs "SECONDLY")]) <= 13).
  { cbn [concat]. rewrite app_nil_r. destruct (in_range 0 6 (r_freq r)); [|cbn; lia]. rewrite app_length. assert (X : length (nth (Z.to_nat (r_freq r)) freq_words []) <= 8) by (apply nth_length; repeat constructor). cbn [length bs list_ascii_of_string]. lia. }
  assert (B : length (concat (if negb (r_count r =? 0)%Z then [bs ";COUNT="; fmt_uint (r_count r)] else if negb (is_zero (r_until r)) then [bs ";UNTIL="] ++ (if r_untiltime r then datetime_encode (r_until r) else date_encode (r_until r)) else [])) <= 45).
  { destruct (negb _); [cbn [concat]; rewrite !app_length; pose proof (uword_length _ CO); cbn [length bs list_ascii_of_string]; lia|]. destruct (negb _); [|cbn; lia]. rewrite concat_app, app_length.
    pose proof (datetime_length _ UN). pose proof (date_length _ UN). destruct (r_untiltime r); [|unfold date_encode]; cbn [concat]; rewrite ?app_length; cbn [length bs list_ascii_of_string]; lia. }
  assert (C : length (concat (if negb (r_interval r =? 0)%Z then [bs ";INTERVAL="; fmt_uint (r_interval r)] else [])) <= 30).
  { destruct (negb (r_interval r =? 0)%Z); [|apply Nat.le_0_l]. cbn [concat]. rewrite !app_length. pose proof (uword_length _ IV). cbn [length bs list_ascii_of_string]. lia. }
  assert (D : length (concat (if negb (r_wkst r =? 0)%Z then [bs ";WKST="] ++ day_writes (r_wkst r) else [])) <= 8).
  { destruct (negb (r_wkst r =? 0)%Z); [|apply Nat.le_0_l]. rewrite concat_app, app_length. pose proof (day_length (r_wkst r)). cbn [concat]. rewrite app_nil_r. cbn [length bs list_ascii_of_string]. lia. }
  assert (W : Forall (fun d => length (concat ((if (dr_occ d =? 0)%Z then [] else [fmt_int (dr_occ d)]) ++ day_writes (dr_day d))) <= 23) (r_byday r)).
  { rewrite Forall_map in W1. eapply Forall_impl; [|exact W1]. intros d U. rewrite concat_app, app_length. pose proof (day_length (dr_day d)). pose proof (word_length _ U). destruct (dr_occ d =? 0)%Z; cbn [concat]; rewrite ?app_nil_r; cbn [length]; lia. }
  pose proof (list_length (bs ";BYSECOND=") _ _ _ (uwords_length _ U1)). pose proof (list_length (bs ";BYMINUTE=") _ _ _ (uwords_length _ U2)). pose proof (list_length (bs ";BYHOUR=") _ _ _ (uwords_length _ U3)). pose proof (list_length (bs ";BYMONTH=") _ _ _ (uwords_length _ U4)).
  pose proof (list_length (bs ";BYDAY=") _ _ _ W). pose proof (list_length (bs ";BYMONTHDAY=") _ _ _ (words_length _ W2)). pose proof (list_length (bs ";BYYEARDAY=") _ _ _ (words_length _ W3)). pose proof (list_length (bs ";BYWEEKNO=") _ _ _ (words_length _ W4)). pose proof (list_length (bs ";BYSETPOS=") _ _ _ (words_length _ W5)).
  cbn [value_held]. cbn [length bs list_ascii_of_string] in *. lia.
Qed.

(** ** Values *)
Lemma b64_length : forall l, length (b64_enc l) <= 4 * length l.
Proof. induction l as [| | |a b c l IH] using b64_ind; cbn [b64_enc length] in *; lia. Qed.
Lemma runes_count l : length (runes l) <= length l.
Proof.
  induction l as [|c l IH] using rune_ind; [reflexivity|]. rewrite runes_cons. pose proof (decode_rune_width c l) as W. destruct (decode_rune (c :: l)) as [r s]. destruct W as [W1 W2].
  cbn [length]. specialize (IH (skipn s (c :: l))). rewrite skipn_length in IH. cbn [length] in *. lia.
Qed.
Lemma text_length t : length (text_bytes t) <= 4 * length t.
Proof.
  unfold text_bytes. pose proof (runes_count t) as R. assert (X : forall rs, length (concat (map text_rune rs)) <= 4 * length rs); [|rewrite X; lia].
  induction rs as [|r rs IH]; [reflexivity|]. cbn [map concat]. rewrite app_length. assert (Y : length (text_rune r) <= 4); [|cbn [length]; lia].
  unfold text_rune. pose proof (encode_rune_len r). repeat match goal with |- context [if ?b then _ else _] => destruct b end; cbn [length bs list_ascii_of_string]; lia.
Qed.
Lemma mtext_length l : forall first, length (concat (comma_writes text_encode first l)) <= 4 * total (map (fun t => 1 + length t) l).
Proof.
  induction l as [|t l IH]; intros first; [cbn; lia|]. cbn [comma_writes map]. rewrite !concat_app, !app_length, total_cons. specialize (IH false). pose proof (text_length t). unfold text_encode at 1.
  destruct first; cbn [concat app]; rewrite ?app_length; cbn [length bs list_ascii_of_string]; lia.
Qed.
Lemma offset_length z : length (concat (utcoffset_encode z)) <= 7.
Proof. unfold utcoffset_encode. cbv zeta. cbn [concat]. rewrite app_nil_r, !app_length. destruct (z <? 0)%Z; destruct (0 <? _)%Z; cbn [length bs list_ascii_of_string]; lia. Qed.
Lemma value_length v : value_word v -> length (concat (value_aencode v)) <= 240 * value_held v + 17 + value_named v.
Proof.
  intros W. unfold value_aencode. rewrite concat_app, app_length. destruct v; cbn [value_encode value_held value_named].
  - unfold binary_encode. rewrite binary_writes_concat by lia. pose proof (b64_length b). cbn [concat]. rewrite app_nil_r. cbn [length bs list_ascii_of_string]. lia.
  - destruct b; cbn; lia.
  - unfold url_encode. cbn [concat]. rewrite !app_nil_r. cbn [length bs list_ascii_of_string]. lia.
  - unfold date_encode. pose proof (date_length t W). cbn [concat]. rewrite !app_nil_r. cbn [length bs list_ascii_of_string]. lia.
  - pose proof (datetime_length t W). pose proof (zone_length t). rewrite concat_app, app_length. cbn [concat]. rewrite app_nil_r. cbn [length bs list_ascii_of_string]. lia.
  - pose proof (duration_length d). cbn [concat]. rewrite app_nil_r. cbn [length bs list_ascii_of_string]. lia.
  - unfold float_encode. cbn [concat]. rewrite !app_nil_r. cbn [length bs list_ascii_of_string]. lia.
  - unfold tfloat_encode. cbn [concat]. rewrite !app_nil_r, !app_length. cbn [length bs list_ascii_of_string]. lia.
  - unfold integer_encode. pose proof (word_length z W). cbn [concat]. rewrite !app_nil_r. cbn [length bs list_ascii_of_string]. lia.
  - destruct W as [W1 W2]. unfold period_encode. rewrite !concat_app, !app_length. pose proof (datetime_length _ W1). pose proof (datetime_length _ W2). pose proof (duration_length (p_dur p)). pose proof (zone_length (p_start p)).
    destruct (is_zero _); cbn [concat]; rewrite !app_nil_r; cbn [length bs list_ascii_of_string]; lia.
  - pose proof (recur_length r W). pose proof (zone_length (r_until r)). cbn [value_held] in *. rewrite concat_app, app_length. cbn [concat]. rewrite app_nil_r. cbn [length bs list_ascii_of_string]. lia.
  - unfold text_encode. pose proof (text_length t). cbn [concat]. rewrite !app_nil_r. cbn [length bs list_ascii_of_string]. lia.
  - unfold mtext_encode. pose proof (mtext_length l true). cbn [concat]. rewrite app_nil_r. cbn [length bs list_ascii_of_string]. lia.
  - unfold clock_encode. pose proof (clock_length t). pose proof (zone_length t). rewrite concat_app, app_length. destruct (t_loc t); cbn [concat]; rewrite ?app_nil_r, ?app_length; cbn [length bs list_ascii_of_string]; lia.
  - unfold url_encode. cbn [concat]. rewrite !app_nil_r. cbn [length bs list_ascii_of_string]. lia.
  - pose proof (offset_length z). cbn [concat]. rewrite app_nil_r. cbn [length bs list_ascii_of_string]. lia.
Qed.
Lemma value_encode_length v : value_word v -> length (concat (value_encode v)) <= 240 * value_held v + 17 + value_named v.
Proof. intros W. pose proof (value_length v W) as L. unfold value_aencode in L. rewrite concat_app, app_length in L. lia. Qed.
Lemma text_value_length t : length (concat (value_encode (VText t))) <= 4 * length t.
Proof. pose proof (text_length t). cbn [value_encode text_encode concat]. rewrite app_nil_r. exact H. Qed.

(** ** Parameters *)
Definition tlen (tr : list wev) : nat := length (text tr).
Lemma tlen_app a b : tlen (a ++ b) = tlen a + tlen b.
Proof. unfold tlen. rewrite text_app, app_length. reflexivity. Qed.
Lemma tlen_wrs ws : tlen (wrs ws) = length (concat ws).
Proof. unfold tlen. rewrite text_wrs. reflexivity. Qed.
Lemma tlen_wr b tr : tlen (Wr b :: tr) = length b + tlen tr.
Proof. unfold tlen. rewrite text_cons, app_length. reflexivity. Qed.
Lemma tlen_6868 s : tlen (write6868 s) <= length s.
Proof.
  unfold tlen. destruct (hangs (write6868 s)) eqn:H; [|rewrite text_6868 by exact H; reflexivity]. unfold write6868 in *. destruct (encode6868 s); [discriminate H|]. apply Nat.le_0_l.
Qed.
Lemma tlen_quoted s : tlen (write_quoted s) <= 2 + length s.
Proof. unfold write_quoted. rewrite tlen_wr, tlen_app, tlen_wr. pose proof (tlen_6868 s). change (tlen []) with 0. cbn [length]. lia. Qed.
Lemma tlen_text s : tlen (write_text s) <= 2 + length s.
Proof. unfold write_text. pose proof (tlen_6868 s). pose proof (tlen_quoted s). destruct (contains_any s needquote); lia. Qed.
Definition param_small (k : pkind) : bool :=
  match k with PKEnum _ ws => forallb (fun w => Nat.leb (length w) 30) ws | PKUnit w => Nat.leb (length w) 30 | _ => true end.
Lemma params_small q : Nat.leb (length (keyword q)) 30 && param_small (pkind_of q) = true.
Proof. destruct q; reflexivity. Qed.
Lemma enum_length free ws n : forallb (fun w => Nat.leb (length w) 30) ws = true -> tlen (enum_word free ws n) <= 30.
Proof.
  intros F. unfold enum_word. assert (U : tlen (if free then [Wr (bs "UNKNOWN")] else []) <= 30) by (destruct free; apply Nat.leb_le; reflexivity).
  destruct (_ <=? _)%Z; [|exact U]. destruct (nth_error _ _) as [w|] eqn:N; [|exact U]. rewrite tlen_wr. change (tlen []) with 0. apply nth_error_In in N. rewrite forallb_forall in F. specialize (F w N). apply Nat.leb_le in F. lia.
Qed.
Lemma param_length q v : tlen (param_encode (keyword q) (pkind_of q) v) <= 70 * param_held v + param_named v.
Proof.
  pose proof (params_small q) as S. apply andb_true_iff in S as [K S]. apply Nat.leb_le in K. revert K S. generalize (keyword q), (pkind_of q). intros key k K S.
  assert (HD : length (bs ";" ++ key ++ bs "=") <= 32) by (rewrite !app_length; cbn [length bs list_ascii_of_string]; lia).
  unfold param_encode. destruct k, v; cbn [param_held param_named]; try apply Nat.le_0_l.
  - destruct (isnil _); [apply Nat.le_0_l|]. rewrite tlen_wr, tlen_wrs. unfold url_encode. cbn [concat]. rewrite app_nil_r. lia.
  - destruct (isnil _); [apply Nat.le_0_l|]. rewrite tlen_wr. pose proof (tlen_quoted t). pose proof (tlen_text t). destruct quoted; lia.
  - destruct l as [|s l]; [apply Nat.le_0_l|]. rewrite tlen_wr, tlen_app. pose proof (tlen_quoted s). cbn [map]. rewrite total_cons.
    assert (X : tlen (flat_map (fun s => Wr (bs ",") :: write_quoted s) l) <= 70 * total (map (fun t => 1 + length t) l)); [|lia].
    clear. induction l as [|t l IH]; [apply Nat.le_0_l|]. cbn [flat_map map]. rewrite total_cons, tlen_app, tlen_wr. pose proof (tlen_quoted t). change (length (bs ",")) with 1. lia.
  - destruct l as [|u l]; [apply Nat.le_0_l|]. rewrite tlen_wr, tlen_app, tlen_wrs. cbn [map]. rewrite total_cons. change (concat (url_encode u)) with (url_string u ++ []). rewrite app_nil_r. cbn [length].
    assert (X : tlen (flat_map (fun u => Wr (bs ",") :: wrs (url_encode u)) l) <= length l + total (map (fun u => length (url_string u)) l)); [|lia].
    clear. induction l as [|t l IH]; [apply Nat.le_0_l|]. cbn [flat_map map]. rewrite total_cons, tlen_app, tlen_wr, tlen_wrs. change (length (bs ",")) with 1. change (concat (url_encode t)) with (url_string t ++ []). rewrite app_nil_r. cbn [length]. lia.
  - rewrite tlen_wr. pose proof (enum_length free ws n S). lia.
  - rewrite !tlen_wr. change (tlen []) with 0. apply Nat.leb_le in S. lia.
  - destruct (isnil _); [apply Nat.le_0_l|]. rewrite tlen_wr. pose proof (tlen_text t). lia.
  - destruct b; [|apply Nat.le_0_l]. rewrite tlen_wr, tlen_wrs. change (length (concat (boolean_encode true))) with 4. lia.
Qed.
Lemma params_length : forall ps l, tlen (params_encode ps l) <= 70 * total (map (opt_held param_held) l) + total (map (opt_held param_named) l).
Proof.
  induction ps as [|q ps IH]; intros [|o l]; try apply Nat.le_0_l. cbn [params_encode map]. rewrite !total_cons. specialize (IH l). destruct o as [v|]; cbn [opt_held]; [|lia].
  rewrite tlen_app. pose proof (param_length q v). lia.
Qed.

(** ** Properties *)
Definition extra (vs : list (bytes * vkind)) : nat := total (map (fun t => 24 + length (fst t)) vs).
Lemma values_length : forall vs l first, (forall v, In (Some v) l -> value_word v) -> tlen (values_encode first vs l) <= 240 * total (map (opt_held value_held) l) + total (map (opt_held value_named) l) + extra vs.
Proof.
  induction vs as [|[w k] vs IH]; intros [|o l] first F; try apply Nat.le_0_l. cbn [values_encode map]. unfold extra. cbn [map]. rewrite !total_cons, tlen_app. specialize (IH l false (fun v I => F v (or_intror I))). unfold extra in IH. cbn [fst].
  destruct o as [v|]; cbn [opt_held]; [|change (tlen []) with 0; lia]. rewrite tlen_app, tlen_wrs. pose proof (value_length v (F v (or_introl eq_refl))).
  assert (tlen (if first then [] else [Wr (bs ";VALUE=" ++ w)]) <= 7 + length w); [|lia]. destruct first; [apply Nat.le_0_l|]. rewrite tlen_wr, app_length. change (tlen []) with 0. cbn [length bs list_ascii_of_string]. lia.
Qed.
Definition prop_small (m : bytes * propkind) : bool :=
  Nat.leb (length (fst m)) 30 && match snd m with MStruct _ vs => Nat.leb (extra vs) 180 | MEnum ws => forallb (fun w => Nat.leb (length w) 30) ws | MNew _ => true end.
Lemma props_small pid : prop_small (prop_spec pid) = true.
Proof. destruct pid; reflexivity. Qed.
Lemma prop_length pid p : prop_word p -> tlen (prop_encode pid p) <= 240 * (1 + prop_held p) + prop_named p.
Proof.
  intros W. pose proof (props_small pid) as S. unfold prop_small in S. apply andb_true_iff in S as [K S]. apply Nat.leb_le in K. unfold prop_encode. destruct (prop_spec pid) as [key k]. cbn [fst snd] in *.
  destruct k as [ps vs|ws|k], p as [l vl|n|v]; cbn [prop_held prop_named prop_word] in *; try apply Nat.le_0_l.
  - rewrite tlen_wr, !tlen_app. apply Nat.leb_le in S. pose proof (params_length ps l). pose proof (values_length vs vl true W). change (tlen [Wr CRLF]) with 2. lia.
  - rewrite !tlen_app, tlen_wr, app_length. change (tlen [Wr CRLF]) with 2. change (tlen []) with 0. change (length (bs ":")) with 1. destruct (in_range _ _ n); [|change (tlen []) with 0; lia]. rewrite tlen_wr. change (tlen []) with 0.
    assert (length (nth (Z.to_nat n) ws []) <= 30); [|lia]. apply nth_length. rewrite forallb_forall in S. apply Forall_forall. intros w I. apply Nat.leb_le, S, I.
  - rewrite tlen_wr, tlen_app, tlen_wrs. pose proof (value_length v W). change (tlen [Wr CRLF]) with 2. lia.
Qed.

(** ** Components *)
Lemma tlen_flat {A} (f : A -> list wev) (h g : A -> nat) l : (forall a, In a l -> tlen (f a) <= 240 * h a + g a) -> tlen (flat_map f l) <= 240 * total (map h l) + total (map g l).
Proof.
  induction l as [|a l IH]; intros H; [apply Nat.le_0_l|]. cbn [flat_map map]. rewrite tlen_app, !total_cons. pose proof (H a (or_introl eq_refl)). specialize (IH (fun b I => H b (or_intror I))). lia.
Qed.
Lemma sec_name_small id : Nat.leb (length (begin_line (sp_name (sec_spec id))) + length (end_line (sp_name (sec_spec id)))) 80 = true.
Proof. destruct id; reflexivity. Qed.
Lemma alarm_small id : Nat.leb (length (alarm_word id)) 10 = true.
Proof. destruct id; reflexivity. Qed.
Lemma sec_length cal : cal_words cal -> tlen (sec_encode cal) + 160 <= 240 * held cal + named_in cal.
Proof.
  induction cal as [id fs IH] using sec_induct. intros C. rewrite sec_encode_eq, !tlen_app.
  change (held (Sec id fs)) with (1 + total (map (fun vs => total (map fval_held vs)) fs)). change (named_in (Sec id fs)) with (total (map (fun vs => total (map fval_named vs)) fs)).
  assert (X : tlen (flat_map (flat_map fval_encode) fs) <= 240 * total (map (fun vs => total (map fval_held vs)) fs) + total (map (fun vs => total (map fval_named vs)) fs)).
  { apply tlen_flat. intros vs I. apply tlen_flat. intros v J. destruct v as [pid p|x|[x|]].
    - cbn [fval_encode fval_held fval_named]. apply prop_length, (C pid p). apply has_prop_eq. left. eauto.
    - assert (Y := IH vs x I (or_introl J) ltac:(intros pid p H; apply (C pid p), has_prop_eq; right; exists vs, x; auto)). change (fval_encode (FVSec x)) with (sec_encode x). change (fval_held (FVSec x)) with (held x). change (fval_named (FVSec x)) with (named_in x). lia.
    - assert (Y := IH vs x I (or_intror J) ltac:(intros pid p H; apply (C pid p), has_prop_eq; right; exists vs, x; auto)).
      change (fval_encode (FVAlarm (Some x))) with ([Wr (begin_line (bs "VALARM")); Wr (bs "ACTION:" ++ alarm_word (sec_id x) ++ CRLF)] ++ sec_encode x ++ [Wr (end_line (bs "VALARM"))]).
      rewrite !tlen_app, !tlen_wr. change (tlen []) with 0. pose proof (alarm_small (sec_id x)) as A. apply Nat.leb_le in A. rewrite !app_length. change (length (begin_line (bs "VALARM"))) with 14. change (length (end_line (bs "VALARM"))) with 12.
      change (fval_held (FVAlarm (Some x))) with (held x). change (fval_named (FVAlarm (Some x))) with (named_in x). change (length CRLF) with 2. change (length (bs "ACTION:")) with 7. lia.
    - apply Nat.le_0_l. }
  pose proof (sec_name_small id) as N. apply Nat.leb_le in N.
  assert (B : tlen (if sp_own (sec_spec id) then [Wr (begin_line (sp_name (sec_spec id)))] else []) <= length (begin_line (sp_name (sec_spec id)))) by (destruct (sp_own _); [rewrite tlen_wr; change (tlen []) with 0; lia|apply Nat.le_0_l]).
  assert (D : tlen (if sp_own (sec_spec id) then [Wr (end_line (sp_name (sec_spec id)))] else []) <= length (end_line (sp_name (sec_spec id)))) by (destruct (sp_own _); [rewrite tlen_wr; change (tlen []) with 0; lia|apply Nat.le_0_l]).
  lia.
Qed.
Theorem encode_grows cal e out : cal_words cal -> Encode ok_writer [] cal = EncDone e out -> length (concat out) <= 251 * (held cal + named_in cal).
Proof.
  intros W H. destruct (encode_overhead cal e out H) as (n & L & N). pose proof (sec_length cal W) as S.
  assert (HG : hangs (sec_encode cal) = false).
  { unfold Encode in H. destruct (sec_valid cal); [discriminate|]. rewrite run_trace_spec in H. cbv zeta in H. destruct (hangs _); [discriminate|reflexivity]. }
  unfold content in *. rewrite text_pieces in * by exact HG. unfold tlen in S. lia.
Qed.
Theorem pipe_grows s cal e out : decode_bytes s = Ok cal -> cal_words cal -> Encode ok_writer [] cal = EncDone e out -> length (concat out) <= 502 * length s + 251 * named_in cal.
Proof. intros D W H. pose proof (encode_grows cal e out W H). pose proof (held_twice s cal D). lia. Qed.
End Grow.
