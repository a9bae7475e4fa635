(** Round trips of property values. *)
From Coq Require Import String Ascii ZArith Bool List Lia ZifyBool.
From Verif Require Import Base Lib Utf8 Utf8Proofs GoStrings Strtok Tokeniser SpecContent TokeniserProofs SpecText SpecDuration SpecTime SpecRecur NumProofs TextProofs DurationProofs BinaryProofs ValueProofs TimeProofs DateProofs RecurProofs
  GoTime Types Params ParamTable PropTable Props SpecTree TreeProofs CaseProofs PrefixProofs SpecParams ParamProofs SpecProps.
Import ListNotations.
Local Open Scope Z_scope.

Section P.
Context {env : Env}.

Definition own_map (v : value) : pmap := map (fun p => (cp_name p, pvalue_text (cp_first p))) (own_params v).

(** ** Characters *)
Lemma digits_value s : forallb is_digit s = true -> forallb value_char s = true.
Proof. apply forallb_imp. intros c. unfold is_digit, Utf8.in_range, value_char. lia. Qed.
Lemma itoa_value n : 0 <= n < 2 ^ 64 -> forallb value_char (itoa n) = true.
Proof. intros H. apply digits_value, itoa_spec, H. Qed.
Lemma duration_value d : dur_fits d -> forallb value_char (concat (duration_encode d)) = true.
Proof.
  intros (W & D & H & M & S'). unfold duration_encode. cbn [concat]. rewrite app_nil_r.
  repeat match goal with |- context [if ?b then _ else _] => destruct b end; rewrite ?forallb_app, ?itoa_value by assumption; reflexivity.
Qed.
Lemma moment_value id t : moment_good id t -> forallb value_char (concat (datetime_encode t)) = true.
Proof. intros (_ & Y & _). eapply forallb_impl; [|apply datetime_chars, Y]. intros c C. apply tchar_value, C. Qed.
Lemma offset_value u : - 360000 < u < 360000 -> forallb value_char (concat (utcoffset_encode u)) = true.
Proof.
  intros H. rewrite utcoffset_encode_text by exact H. unfold offset_text, two_digits.
  assert (A : 0 <= Z.abs u / 3600 < 100 /\ 0 <= Z.abs u / 60 mod 60 < 60 /\ 0 <= Z.abs u mod 60 < 60) by (Z.to_euclidean_division_equations; lia). destruct A as (A & B & C).
  assert (G : forall x, 0 <= x < 100 -> forallb value_char [digit_chr (x / 10); digit_chr (x mod 10)] = true).
  { intros x R. apply digits_value. cbn [forallb]. rewrite !digit_chr_digit by (Z.to_euclidean_division_equations; lia). reflexivity. }
  rewrite !forallb_app, !G by lia. destruct (u <? 0), (0 <? Z.abs u mod 60); rewrite ?G by lia; reflexivity.
Qed.
Lemma mtext_value l : mtext_valid l = None -> forall first, forallb value_char (concat (comma_writes text_encode first l)) = true.
Proof.
  induction l as [|x l IH]; intros V first; [reflexivity|]. cbn [mtext_valid] in V. destruct (text_valid x) eqn:T; [discriminate|]. cbn [comma_writes].
  rewrite !concat_app, !forallb_app, IH by exact V. cbn [text_encode concat]. rewrite app_nil_r. destruct (text_bytes_safe x T) as [-> _]. destruct first; reflexivity.
Qed.
Lemma fmt_int_value z : forallb value_char (fmt_int z) = true.
Proof. unfold fmt_int. destruct (z <? 0) eqn:E; cbn [forallb]; rewrite digits_value; try reflexivity; apply fmt_uint_digits; lia. Qed.

Lemma value_chars v : value_good v -> forallb value_char (concat (value_encode v)) = true.
Proof.
  destruct v; cbn [value_good value_encode]; intros G.
  - apply binary_chars.
  - destruct b; reflexivity.
  - cbn [url_encode concat]. rewrite app_nil_r. apply G.
  - destruct G as [U _]. apply utc_years in U. cbn [date_encode concat]. rewrite app_nil_r. eapply forallb_impl; [|apply format_date_chars, U]. intros c C. apply tchar_value, C.
  - eapply moment_value, G.
  - apply duration_value, G.
  - cbn [float_encode concat]. rewrite app_nil_r. apply G.
  - destruct f as [a b]. cbn [tfloat_encode fst snd concat]. destruct G as [(_ & A & _) (_ & B & _)]. rewrite app_nil_r, !forallb_app, A, B. reflexivity.
  - cbn [integer_encode concat]. rewrite app_nil_r. apply fmt_int_value.
  - destruct G as [A B]. unfold period_encode. rewrite !concat_app, !forallb_app, (moment_value _ _ A). cbn [concat app]. destruct B as [(B & Z0 & _)|(Z0 & _ & F & _)].
    + rewrite Z0, (moment_value _ _ B). reflexivity.
    + rewrite Z0. change (is_zero zero_time) with true. cbv iota. rewrite duration_value by exact F. reflexivity.
  - destruct G as (T & V & U & S'). apply recur_chars; [|exact U]. apply recur_valid_in_range; assumption.
  - destruct G as [_ V]. cbn [text_encode concat]. rewrite app_nil_r. apply text_bytes_safe, V.
  - destruct G as (_ & _ & V). apply mtext_value, V.
  - destruct G as (sec & -> & R). unfold clock_encode. cbn [t_loc concat]. rewrite app_nil_r, forallb_app. rewrite andb_true_iff. split; [|reflexivity].
    eapply forallb_impl; [|apply format_clock_chars]. intros c C. apply tchar_value, C.
  - cbn [url_encode concat]. rewrite app_nil_r. apply G.
  - apply offset_value, G.
Qed.

(** ** Values *)
Lemma zone_map t : pmap_get (map (fun p => (cp_name p, pvalue_text (cp_first p))) (zone_params t)) (bs "TZID") = zone_of t.
Proof. unfold zone_params, zone_of. destruct (t_loc t); reflexivity. Qed.
Lemma float_rt a b : float_good a -> float_good b -> tfloat_decode (concat (tfloat_encode (a, b))) = Ok (a, b).
Proof.
  intros (A & _ & N) (B & _ & _). cbn [tfloat_encode fst snd concat app]. rewrite app_nil_r. unfold tfloat_decode. change (bs ";" ++ format_float b) with (";"%char :: format_float b).
  rewrite cut_app by exact N. rewrite A, B. reflexivity.
Qed.

Lemma value_rt v : value_good v -> value_decode (kind_of v) (own_map v) (concat (value_encode v)) = Ok v.
Proof.
  unfold own_map. destruct v; cbn [value_good kind_of own_params map]; intros G.
  - apply v_binary. reflexivity.
  - apply v_boolean.
  - destruct G as [G _]. cbn [value_decode value_encode url_encode concat]. rewrite app_nil_r. unfold url_decode. rewrite G. reflexivity.
  - destruct G as [(sec & -> & R) Z0]. apply v_date_utc; assumption.
  - cbn [value_decode value_encode]. rewrite moment_rt; [reflexivity|exact G|apply zone_map].
  - apply v_duration; apply G.
  - destruct G as [G _]. cbn [value_decode value_encode float_encode concat]. rewrite app_nil_r. unfold float_decode. rewrite G. reflexivity.
  - destruct f as [a b]. cbn [value_decode value_encode]. rewrite float_rt by apply G. reflexivity.
  - apply v_integer, G.
  - cbn [value_decode value_encode]. destruct G as [A B]. destruct B as [(B & Z0 & ZP & D)|(Z0 & N & F & P)].
    + rewrite period_rt_end; [reflexivity|apply A|apply B|exact Z0|exact D| |].
      * apply moment_rt; [exact A|apply zone_map].
      * apply moment_rt; [exact B|]. rewrite <- ZP. apply zone_map.
    + rewrite period_rt_dur; [reflexivity|apply A|exact Z0|exact N|exact F|exact P|]. apply moment_rt; [exact A|apply zone_map].
  - destruct G as (T & V & U & S'). apply v_recur_exact; try assumption. apply zone_map.
  - apply v_text, G.
  - destruct G as (N & U & _). apply v_mtext; assumption.
  - destruct G as (sec & -> & R). apply v_time_utc; [reflexivity|exact R].
  - destruct G as [G _]. cbn [value_decode value_encode url_encode concat]. rewrite app_nil_r. unfold url_decode. rewrite G. reflexivity.
  - apply v_offset, G.
Qed.

Lemma value_aencode_text v : concat (value_aencode v) = concat (map cparam_render (own_params v)) ++ bs ":" ++ concat (value_encode v).
Proof.
  assert (Z : forall t x, concat ((write_timezone t ++ [bs ":"]) ++ x) = concat (map cparam_render (zone_params t)) ++ bs ":" ++ concat x).
  { intros t x. unfold write_timezone, zone_params. destruct (t_loc t); [reflexivity|reflexivity|]. cbn [app map concat]. rewrite render_one. cbn [pvalue_render]. rewrite !app_nil_r, <- !app_assoc. reflexivity. }
  unfold value_aencode. destruct v; try reflexivity; apply Z.
Qed.
Lemma own_params_wf v : value_good v -> forallb cparam_wf (own_params v) = true.
Proof.
  assert (Z : forall id t, moment_good id t -> forallb cparam_wf (zone_params t) = true).
  { intros id t (_ & _ & G). unfold zone_params. destruct (t_loc t) as [| |z i]; [reflexivity|reflexivity|]. destruct G as (_ & _ & S' & _). unfold cparam_wf. cbn [forallb cp_name cp_first cp_more pvalue_wf]. rewrite S'. reflexivity. }
  destruct v; cbn [value_good own_params]; intros G; try reflexivity; try (eapply Z; apply G).
  - destruct G as (_ & _ & U & _). destruct U as [[U _]|(_ & [(_ & U)|(_ & (sec & U & _) & _)])]; [unfold zone_params; rewrite U; reflexivity|eapply Z, U|unfold zone_params; rewrite U; reflexivity].
  - destruct G as (sec & -> & _). reflexivity.
Qed.
Lemma own_groups v : map (fun g => (fst g, join_values (snd g))) (map group_of (own_params v)) = own_map v /\
  (forall p, In p (own_params v) -> upper (cp_name p) = cp_name p /\ In (cp_name p) [bs "TZID"; bs "ENCODING"]) /\ (length (own_params v) <= 1)%nat.
Proof.
  assert (Z : forall t, map (fun g => (fst g, join_values (snd g))) (map group_of (zone_params t)) = map (fun p => (cp_name p, pvalue_text (cp_first p))) (zone_params t) /\
    (forall p, In p (zone_params t) -> upper (cp_name p) = cp_name p /\ In (cp_name p) [bs "TZID"; bs "ENCODING"]) /\ (length (zone_params t) <= 1)%nat).
  { intros t. unfold zone_params. destruct (t_loc t) as [| |z i]; [split; [reflexivity|split; [intros p []|cbn; lia]]|split; [reflexivity|split; [intros p []|cbn; lia]]|].
    split; [reflexivity|]. split; [|cbn; lia]. intros p [<-|[]]. split; [reflexivity|]. left. reflexivity. }
  unfold own_map. destruct v; cbn [own_params]; try apply Z; try (split; [reflexivity|split; [solve [intros p []]|cbn; lia]]).
  split; [reflexivity|]. split; [|cbn; lia]. intros p [<-|[]]. split; [reflexivity|]. right. left. reflexivity.
Qed.

(** ** Tables *)
Definition struct_ok (k : propkind) : bool :=
  match k with
  | MStruct ps vs =>
    distinct (map keyword ps) && forallb (fun q => negb (existsb (beq (keyword q)) [bs "VALUE"; bs "TZID"; bs "ENCODING"])) ps &&
    (if Nat.ltb 1 (length vs) then words_ok (map fst vs) else true)
  | MEnum ws => words_ok ws
  | MNew _ => true
  end.
Lemma all_props_in p : In p all_props.
Proof. destruct p; cbn; tauto. Qed.
Lemma props_table : forallb (fun p => name_word (fst (prop_spec p)) && struct_ok (snd (prop_spec p))) all_props = true.
Proof. vm_compute. reflexivity. Qed.
Lemma prop_table p : name_word (fst (prop_spec p)) = true /\ struct_ok (snd (prop_spec p)) = true.
Proof. pose proof props_table as T. rewrite forallb_forall in T. specialize (T p (all_props_in p)). apply andb_true_iff in T. exact T. Qed.
Lemma name_word_facts w : name_word w = true -> w <> [] /\ upper w = w /\ forallb name_char w = true.
Proof.
  unfold name_word. rewrite !andb_true_iff. intros [[A B] C]. split; [destruct w; [discriminate|congruence]|]. split; [apply upper_word, B|exact C].
Qed.

(** ** Parameters of a property *)
Lemma index_at {A} (f : A -> bytes) a q b : NoDup (map f (a ++ q :: b)) -> index_of (f q) (map f (a ++ q :: b)) = Some (length a).
Proof. intros N. apply index_of_nth; [exact N|]. rewrite map_app. cbn [map]. rewrite nth_error_app2 by (rewrite map_length; lia). rewrite map_length, Nat.sub_diag. reflexivity. Qed.
Lemma set_nth_at {A} (a : list A) x y b : set_nth (length a) x (a ++ y :: b) = a ++ x :: b.
Proof. induction a as [|c a IH]; cbn [length app set_nth]; [reflexivity|]. rewrite IH. reflexivity. Qed.
Lemma nth_at {A} (a : list A) x b d : nth (length a) (a ++ x :: b) d = x.
Proof. induction a as [|c a IH]; cbn [length app nth]; auto. Qed.

Lemma params_rt vs vt ot : forall b lb, Forall2 (fun q o => forall v, o = Some v -> param_good (pkind_of q) v) b lb ->
  forall a la, length a = length la -> NoDup (map keyword (a ++ b)) ->
  exists cps ws, params_encode b lb = wrs ws /\ concat ws = concat (map cparam_render cps) /\ forallb cparam_wf cps = true /\
   struct_params (a ++ b) vs (PState (la ++ map (fun _ => None) b) vt ot) (map group_of cps) = Ok (PState (la ++ lb) vt ot) /\
   (forall p, In p cps -> exists q, In q b /\ cp_name p = keyword q).
Proof.
  induction 1 as [|q o b lb G F IH]; intros a la L N.
  - exists [], []. repeat split. intros p [].
  - assert (R : a ++ q :: b = (a ++ [q]) ++ b) by (rewrite <- app_assoc; reflexivity). rewrite R in N |- *.
    destruct (IH (a ++ [q]) (la ++ [o])) as (cps & ws & E & C & W & D & K); [rewrite !app_length; cbn [length]; lia|exact N|].
    rewrite <- R in N. cbn [map]. assert (RL : forall x, (la ++ [x]) ++ map (fun _ : paramid => @None pval) b = la ++ x :: map (fun _ => None) b) by (intros; rewrite <- app_assoc; reflexivity).
    assert (RE : (la ++ [o]) ++ lb = la ++ o :: lb) by (rewrite <- app_assoc; reflexivity). rewrite RL, RE in D.
    destruct o as [v|].
    + destruct (param_table q) as [KW KO]. destruct (name_word_facts _ KW) as (KN & KU & KC).
      destruct (param_rt (keyword q) (pkind_of q) v KC KO (G v eq_refl)) as (p & (ws1 & E1 & C1) & W1 & N1 & D1).
      exists (p :: cps), (ws1 ++ ws). cbn [params_encode map concat forallb]. rewrite E1, E, wrs_app, concat_app, C1, C, W1, W. split; [reflexivity|]. split; [reflexivity|]. split; [reflexivity|]. split.
      * cbn [struct_params]. unfold group_of at 1. rewrite N1. unfold keyword at 1. rewrite KU. unfold struct_param. unfold param_index.
        change (fst (param_spec q)) with (keyword q). rewrite <- R, index_at by exact N. cbn [ps_params]. rewrite L, nth_at. rewrite <- L, nth_at, D1. cbn [bind ps_vtype ps_other]. rewrite L, set_nth_at.
        rewrite R. exact D.
      * intros p' [<-|I]; [exists q; split; [left; reflexivity|exact N1]|]. destruct (K _ I) as (q' & I' & Q). exists q'. split; [right; exact I'|exact Q].
    + exists cps, ws. cbn [params_encode]. repeat split; try assumption. intros p I. destruct (K _ I) as (q' & I' & Q). exists q'. split; [right; exact I'|exact Q].
Qed.

Lemma struct_params_app ps vs a b : forall st, struct_params ps vs st (a ++ b) = let! st' := struct_params ps vs st a in struct_params ps vs st' b.
Proof. induction a as [|g a IH]; intros st; [reflexivity|]. cbn [app struct_params]. destruct (struct_param ps vs st g); cbn [bind]; auto. Qed.

Lemma own_struct ps vs v st : forallb (fun q => negb (existsb (beq (keyword q)) [bs "VALUE"; bs "TZID"; bs "ENCODING"])) ps = true -> ps_other st = [] ->
  struct_params ps vs st (map group_of (own_params v)) = Ok (PState (ps_params st) (ps_vtype st) (own_map v)).
Proof.
  intros T O. destruct (own_groups v) as (M & K & L). rewrite <- M. destruct (own_params v) as [|p [|p' r]]; cbn [length] in L; [|clear M|lia].
  - cbn [map struct_params]. destruct st; cbn in *; subst. reflexivity.
  - cbn [map struct_params]. destruct (K p (or_introl eq_refl)) as [U I]. unfold group_of. rewrite U. unfold struct_param.
    assert (NI : param_index (cp_name p) ps = None).
    { apply index_of_none. intros J. apply in_map_iff in J as (q & Q & Iq). rewrite forallb_forall in T. specialize (T q Iq). apply negb_true_iff in T. rewrite existsb_false in T. specialize (T (keyword q)).
      rewrite beq_refl in T. discriminate T. rewrite Q. right. exact I. }
    rewrite NI. assert (NV : beq (cp_name p) (bs "VALUE") = false) by (destruct I as [<-|[<-|[]]]; reflexivity). rewrite NV, andb_false_r. cbn [bind fst snd]. rewrite O. reflexivity.
Qed.

Lemma values_none vs : forall first, values_encode first vs (map (fun _ => None) vs) = [].
Proof. induction vs as [|[w k] vs IH]; intros first; [reflexivity|]. cbn [map values_encode app]. apply IH. Qed.
Lemma values_one a w k v b : forall first, values_encode first (a ++ (w, k) :: b) (map (fun _ => None) a ++ Some v :: map (fun _ => None) b) =
  (if first && isnil a then [] else [Wr (bs ";VALUE=" ++ w)]) ++ wrs (value_aencode v).
Proof.
  induction a as [|[w0 k0] a IH]; intros first; cbn [app map values_encode isnil].
  - rewrite values_none, app_nil_r, andb_true_r. reflexivity.
  - rewrite IH. rewrite andb_false_r. reflexivity.
Qed.

(** What is written for a good property, as a line. *)
Definition writes_line (pid : propid) (p : prop) (l : cline) : Prop :=
  (exists ws, prop_encode pid p = wrs ws /\ concat ws = cline_render l ++ CRLF) /\ cline_wf l = true /\ cl_name l = fst (prop_spec pid) /\
  prop_decode pid (params_tokens (cl_params l)) (cl_value l) = Ok p.

Lemma line_wf key ps v : name_word key = true -> forallb cparam_wf ps = true -> forallb value_char v = true -> cline_wf (CLine key ps v) = true.
Proof using env. intros K P V. destruct (name_word_facts _ K) as (N & _ & C). unfold cline_wf. cbn [cl_name cl_params cl_value]. rewrite C, P, V. destruct key; [contradiction|reflexivity]. Qed.

Theorem prop_rt pid p : prop_good pid p -> exists l, writes_line pid p l.
Proof.
  unfold prop_good, writes_line. destruct (prop_table pid) as [KW ST]. unfold prop_encode, prop_decode. destruct (prop_spec pid) as [key k]. cbn [fst snd] in *.
  destruct k as [ps vs|ws|k], p as [l vl|n|v]; try contradiction.
  - intros (F & a & b & w & v & Evs & Evl & G). cbn [struct_ok] in ST. rewrite !andb_true_iff in ST. destruct ST as [[ST1 ST2] ST3]. apply distinct_nodup in ST1.
    destruct (params_rt vs None [] ps l F [] [] eq_refl ST1) as (cps & ws & E & C & W & D & K). cbn [app] in D.
    pose (vp := if isnil a then [] else [CParam (bs "VALUE") (Plain w) []]).
    exists (CLine key (cps ++ vp ++ own_params v) (concat (value_encode v))). cbn [cl_name cl_params cl_value].
    assert (WW : a <> [] -> Nat.ltb 1 (length vs) = true /\ up_word w = true /\ NoDup (map fst vs)).
    { intros NA. assert (L1 : Nat.ltb 1 (length vs) = true). { apply Nat.ltb_lt. rewrite Evs, app_length. cbn [length]. destruct a; [contradiction|cbn [length]; lia]. }
      rewrite L1 in ST3. unfold words_ok in ST3. rewrite andb_true_iff in ST3. destruct ST3 as [DD UU]. split; [exact L1|]. split; [|apply distinct_nodup, DD].
      rewrite forallb_forall in UU. apply UU. rewrite Evs, map_app. apply in_or_app. right. left. reflexivity. }
    split; [|split; [|split; [reflexivity|]]].
    + exists (key :: ws ++ (if isnil a then [] else [bs ";VALUE=" ++ w]) ++ value_aencode v ++ [CRLF]). split.
      * rewrite E, Evs, Evl, values_one. cbn [wrs map andb]. rewrite !map_app. destruct (isnil a); cbn [map app]; rewrite <- ?app_assoc; reflexivity.
      * cbn [concat]. rewrite !concat_app, C, value_aencode_text. cbn [concat]. unfold cline_render. cbn [cl_name cl_params cl_value]. rewrite !map_app, !concat_app, app_nil_r, <- !app_assoc.
        do 2 f_equal. unfold vp. destruct (isnil a); [reflexivity|]. cbn [map concat]. rewrite render_one. cbn [pvalue_render]. rewrite !app_nil_r, <- !app_assoc. reflexivity.
    + apply line_wf; [exact KW| |apply value_chars, G]. rewrite !forallb_app, W, own_params_wf by exact G. rewrite andb_true_r. cbn [andb]. unfold vp. destruct a; [reflexivity|]. cbn [isnil forallb].
      rewrite word_param; [reflexivity|reflexivity|]. apply WW. discriminate.
    + rewrite groups_params, !map_app, struct_params_app, D. cbn [bind]. rewrite struct_params_app.
      assert (DV : struct_params ps vs (PState l None []) (map group_of vp) = Ok (PState l (if isnil a then None else Some (length a)) [])).
      { unfold vp. destruct a as [|x a']; [reflexivity|]. set (a := x :: a') in *. assert (NA : a <> []) by discriminate. destruct (WW NA) as (L1 & UW & ND). change (isnil a) with false. cbv iota. cbn [map struct_params]. unfold group_of. cbn [cp_name cp_first cp_more].
        unfold struct_param. change (upper (bs "VALUE")) with (bs "VALUE"). assert (NI : param_index (bs "VALUE") ps = None).
        { apply index_of_none. intros J. apply in_map_iff in J as (q & Q & Iq). rewrite forallb_forall in ST2. specialize (ST2 q Iq). rewrite Q in ST2. discriminate. }
        rewrite NI, L1. change (beq (bs "VALUE") (bs "VALUE")) with true. cbn [andb map pvalue_token ps_vtype]. cbn [t_data]. rewrite (upper_word _ UW).
        rewrite Evs in ND |- *. pose proof (index_at fst a (w, kind_of v) b ND) as IA. cbn [fst] in IA. rewrite IA. reflexivity. }
      rewrite DV. cbn [bind]. rewrite own_struct by (try exact ST2; reflexivity). cbn [bind ps_vtype ps_params ps_other].
      assert (I : match (if isnil a then None else Some (length a)) with Some i => i | None => O end = length a) by (destruct a; reflexivity). rewrite I, Evs, nth_at. cbn [snd].
      rewrite (value_rt v G). cbn [bind]. rewrite Evl, map_app. cbn [map]. f_equal. f_equal.
      pose proof (set_nth_at (map (fun _ : bytes * vkind => @None value) a) (Some v) None (map (fun _ => None) b)) as S'. rewrite map_length in S'. exact S'.
  - intros R. cbn [struct_ok] in ST. unfold words_ok in ST. rewrite andb_true_iff in ST. destruct ST as [DD UU]. apply distinct_nodup in DD. rewrite forallb_forall in UU.
    destruct (nth_error ws (Z.to_nat n)) as [w|] eqn:N; [|apply nth_error_None in N; lia]. pose proof (UU w (nth_error_In _ _ N)) as U.
    exists (CLine key [] w). cbn [cl_name cl_params cl_value]. split; [|split; [|split; [reflexivity|]]].
    + exists [key ++ bs ":"; w; CRLF]. unfold Utf8.in_range. replace ((0 <=? n) && (n <=? Z.of_nat (length ws) - 1)) with true by lia. rewrite (nth_error_nth _ _ _ N). split; [reflexivity|].
      cbn [concat]. unfold cline_render. cbn [cl_name cl_params cl_value map concat app]. rewrite app_nil_r, <- !app_assoc. reflexivity.
    + apply line_wf; [exact KW|reflexivity|]. apply up_word_facts in U as (_ & _ & S'). eapply forallb_imp; [|exact S']. apply safe_value.
    + rewrite (upper_word _ U), (index_of_nth _ DD _ _ N). rewrite Z2Nat.id by lia. reflexivity.
  - intros [<- G]. exists (CLine key (own_params v) (concat (value_encode v))). cbn [cl_name cl_params cl_value]. split; [|split; [|split; [reflexivity|]]].
    + exists (key :: value_aencode v ++ [CRLF]). split; [cbn [wrs map]; rewrite map_app; reflexivity|]. cbn [concat]. rewrite concat_app, value_aencode_text. cbn [concat]. unfold cline_render. cbn [cl_name cl_params cl_value].
      rewrite app_nil_r, <- !app_assoc. reflexivity.
    + apply line_wf; [exact KW|apply own_params_wf, G|apply value_chars, G].
    + rewrite groups_params. destruct (own_groups v) as (M & _ & L).
      assert (FL : fold_left (fun (m : pmap) g => (fst g, join_values (snd g)) :: m) (map group_of (own_params v)) [] = own_map v).
      { rewrite <- M. destruct (own_params v) as [|p [|p' r]]; cbn [length] in L; [reflexivity|reflexivity|lia]. }
      match goal with |- context [fold_left ?f ?l ?a] => replace (fold_left f l a) with (own_map v) by (symmetry; exact FL) end. cbv zeta.
      rewrite (value_rt v G). reflexivity.
Qed.
End P.
