(** One line for each property. *)
From Coq Require Import String Ascii ZArith Bool List Lia.
From Verif Require Import Base Lib Utf8 GoStrings Tokeniser SpecContent NumProofs TextProofs BinaryProofs GoTime Types Params ParamTable PropTable Props SecTable Sections Folder Unfolder Codec SpecLines FolderProofs UnfolderProofs SpecTree SpecRules EncodeProofs SpecParams ParamProofs SpecProps PropProofs HangProofs SpecCal CalProofs EncodableProofs SpecValid ValidProofs RoundProofs SpecRfc SpecOut.
Import ListNotations.
Local Open Scope Z_scope.

(** ** Numbers have no control characters *)
Notation clean s := (forallb value_char s = true).
Lemma clean_app a b : clean a -> clean b -> clean (a ++ b).
Proof. intros A B. rewrite forallb_app, A, B. reflexivity. Qed.
Lemma clean_digit n : value_char (digit_chr (n mod 10)) = true.
Proof. assert (D : clean [digit_chr (n mod 10)]); [apply digits_value; cbn [forallb]; rewrite digit_chr_digit; [reflexivity|Z.to_euclidean_division_equations; lia]|]. cbn [forallb] in D. rewrite andb_true_r in D. exact D. Qed.
Lemma clean_dec f : forall n acc, clean acc -> clean (dec_digits f n acc).
Proof.
  induction f as [|f IH]; intros n acc A; [exact A|]. cbn [dec_digits]. assert (B : clean (digit_chr (n mod 10) :: acc)) by (cbn [forallb]; rewrite clean_digit; exact A).
  destruct (n / 10 =? 0); [exact B|apply IH, B].
Qed.
Lemma clean_uint n : clean (fmt_uint n).
Proof. apply clean_dec. reflexivity. Qed.
Lemma clean_itoa n : clean (itoa n).
Proof.
  unfold itoa. destruct (n =? 0); [reflexivity|]. assert (L : forall p n acc, clean acc -> clean (itoa_loop p n acc)); [|apply L; reflexivity].
  induction p as [|p IH]; intros m acc A; [exact A|]. cbn [itoa_loop]. destruct (0 <? m); [apply IH; cbn [forallb]; rewrite clean_digit; exact A|exact A].
Qed.
Lemma clean_pad w n : clean (pad_int w n).
Proof.
  assert (P : forall n, clean (pad_uint w n)).
  { intros m. unfold pad_uint. cbv zeta. apply clean_app; [|apply clean_uint]. generalize (w - length (fmt_uint m))%nat. intros k. induction k; [reflexivity|exact IHk]. }
  unfold pad_int. destruct (n <? 0); [cbn [forallb]; apply P|apply P].
Qed.

Section O.
Context {env : Env}.
Lemma clean_date t : clean (format_date t).
Proof. unfold format_date. destruct (civil_from_days _) as [[y m] d]. auto using clean_app, clean_pad. Qed.
Lemma clean_clock t : clean (format_clock t).
Proof. unfold format_clock. cbv zeta. auto using clean_app, clean_pad. Qed.
Lemma clean_datetime t : clean (concat (datetime_encode t)).
Proof.
  assert (C : clean (format_datetime t)) by (unfold format_datetime; apply clean_app; [apply clean_date|apply clean_app; [reflexivity|apply clean_clock]]).
  unfold datetime_encode. cbn [concat]. rewrite app_nil_r. destruct (t_loc t); [apply clean_app; [exact C|reflexivity]|exact C|exact C].
Qed.
Lemma clean_duration d : clean (concat (duration_encode d)).
Proof.
  unfold duration_encode. cbn [concat]. rewrite app_nil_r.
  repeat match goal with |- context [if ?b then _ else _] => destruct b end; rewrite ?forallb_app, ?clean_itoa; reflexivity.
Qed.
Lemma clean_offset u : clean (concat (utcoffset_encode u)).
Proof.
  unfold utcoffset_encode. cbn [concat]. rewrite app_nil_r.
  assert (T : forall x, 0 <= x < 256 -> clean [chr (to_byte (48 + x / 10)); chr (to_byte (48 + x mod 10))]).
  { intros x R. assert (V : forall y, 32 <= y < 127 -> value_char (chr (to_byte y)) = true).
    { intros y Y. unfold to_byte. rewrite Z.mod_small by lia. unfold value_char. rewrite code_chr by lia. lia. }
    cbn [forallb]. rewrite !V; [reflexivity| |]; Z.to_euclidean_division_equations; lia. }
  assert (B : forall x, 0 <= to_byte x < 256) by (intros x; apply Z.mod_pos_bound; lia).
  repeat apply clean_app.
  - destruct (u <? 0); reflexivity.
  - apply T. match goal with |- context [99 <? ?h] => destruct (99 <? h) eqn:Q; [lia|]; specialize (B (Z.quot (Z.quot (if u <? 0 then wrap64 (- u) else u) 60) 60)) end. exact B.
  - apply T, B.
  - match goal with |- context [if ?b then _ else _] => destruct b end; [apply T, B|reflexivity].
Qed.
Lemma clean_commas {A} (f : A -> list bytes) l : (forall a, In a l -> clean (concat (f a))) -> forall first, clean (concat (comma_writes f first l)).
Proof.
  induction l as [|a l IH]; intros H first; [reflexivity|]. cbn [comma_writes]. rewrite !concat_app. repeat apply clean_app; [destruct first; reflexivity|apply H; left; reflexivity|].
  apply IH. intros b I. apply H. right. exact I.
Qed.
Lemma clean_list {A} key (f : A -> list bytes) l : clean key -> (forall a, clean (concat (f a))) -> clean (concat (list_writes key f l)).
Proof. intros K F. unfold list_writes. destruct (isnil l); [reflexivity|]. rewrite concat_app. apply clean_app; [cbn [concat]; rewrite app_nil_r; exact K|]. apply clean_commas. auto. Qed.
Lemma clean_cat a b : clean (concat a) -> clean (concat b) -> clean (concat (a ++ b)).
Proof. intros A B. rewrite concat_app. apply clean_app; assumption. Qed.
Lemma clean_one s : clean s -> clean (concat [s]).
Proof. intros H. cbn [concat]. rewrite app_nil_r. exact H. Qed.
Lemma clean_two a s : clean a -> clean s -> clean (concat [a; s]).
Proof. intros H1 H2. cbn [concat]. rewrite app_nil_r. apply clean_app; assumption. Qed.
Lemma clean_day d : clean (concat (day_writes d)).
Proof.
  unfold day_writes, Utf8.in_range. destruct ((1 <=? d) && (d <=? 7)) eqn:R; [|reflexivity]. apply clean_one.
  assert (D : d = 1 \/ d = 2 \/ d = 3 \/ d = 4 \/ d = 5 \/ d = 6 \/ d = 7) by lia. repeat destruct D as [->|D]; try reflexivity. subst. reflexivity.
Qed.
Lemma clean_recur r : clean (concat (recur_encode r)).
Proof.
  unfold recur_encode. repeat apply clean_cat; try (apply clean_list; [reflexivity|intros z]); try (apply clean_one; first [apply clean_uint|apply fmt_int_value]).
  - apply clean_one, clean_app; [reflexivity|]. unfold Utf8.in_range. destruct ((0 <=? r_freq r) && (r_freq r <=? 6)) eqn:R; [|reflexivity]. generalize (r_freq r) R. intros d Q.
    assert (D : d = 0 \/ d = 1 \/ d = 2 \/ d = 3 \/ d = 4 \/ d = 5 \/ d = 6) by lia. repeat destruct D as [->|D]; try reflexivity. subst. reflexivity.
  - destruct (negb (r_count r =? 0)); [apply clean_two; [reflexivity|apply clean_uint]|]. destruct (negb (is_zero (r_until r))); [|reflexivity]. rewrite concat_app. apply clean_app; [reflexivity|].
    destruct (r_untiltime r); [apply clean_datetime|apply clean_one, clean_date].
  - destruct (negb (r_interval r =? 0)); [apply clean_two; [reflexivity|apply clean_uint]|reflexivity].
  - apply clean_cat; [|apply clean_day]. destruct (dr_occ z =? 0); [reflexivity|apply clean_one, fmt_int_value].
  - destruct (negb (r_wkst r =? 0)); [|reflexivity]. rewrite concat_app. apply clean_app; [reflexivity|apply clean_day].
Qed.

(** ** Values *)
Lemma clean_float f : float_valid f = None -> clean (format_float f).
Proof. destruct f as [|[]|]; intros H; try discriminate; reflexivity. Qed.
Lemma clean_value v : value_valid v = None -> value_clean v -> clean (concat (value_encode v)).
Proof.
  destruct v; cbn [value_valid value_clean value_encode]; intros V C.
  - apply binary_chars.
  - destruct b; reflexivity.
  - apply clean_one, C.
  - apply clean_one, clean_date.
  - apply clean_datetime.
  - apply clean_duration.
  - apply clean_one, clean_float, V.
  - destruct f as [a b]. unfold tfloat_valid in V. cbn [fst snd] in V. destruct (float_valid a) eqn:A; [discriminate|]. unfold tfloat_encode. cbn [concat fst snd]. rewrite app_nil_r. apply clean_app; [apply clean_float, A|]. apply clean_app; [reflexivity|apply clean_float, V].
  - apply clean_one, fmt_int_value.
  - unfold period_encode. rewrite !concat_app. apply clean_app; [apply clean_datetime|]. apply clean_app; [reflexivity|]. destruct (is_zero _); [apply clean_duration|apply clean_datetime].
  - apply clean_recur.
  - apply clean_one. apply text_bytes_safe, V.
  - apply mtext_value, V.
  - unfold clock_encode. apply clean_one. destruct (t_loc t); [apply clean_app; [apply clean_clock|reflexivity]|apply clean_clock|apply clean_clock].
  - apply clean_one, C.
  - apply clean_offset.
Qed.
Definition starts (s : bytes) : Prop := exists r, s = ";"%char :: r \/ s = ":"%char :: r.
Lemma starts_app a b : starts a -> starts (a ++ b).
Proof. intros (r & [->| ->]); exists (r ++ b); [left|right]; reflexivity. Qed.
Lemma clean_zone t : zone_clean t -> clean (concat (write_timezone t ++ [bs ":"])) /\ starts (concat (write_timezone t ++ [bs ":"])).
Proof.
  unfold zone_clean, write_timezone. destruct (t_loc t) as [| |z i]; intros C; [split; [reflexivity|exists []; right; reflexivity]|split; [reflexivity|exists []; right; reflexivity]|].
  cbn [app concat]. split; [rewrite app_nil_r; apply clean_app; [reflexivity|apply clean_app; [exact C|reflexivity]]|]. eexists. left. reflexivity.
Qed.
Lemma clean_avalue v : value_valid v = None -> value_clean v -> clean (concat (value_aencode v)) /\ starts (concat (value_aencode v)).
Proof.
  intros V C. pose proof (clean_value v V C) as K. unfold value_aencode. rewrite concat_app.
  assert (Z : forall l, clean (concat l) /\ starts (concat l) -> clean (concat l ++ concat (value_encode v)) /\ starts (concat l ++ concat (value_encode v))).
  { intros l [A B]. split; [apply clean_app; assumption|apply starts_app, B]. }
  assert (N : clean (concat [bs ":"]) /\ starts (concat [bs ":"])) by (split; [reflexivity|exists []; right; reflexivity]).
  destruct v; try (apply Z, N); try (apply Z, clean_zone, C). apply (Z [bs ";ENCODING=BASE64:"]). split; [reflexivity|]. eexists. left. reflexivity.
Qed.

(** ** Traces *)
Definition vis (tr : list wev) : Prop := forallb (fun e => match e with Wr b => forallb value_char b | Hang => true end) tr = true.
Definition text (tr : list wev) : bytes := concat (map (fun e => match e with Wr b => b | Hang => [] end) tr).
Lemma vis_app a b : vis a -> vis b -> vis (a ++ b).
Proof. unfold vis. intros A B. rewrite forallb_app, A, B. reflexivity. Qed.
Lemma vis_cons b tr : clean b -> vis tr -> vis (Wr b :: tr).
Proof. unfold vis. intros A B. cbn [forallb]. rewrite A, B. reflexivity. Qed.
Lemma vis_wrs ws : clean (concat ws) -> vis (wrs ws).
Proof. unfold vis. induction ws as [|w ws IH]; [reflexivity|]. cbn [concat wrs map forallb]. rewrite forallb_app, andb_true_iff. intros [-> H]. apply IH, H. Qed.
Lemma vis_text tr : vis tr -> clean (text tr).
Proof. unfold vis, text. induction tr as [|[b|] tr IH]; [reflexivity| |exact IH]. cbn [forallb map concat]. rewrite andb_true_iff. intros [A B]. apply clean_app; auto. Qed.
Lemma text_app a b : text (a ++ b) = text a ++ text b.
Proof. unfold text. rewrite map_app, concat_app. reflexivity. Qed.
Lemma text_wrs ws : text (wrs ws) = concat ws.
Proof. unfold text, wrs. rewrite map_map, map_id. reflexivity. Qed.
Lemma text_flat {A} (f : A -> list wev) l : text (flat_map f l) = concat (map (fun a => text (f a)) l).
Proof. induction l as [|a l IH]; [reflexivity|]. cbn [flat_map map concat]. rewrite text_app, IH. reflexivity. Qed.
Lemma text_pieces tr : hangs tr = false -> concat (pieces tr) = text tr.
Proof. unfold text. induction tr as [|[b|] tr IH]; intros H; [reflexivity| |discriminate]. cbn [pieces map concat]. rewrite IH by exact H. reflexivity. Qed.

(** ** Parameters *)
Lemma vis_6868 s : no_control s \/ clean s -> vis (write6868 s).
Proof.
  intros N. unfold write6868. destruct (special_dec s) as [B|B]; [rewrite (encode6868_none s B); reflexivity|]. rewrite (encode6868_plain s B). apply vis_cons; [|reflexivity].
  destruct N as [N|N]; [|exact N]. apply forallb_forall. intros c I. unfold no_control in N. rewrite Forall_forall in N. destruct (N c I) as [C| ->]; [exact C|]. destruct (B LF I). unfold special68. auto.
Qed.
Lemma vis_quoted s : no_control s \/ clean s -> vis (write_quoted s).
Proof. intros N. unfold write_quoted. apply vis_cons; [reflexivity|]. apply vis_app; [apply vis_6868, N|reflexivity]. Qed.
Lemma vis_wtext s : no_control s \/ clean s -> vis (write_text s).
Proof. intros N. unfold write_text. destruct (contains_any s needquote); [apply vis_quoted, N|apply vis_6868, N]. Qed.
Lemma vis_flat {A} (f : A -> list wev) l : (forall a, In a l -> vis (f a)) -> vis (flat_map f l).
Proof. induction l as [|a l IH]; intros H; [reflexivity|]. cbn [flat_map]. apply vis_app; [apply H; left; reflexivity|]. apply IH. intros b I. apply H. right. exact I. Qed.
Definition words_clean (k : pkind) : bool := match k with PKEnum _ ws => forallb (forallb value_char) ws | PKUnit w => forallb value_char w | _ => true end.
Lemma param_vis key k v : clean key -> words_clean k = true -> param_ok k v -> param_clean k v ->
  vis (param_encode key k v) /\ (param_encode key k v = [] \/ starts (text (param_encode key k v))).
Proof.
  intros K W O C. assert (HD : clean (bs ";" ++ key ++ bs "=")) by (apply clean_app; [reflexivity|apply clean_app; [exact K|reflexivity]]).
  assert (X : forall tr, vis tr -> vis (Wr (bs ";" ++ key ++ bs "=") :: tr) /\ (Wr (bs ";" ++ key ++ bs "=") :: tr = [] \/ starts (text (Wr (bs ";" ++ key ++ bs "=") :: tr)))).
  { intros tr T. split; [apply vis_cons; assumption|]. right. eexists. left. reflexivity. }
  assert (N : vis [] /\ ([] = @nil wev \/ starts (text []))) by (split; [reflexivity|left; reflexivity]).
  destruct k, v; cbn [param_encode param_ok param_clean words_clean] in *; try exact N.
  - destruct (isnil (url_string u)); [exact N|]. apply X, vis_wrs, clean_one, C.
  - destruct (isnil t); [exact N|]. apply X. destruct quoted; [apply vis_quoted|apply vis_wtext]; left; exact O.
  - destruct l as [|s l]; [exact N|]. inversion O as [|? ? O1 O2]; subst. apply X, vis_app; [apply vis_quoted; left; exact O1|]. apply vis_flat. intros a I. apply vis_cons; [reflexivity|]. apply vis_quoted. left. rewrite Forall_forall in O2. auto.
  - destruct l as [|u l]; [exact N|]. inversion C as [|? ? C1 C2]; subst. apply X, vis_app; [apply vis_wrs, clean_one, C1|]. apply vis_flat. intros a I. apply vis_cons; [reflexivity|]. rewrite Forall_forall in C2. apply vis_wrs, clean_one, C2, I.
  - apply X. unfold enum_word. assert (U : vis (if free then [Wr (bs "UNKNOWN")] else [])) by (destruct free; reflexivity). destruct (enum_base free <=? n); [|exact U]. destruct (nth_error _ _) as [w|] eqn:Q; [|exact U]. apply vis_cons; [|reflexivity].
    rewrite forallb_forall in W. apply W, (nth_error_In _ _ Q).
  - apply X, vis_cons; [exact W|reflexivity].
  - destruct (isnil t); [exact N|]. apply X, vis_wtext. right. exact C.
  - destruct b; [|exact N]. apply X. reflexivity.
Qed.
Lemma param_table q : clean (keyword q) /\ words_clean (pkind_of q) = true.
Proof. destruct q; split; reflexivity. Qed.
Lemma params_vis : forall ps l, (forall q v, In (q, Some v) (combine ps l) -> param_ok (snd (param_spec q)) v) -> (forall q v, In (q, Some v) (combine ps l) -> param_clean (snd (param_spec q)) v) ->
  vis (params_encode ps l) /\ (text (params_encode ps l) = [] \/ starts (text (params_encode ps l))).
Proof.
  induction ps as [|q ps IH]; intros [|o l] O C; try (split; [reflexivity|left; destruct o; reflexivity]); try (split; [reflexivity|left; reflexivity]). cbn [combine] in O, C.
  destruct (IH l) as [V T]; [intros q' v I; apply O; right; exact I|intros q' v I; apply C; right; exact I|]. destruct o as [v|]; cbn [params_encode]; [|split; assumption].
  destruct (param_table q) as [K W]. destruct (param_vis (keyword q) (pkind_of q) v K W (O q v (or_introl eq_refl)) (C q v (or_introl eq_refl))) as [V1 T1]. split; [apply vis_app; assumption|].
  rewrite text_app. destruct T1 as [->|T1]; [exact T|]. right. apply starts_app, T1.
Qed.

(** ** Properties *)
Lemma none_values : forall vs first l, Forall (fun o => o = None) l -> values_encode first vs l = [].
Proof. induction vs as [|[w k] vs IH]; intros first l F; [destruct l; reflexivity|]. destruct F as [|o l -> F]; [reflexivity|]. cbn [values_encode app]. apply IH, F. Qed.
Lemma one_value {R : bytes * vkind -> option value -> Prop} : forall vs l, Forall2 R vs l -> forall first, one_set l -> exists w v, In w (map fst vs) /\ In (Some v) l /\
  (values_encode first vs l = wrs (value_aencode v) \/ values_encode first vs l = Wr (bs ";VALUE=" ++ w) :: wrs (value_aencode v)).
Proof.
  induction 1 as [|[w k] o vs l _ F IH]; intros first (a & v & b & Q & A & B).
  - destruct a; discriminate.
  - destruct a as [|o' a]; cbn [app] in Q; injection Q as -> ->.
    + exists w, v. split; [left; reflexivity|]. split; [left; reflexivity|]. cbn [values_encode]. rewrite none_values by exact B. rewrite app_nil_r. destruct first; auto.
    + inversion A as [|? ? A1 A2]; subst. destruct (IH false) as (w' & v' & I & J & E); [exists a, v, b; auto|]. exists w', v'. split; [right; exact I|]. split; [right; exact J|]. cbn [values_encode app]. exact E.
Qed.
Lemma prop_name_key pid : fst (prop_spec pid) = prop_name pid.
Proof. destruct pid; reflexivity. Qed.
Definition mode_clean (m : bytes * propkind) : bool := forallb value_char (fst m) && match snd m with MStruct _ vs => negb (isnil vs) && forallb (fun t => forallb value_char (fst t)) vs | MEnum ws => forallb (forallb value_char) ws | _ => true end.
Lemma prop_table pid : mode_clean (prop_spec pid) = true.
Proof. destruct pid; reflexivity. Qed.
Theorem prop_line pid p : prop_typed pid p -> prop_ok pid p -> prop_clean pid p -> exists l, text (prop_encode pid p) = l ++ CRLF /\ line_named (prop_name pid) l.
Proof.
  unfold prop_typed, prop_ok, prop_clean, prop_encode. pose proof (prop_table pid) as T. unfold mode_clean in T. rewrite <- (prop_name_key pid). destruct (prop_spec pid) as [key k]. cbn [fst snd] in *.
  apply andb_true_iff in T as [TK T]. assert (LN : forall b, clean b -> starts b -> line_named key (key ++ b)).
  { intros b B (r & Q). split; [apply clean_app; assumption|]. exists r. destruct Q as [->| ->]; [left|right]; reflexivity. }
  destruct k as [ps vs|ws|k], p as [l vl|n|v]; intros TY OK CL; try contradiction.
  - destruct TY as (TP & TV & T1), OK as (OP & OV & O1), CL as (CP & CV). apply andb_true_iff in T as [TN TW].
    assert (ONE : one_set vl).
    { destruct vs as [|t [|t' vs]]; [discriminate| |apply O1; cbn [length]; lia]. inversion TV as [|? o ? vl' _ TV']; subst. inversion TV'; subst. destruct o as [v|]; [|destruct (T1 eq_refl); left; reflexivity]. exists [], v, []. repeat split; constructor. }
    destruct (one_value vs vl TV true ONE) as (w & v & IW & IV & EV). destruct (params_vis ps l OP CP) as [PV PT]. destruct (clean_avalue v) as [VC VS]; [apply value_valid_iff, OV, IV|apply CV, IV|].
    assert (VAL : clean (text (values_encode true vs vl)) /\ starts (text (values_encode true vs vl))).
    { destruct EV as [->| ->]; [rewrite text_wrs; auto|]. change (text (Wr (bs ";VALUE=" ++ w) :: wrs (value_aencode v))) with ((bs ";VALUE=" ++ w) ++ text (wrs (value_aencode v))). rewrite text_wrs. split.
      - apply in_map_iff in IW as (t & <- & IW). rewrite forallb_forall in TW. specialize (TW t IW). cbv beta in TW. apply clean_app; [apply clean_app; [reflexivity|exact TW]|exact VC].
      - eexists. left. reflexivity. }
    exists (key ++ text (params_encode ps l) ++ text (values_encode true vs vl)). split.
    + change (text (Wr key :: ?t)) with (key ++ text t). rewrite !text_app, <- !app_assoc. reflexivity.
    + apply LN; [apply clean_app; [apply vis_text, PV|apply VAL]|]. destruct PT as [->|PT]; [apply VAL|apply starts_app, PT].
  - unfold Utf8.in_range. replace ((0 <=? n) && (n <=? Z.of_nat (length ws) - 1)) with true by lia. exists (key ++ bs ":" ++ nth (Z.to_nat n) ws []). split; [unfold text; cbn [app map concat]; rewrite <- !app_assoc; reflexivity|].
    apply LN; [|exists (nth (Z.to_nat n) ws []); right; reflexivity]. apply clean_app; [reflexivity|]. rewrite forallb_forall in T. apply T, nth_In. lia.
  - destruct (clean_avalue v) as [VC VS]; [apply value_valid_iff, OK|exact CL|]. exists (key ++ concat (value_aencode v)). split; [|apply LN; assumption].
    change (text (Wr key :: ?t)) with (key ++ text t). rewrite text_app, text_wrs, <- !app_assoc. reflexivity.
Qed.

(** ** Components *)
Definition sound (l : bytes) : Prop := clean l /\ exists c r, l = c :: r /\ c <> SP.
Lemma name_head pid : exists c r, prop_name pid = c :: r /\ c <> SP.
Proof. destruct pid; eexists; eexists; (split; [reflexivity|discriminate]). Qed.
Lemma line_sound pid l : line_named (prop_name pid) l -> sound l.
Proof. intros [C (r & L)]. split; [exact C|]. destruct (name_head pid) as (c & n & N & S). rewrite N in L. cbn [app] in L. destruct L as [->| ->]; eauto. Qed.
Lemma comp_name_eq id : sp_name (sec_spec id) = comp_name id.
Proof. destruct id; reflexivity. Qed.
Lemma comp_name_clean id : clean (comp_name id).
Proof. destruct id; reflexivity. Qed.
Lemma lines_app a b : text_of_lines (a ++ b) = text_of_lines a ++ text_of_lines b.
Proof. unfold text_of_lines. rewrite map_app, concat_app. reflexivity. Qed.
Lemma lines_cons l b : text_of_lines (l :: b) = l ++ CRLF ++ text_of_lines b.
Proof. unfold text_of_lines. cbn [map concat]. rewrite <- app_assoc. reflexivity. Qed.

Section ByLine.
Context (L : propid -> prop -> bytes -> Prop) (R : propid -> prop -> Prop)
  (PL : forall pid p, prop_typed pid p -> prop_ok pid p -> prop_clean pid p -> R pid p -> exists l, text (prop_encode pid p) = l ++ CRLF /\ L pid p l /\ sound l).
Definition body_lines (x : sec) : Prop := exists ls, comp_lines L x ls /\ text (flat_map (flat_map fval_encode) (sec_fields x)) = text_of_lines ls /\ Forall sound ls.
Lemma vals_lines_ok vs : (forall v, In v vs -> (exists t, fval_typed t v /\ forall sid, t = FTSec sid -> sp_own (sec_spec sid) = true)) ->
  (forall pid p, In (FVProp pid p) vs -> prop_ok pid p /\ prop_clean pid p /\ R pid p) -> (forall x, In (FVSec x) vs \/ In (FVAlarm (Some x)) vs -> body_lines x) -> ~ In (FVAlarm None) vs ->
  exists ls, vals_lines L vs ls /\ text (flat_map fval_encode vs) = text_of_lines ls /\ Forall sound ls.
Proof.
  induction vs as [|v vs IH]; intros TY PR BO NA; [exists []; repeat split; constructor|].
  destruct IH as (ls & VL & TL & SO); [intros w I; apply TY; right; exact I|intros pid p I; apply PR; right; exact I|intros x J; apply BO; destruct J; [left|right]; right; assumption|intros I; apply NA; right; exact I|].
  destruct (TY v (or_introl eq_refl)) as (t & T & OWN). cbn [flat_map]. inversion T as [pid p GP T1 T2|sid fs GC T1 T2|w sid fs A GC T1 T2|T1 T2]; subst.
  - destruct (PR pid p (or_introl eq_refl)) as (PO & PC & PR1). destruct (PL pid p GP PO PC PR1) as (l & E & LL & LS). exists (l :: ls). split; [constructor; assumption|]. split; [|constructor; [exact LS|exact SO]].
    rewrite text_app, TL, lines_cons. cbn [fval_encode]. rewrite E, <- app_assoc. reflexivity.
  - destruct (BO (Sec sid fs)) as (la & CL & TA & SA); [left; left; reflexivity|]. eexists. split; [apply VL_sec; eassumption|]. split.
    + change (fval_encode (FVSec (Sec sid fs))) with (sec_encode (Sec sid fs)). rewrite sec_encode_eq, (OWN sid eq_refl), !text_app, TL, comp_name_eq. cbn [sec_fields] in TA. rewrite TA. cbn [sec_id]. rewrite lines_cons, lines_app, lines_cons.
      change (text [Wr ?b]) with (b ++ []). unfold begin_line, end_line. rewrite !app_nil_r, <- !app_assoc. reflexivity.
    + constructor; [split; [apply clean_app; [reflexivity|apply comp_name_clean]|eexists; eexists; split; [reflexivity|discriminate]]|]. apply Forall_app. split; [exact SA|].
      constructor; [split; [apply clean_app; [reflexivity|apply comp_name_clean]|eexists; eexists; split; [reflexivity|discriminate]]|exact SO].
  - destruct (BO (Sec sid fs)) as (la & CL & TA & SA); [right; left; reflexivity|]. destruct (action_facts _ _ A) as (AW & WW & OW & VN & _). eexists. split; [apply (VL_alarm _ _ w); [exact A|exact CL|exact VL]|]. split.
    + change (fval_encode (FVAlarm (Some (Sec sid fs)))) with ([Wr (begin_line (bs "VALARM")); Wr (bs "ACTION:" ++ alarm_word sid ++ CRLF)] ++ sec_encode (Sec sid fs) ++ [Wr (end_line (bs "VALARM"))]).
      rewrite AW, sec_encode_eq, OW, !text_app, TL. cbn [sec_fields] in TA. rewrite TA, !lines_cons, lines_app, lines_cons. change (text [Wr ?b]) with (b ++ []). change (text [Wr ?a; Wr ?b]) with (a ++ b ++ []). change (text []) with (@nil byte).
      unfold begin_line, end_line. rewrite !app_nil_r, <- !app_assoc. reflexivity.
    + constructor; [split; [reflexivity|eexists; eexists; split; [reflexivity|discriminate]]|]. constructor; [split; [|eexists; eexists; split; [reflexivity|discriminate]]|].
      * apply clean_app; [reflexivity|]. unfold action_is in A. repeat destruct A as [A|A]; try (injection A as <- <-; reflexivity). destruct A.
      * apply Forall_app. split; [exact SA|]. constructor; [split; [reflexivity|eexists; eexists; split; [reflexivity|discriminate]]|exact SO].
  - destruct NA. left. reflexivity.
Qed.
Lemma cal_body cal : cal_typed cal -> cal_ok cal -> cal_clean cal -> (forall pid p, has_prop cal pid p -> R pid p) -> body_lines cal.
Proof.
  induction cal as [id fs IH] using sec_induct. intros T [OK NA] C RR.
  assert (SUB : forall vs x, In vs fs -> In (FVSec x) vs \/ In (FVAlarm (Some x)) vs -> cal_ok x /\ cal_clean x /\ forall pid p, has_prop x pid p -> R pid p).
  { intros vs x I J. assert (HP : forall pid p, has_prop x pid p -> has_prop (Sec id fs) pid p) by (intros pid p H; apply has_prop_eq; right; eauto).
    split; [split; [auto|]|split; [intros pid p H; apply C; auto|auto]]. intros y ws P. apply NA. destruct J as [J|J]; [eapply Part_sec|eapply Part_alarm]; eauto. }
  inversion T as [? ? LEN F]; subst.
  assert (V : exists ls, vals_lines L (concat fs) ls /\ text (flat_map fval_encode (concat fs)) = text_of_lines ls /\ Forall sound ls).
  { apply vals_lines_ok.
    - intros v I. apply in_concat in I as (vs & I & J). destruct (In_nth_error _ _ I) as (i & N). destruct (nth_error (fields_of id) i) as [fd|] eqn:FD.
      + destruct (F i fd vs FD N) as [_ FT]. rewrite Forall_forall in FT. exists (fd_type fd). split; [apply FT, J|]. apply (field_facts id i fd FD).
      + exfalso. apply nth_error_None in FD. assert (X : nth_error fs i <> None) by congruence. apply nth_error_Some in X. unfold fields_of in *. lia.
    - intros pid p I. apply in_concat in I as (vs & I & J). assert (H : has_prop (Sec id fs) pid p) by (apply has_prop_eq; left; eauto). split; [apply OK, H|]. split; [apply C, H|apply RR, H].
    - intros x J. assert (JJ : exists vs, In vs fs /\ (In (FVSec x) vs \/ In (FVAlarm (Some x)) vs)) by (destruct J as [J|J]; apply in_concat in J as (vs & I & J); eauto). destruct JJ as (vs & I & JJ).
      destruct (SUB vs x I JJ) as (O1 & C1 & R1). apply (IH vs x I JJ); [|exact O1|exact C1|exact R1]. destruct (In_nth_error _ _ I) as (i & N). destruct (nth_error (fields_of id) i) as [fd|] eqn:FD.
      + destruct (F i fd vs FD N) as [_ FT]. rewrite Forall_forall in FT. destruct JJ as [JJ|JJ]; apply FT in JJ; inversion JJ; subst; assumption.
      + exfalso. apply nth_error_None in FD. assert (X : nth_error fs i <> None) by congruence. apply nth_error_Some in X. unfold fields_of in *. lia.
    - intros I. apply in_concat in I as (vs & I & J). exact (NA (Sec id fs) vs (Part_self _) I J). }
  destruct V as (ls & VL & TL & SO). exists ls. split; [constructor; exact VL|]. split; [|exact SO]. rewrite <- TL. cbn [sec_fields]. rewrite !text_flat. clear.
  induction fs as [|vs fs IHf]; [reflexivity|]. cbn [map concat]. rewrite map_app, concat_app, IHf, (text_flat fval_encode vs). reflexivity.
Qed.
End ByLine.

(** ** Lines without folds *)
Lemma sound_plain l : sound l -> Forall (fun b => code b <> 13 /\ code b <> 10) l.
Proof. intros [W _]. rewrite forallb_forall in W. apply Forall_forall. intros c I. specialize (W c I). unfold value_char in W. lia. Qed.
Lemma sound_no_fold ls : Forall sound ls -> find_fold (text_of_lines ls) = None.
Proof.
  assert (P : forall x y, Forall (fun b => code b <> 13 /\ code b <> 10) x -> find_fold y = None -> find_fold (x ++ y) = None).
  { intros x y F Y. induction F as [|c x [A _] _ IH]; [exact Y|]. cbn [app]. destruct (x ++ y) as [|a [|b r]]; [reflexivity|reflexivity|]. apply find_fold_3; [|exact IH].
    replace (beqc c CR) with false; [reflexivity|]. symmetry. apply beqc_neq. intros ->. apply A. reflexivity. }
  intros W. induction W as [|l ls W Wls IH]; [reflexivity|]. rewrite lines_cons. apply P; [apply sound_plain, W|].
  change (CRLF ++ text_of_lines ls) with (CR :: LF :: text_of_lines ls). destruct ls as [|l' ls']; [reflexivity|].
  inversion Wls as [|? ? W' _]; subst. rewrite lines_cons in *. destruct W' as (_ & c & r & HR & N). rewrite HR in *. cbn [app] in *. apply find_fold_3.
  - apply beqc_neq in N. rewrite N. rewrite andb_false_r. reflexivity.
  - destruct (r ++ CRLF ++ text_of_lines ls') as [|a s]; [reflexivity|]. apply find_fold_3; [reflexivity|exact IH].
Qed.
Lemma phys_line l s : Forall (fun b => code b <> 13 /\ code b <> 10) l -> phys_lines (l ++ CRLF ++ s) = l :: phys_lines s.
Proof.
  induction 1 as [|c l [A B] _ IH]; [reflexivity|]. destruct (l ++ CRLF ++ s) as [|d r] eqn:Q; [destruct l; discriminate|]. cbn [app]. rewrite Q, phys_cons. replace (beqc c CR) with false; [|symmetry; apply beqc_neq; intros ->; apply A; reflexivity].
  cbn [andb]. rewrite IH. reflexivity.
Qed.
Lemma sound_phys ls : Forall sound ls -> phys_lines (text_of_lines ls) = ls ++ [[]].
Proof. induction 1 as [|l ls S F IH]; [reflexivity|]. rewrite lines_cons, phys_line by apply sound_plain, S. rewrite IH. reflexivity. Qed.
Lemma sound_no_bare ls : Forall sound ls -> no_bare (text_of_lines ls).
Proof.
  intros F. unfold no_bare. rewrite sound_phys by exact F. apply Forall_app. split; [|constructor; [split; intros []|constructor]]. eapply Forall_impl; [|exact F]. intros l S.
  apply sound_plain in S. rewrite Forall_forall in S. split; intros I; apply S in I as [A B]; [apply A|apply B]; reflexivity.
Qed.
Theorem encode_lines_by (L : propid -> prop -> bytes -> Prop) (R : propid -> prop -> Prop) cal e out :
  (forall pid p, prop_typed pid p -> prop_ok pid p -> prop_clean pid p -> R pid p -> exists l, text (prop_encode pid p) = l ++ CRLF /\ L pid p l /\ sound l) ->
  sec_id cal = SCalendar -> cal_typed cal -> cal_clean cal -> (forall pid p, has_prop cal pid p -> R pid p) -> Encode ok_writer [] cal = EncDone e out ->
  exists ls, comp_lines L cal ls /\ unfold (concat out) = text_of_lines (bs "BEGIN:VCALENDAR" :: ls ++ [bs "END:VCALENDAR"]) /\
    Forall (fun l => Z.of_nat (length l) <= 75) (phys_lines (concat out)).
Proof.
  intros PL ID T C RR H. assert (OK : cal_ok cal) by (apply (proj2 (encode_refuses ok_writer [] cal)); intros e' w' Q; congruence).
  assert (HG : hangs (sec_encode cal) = false).
  { unfold Encode in H. destruct (sec_valid cal); [discriminate|]. rewrite run_trace_spec in H. cbv zeta in H. destruct (hangs _); [discriminate|reflexivity]. }
  destruct (cal_body L R PL cal T OK C RR) as (ls & CL & TL & SO). destruct cal as [id fs]. cbn [sec_id] in ID. subst id. cbn [sec_fields] in TL.
  assert (S : Forall sound (bs "BEGIN:VCALENDAR" :: ls ++ [bs "END:VCALENDAR"])).
  { constructor; [split; [reflexivity|eexists; eexists; split; [reflexivity|discriminate]]|]. apply Forall_app. split; [exact SO|]. constructor; [split; [reflexivity|eexists; eexists; split; [reflexivity|discriminate]]|constructor]. }
  assert (CT : content (Sec SCalendar fs) = text_of_lines (bs "BEGIN:VCALENDAR" :: ls ++ [bs "END:VCALENDAR"])).
  { unfold content. rewrite text_pieces by exact HG. rewrite sec_encode_eq. change (sp_own (sec_spec SCalendar)) with true. cbv iota. rewrite !text_app, TL, lines_cons, lines_app. reflexivity. }
  exists ls. split; [exact CL|]. split.
  - rewrite (encode_unfold _ _ _ H), CT. apply unfold_none, sound_no_fold, S.
  - apply (encode_lines _ _ _ H). rewrite CT. apply sound_no_bare, S.
Qed.
Theorem encode_one_line_each cal e out : sec_id cal = SCalendar -> cal_typed cal -> cal_clean cal -> Encode ok_writer [] cal = EncDone e out ->
  exists ls, comp_lines named cal ls /\ unfold (concat out) = text_of_lines (bs "BEGIN:VCALENDAR" :: ls ++ [bs "END:VCALENDAR"]) /\
    Forall (fun l => Z.of_nat (length l) <= 75) (phys_lines (concat out)).
Proof.
  intros ID T C. apply (encode_lines_by named (fun _ _ => True)); auto. intros pid p T1 O1 C1 _.
  destruct (prop_line pid p T1 O1 C1) as (l & E & L). exists l. split; [exact E|]. split; [exact L|exact (line_sound _ _ L)].
Qed.
End O.
