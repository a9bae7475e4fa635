(** UTF-8 in, UTF-8 out. *)
From Coq Require Import String Ascii ZArith Bool List Lia ZifyBool.
From Verif Require Import Base Lib Utf8 Utf8Proofs GoStrings Strtok Tokeniser SpecContent NumProofs TextProofs BinaryProofs GoTime Types Params ParamTable PropTable Props SecTable Sections Folder Unfolder Codec SpecLines FolderProofs UnfolderProofs SpecTree TreeProofs ExactProofs SpecRules EncodeProofs SpecParams ParamProofs SpecProps PropProofs HangProofs GroupProofs SpecCal CalProofs EncodableProofs SpecValid ValidProofs DecodedProofs KeepProofs SpecUtf.
Import ListNotations.
Local Open Scope Z_scope.

(** ** Numbers are ASCII *)
Notation asc s := (forallb (fun c => code c <? 128) s = true).
Lemma asc_utf8 s : asc s -> utf8 s.
Proof. intros A. apply utf8_ascii. rewrite forallb_forall in A. apply Forall_forall. intros c I. specialize (A c I). lia. Qed.
Lemma asc_app a b : asc a -> asc b -> asc (a ++ b).
Proof. intros A B. rewrite forallb_app, A, B. reflexivity. Qed.
Lemma asc_pieces ws : asc (concat ws) -> Forall utf8 ws.
Proof. induction ws as [|w ws IH]; [constructor|]. cbn [concat]. rewrite forallb_app, andb_true_iff. intros [A B]. constructor; [apply asc_utf8, A|auto]. Qed.
Lemma asc_digit n : code (digit_chr (n mod 10)) <? 128 = true.
Proof. rewrite digit_chr_code by (Z.to_euclidean_division_equations; lia). Z.to_euclidean_division_equations; lia. Qed.
Lemma asc_dec f : forall n acc, asc acc -> asc (dec_digits f n acc).
Proof.
  induction f as [|f IH]; intros n acc A; [exact A|]. cbn [dec_digits]. assert (B : asc (digit_chr (n mod 10) :: acc)) by (cbn [forallb]; rewrite asc_digit; exact A).
  destruct (n / 10 =? 0); [exact B|apply IH, B].
Qed.
Lemma asc_uint n : asc (fmt_uint n).
Proof. apply asc_dec. reflexivity. Qed.
Lemma asc_int n : asc (fmt_int n).
Proof. unfold fmt_int. destruct (n <? 0); [cbn [forallb]|]; apply asc_uint. Qed.
Lemma asc_itoa n : asc (itoa n).
Proof.
  unfold itoa. destruct (n =? 0); [reflexivity|]. assert (L : forall p n acc, asc acc -> asc (itoa_loop p n acc)); [|apply L; reflexivity].
  induction p as [|p IH]; intros m acc A; [exact A|]. cbn [itoa_loop]. destruct (0 <? m); [apply IH; cbn [forallb]; rewrite asc_digit; exact A|exact A].
Qed.
Lemma asc_pad w n : asc (pad_int w n).
Proof.
  assert (P : forall n, asc (pad_uint w n)).
  { intros m. unfold pad_uint. cbv zeta. apply asc_app; [|apply asc_uint]. generalize (w - length (fmt_uint m))%nat. intros k. induction k; [reflexivity|exact IHk]. }
  unfold pad_int. destruct (n <? 0); [cbn [forallb]; apply P|apply P].
Qed.
Lemma asc_one s : asc s -> asc (concat [s]).
Proof. intros H. cbn [concat]. rewrite app_nil_r. exact H. Qed.
Lemma asc_two a s : asc a -> asc s -> asc (concat [a; s]).
Proof. intros H1 H2. cbn [concat]. rewrite app_nil_r. apply asc_app; assumption. Qed.
Lemma asc_cat a b : asc (concat a) -> asc (concat b) -> asc (concat (a ++ b)).
Proof. intros A B. rewrite concat_app. apply asc_app; assumption. Qed.

Section U.
Context {env : Env}.
Lemma asc_date t : asc (format_date t).
Proof. unfold format_date. destruct (civil_from_days _) as [[y m] d]. auto using asc_app, asc_pad. Qed.
Lemma asc_clock t : asc (format_clock t).
Proof. unfold format_clock. cbv zeta. auto using asc_app, asc_pad. Qed.
Lemma asc_datetime t : asc (concat (datetime_encode t)).
Proof.
  assert (C : asc (format_datetime t)) by (unfold format_datetime; apply asc_app; [apply asc_date|apply asc_app; [reflexivity|apply asc_clock]]).
  unfold datetime_encode. cbn [concat]. rewrite app_nil_r. destruct (t_loc t); [apply asc_app; [exact C|reflexivity]|exact C|exact C].
Qed.
Lemma asc_duration d : asc (concat (duration_encode d)).
Proof.
  unfold duration_encode. cbn [concat]. rewrite app_nil_r.
  repeat match goal with |- context [if ?b then _ else _] => destruct b end; rewrite ?forallb_app, ?asc_itoa; reflexivity.
Qed.
Lemma asc_offset u : asc (concat (utcoffset_encode u)).
Proof.
  unfold utcoffset_encode. cbn [concat]. rewrite app_nil_r.
  assert (T : forall x, 0 <= x < 256 -> asc [chr (to_byte (48 + x / 10)); chr (to_byte (48 + x mod 10))]).
  { intros x R. assert (V : forall y, 32 <= y < 127 -> code (chr (to_byte y)) <? 128 = true).
    { intros y Y. unfold to_byte. rewrite Z.mod_small by lia. rewrite code_chr by lia. lia. }
    cbn [forallb]. rewrite !V; [reflexivity| |]; Z.to_euclidean_division_equations; lia. }
  assert (B : forall x, 0 <= to_byte x < 256) by (intros x; apply Z.mod_pos_bound; lia).
  repeat apply asc_app.
  - destruct (u <? 0); reflexivity.
  - apply T. match goal with |- context [99 <? ?h] => destruct (99 <? h) eqn:Q; [lia|]; specialize (B (Z.quot (Z.quot (if u <? 0 then wrap64 (- u) else u) 60) 60)) end. exact B.
  - apply T, B.
  - match goal with |- context [if ?b then _ else _] => destruct b end; [apply T, B|reflexivity].
Qed.
Lemma asc_commas {A} (f : A -> list bytes) l : (forall a, In a l -> asc (concat (f a))) -> forall first, asc (concat (comma_writes f first l)).
Proof.
  induction l as [|a l IH]; intros H first; [reflexivity|]. cbn [comma_writes]. rewrite !concat_app. repeat apply asc_app; [destruct first; reflexivity|apply H; left; reflexivity|].
  apply IH. intros b I. apply H. right. exact I.
Qed.
Lemma asc_list {A} key (f : A -> list bytes) l : asc key -> (forall a, asc (concat (f a))) -> asc (concat (list_writes key f l)).
Proof. intros K F. unfold list_writes. destruct (isnil l); [reflexivity|]. rewrite concat_app. apply asc_app; [cbn [concat]; rewrite app_nil_r; exact K|]. apply asc_commas. auto. Qed.
Lemma asc_day d : asc (concat (day_writes d)).
Proof.
  unfold day_writes, Utf8.in_range. destruct ((1 <=? d) && (d <=? 7)) eqn:R; [|reflexivity]. apply asc_one.
  assert (D : d = 1 \/ d = 2 \/ d = 3 \/ d = 4 \/ d = 5 \/ d = 6 \/ d = 7) by lia. repeat destruct D as [->|D]; try reflexivity. subst. reflexivity.
Qed.
Lemma asc_recur r : asc (concat (recur_encode r)).
Proof.
  unfold recur_encode. repeat apply asc_cat; try (apply asc_list; [reflexivity|intros z]); try (apply asc_one; first [apply asc_uint|apply asc_int]).
  - apply asc_one, asc_app; [reflexivity|]. unfold Utf8.in_range. destruct ((0 <=? r_freq r) && (r_freq r <=? 6)) eqn:R; [|reflexivity]. generalize (r_freq r) R. intros d Q.
    assert (D : d = 0 \/ d = 1 \/ d = 2 \/ d = 3 \/ d = 4 \/ d = 5 \/ d = 6) by lia. repeat destruct D as [->|D]; try reflexivity. subst. reflexivity.
  - destruct (negb (r_count r =? 0)); [apply asc_two; [reflexivity|apply asc_uint]|]. destruct (negb (is_zero (r_until r))); [|reflexivity]. rewrite concat_app. apply asc_app; [reflexivity|].
    destruct (r_untiltime r); [apply asc_datetime|apply asc_one, asc_date].
  - destruct (negb (r_interval r =? 0)); [apply asc_two; [reflexivity|apply asc_uint]|reflexivity].
  - apply asc_cat; [|apply asc_day]. destruct (dr_occ z =? 0); [reflexivity|apply asc_one, asc_int].
  - destruct (negb (r_wkst r =? 0)); [|reflexivity]. rewrite concat_app. apply asc_app; [reflexivity|apply asc_day].
Qed.
Lemma asc_float f : ~ finite f -> asc (format_float f).
Proof. destruct f as [|[]|]; intros H; try reflexivity. destruct H. exact Logic.I. Qed.
Lemma asc_binary b : asc (concat (binary_encode b)).
Proof.
  unfold binary_encode. rewrite binary_writes_concat by lia. eapply forallb_impl; [|apply b64_enc_chars]. intros c C.
  pose proof (byte_forall (fun c => implb (b64_char c) (code c <? 128)) ltac:(vm_compute; reflexivity) c) as B. cbv beta in B. rewrite C in B. exact B.
Qed.

(** ** Texts: whatever they are, they are written in UTF-8 *)
Lemma any_rune_utf8 r : utf8 (encode_rune r).
Proof.
  destruct (valid_rune r) eqn:V; [apply utf8_rune, V|]. replace (encode_rune r) with (encode_rune RuneError); [apply utf8_rune; reflexivity|].
  unfold encode_rune. rewrite V. reflexivity.
Qed.
Lemma text_rune_utf8 r : utf8 (text_rune r).
Proof. unfold text_rune. repeat match goal with |- context [if ?b then _ else _] => destruct b end; try (apply asc_utf8; reflexivity). apply any_rune_utf8. Qed.
Lemma text_bytes_utf8 t : utf8 (text_bytes t).
Proof. unfold text_bytes. induction (runes t) as [|r l IH]; [apply utf8_nil|]. cbn [map concat]. apply utf8_app; [apply text_rune_utf8|exact IH]. Qed.
Lemma texts_utf8 l : forall first, Forall utf8 (comma_writes text_encode first l).
Proof.
  induction l as [|t l IH]; intros first; [constructor|]. cbn [comma_writes]. apply Forall_app. split; [destruct first; [constructor|constructor; [apply asc_utf8; reflexivity|constructor]]|].
  constructor; [apply text_bytes_utf8|apply IH].
Qed.

(** ** Values *)
Lemma value_utf8 v : value_ok v -> Forall utf8 (value_outside v) -> Forall utf8 (value_encode v).
Proof.
  destruct v; cbn [value_ok value_outside value_encode]; intros V O; try exact O.
  - apply asc_pieces, asc_binary.
  - apply asc_pieces. destruct b; reflexivity.
  - apply asc_pieces, asc_one, asc_date.
  - apply asc_pieces, asc_datetime.
  - apply asc_pieces, asc_duration.
  - apply asc_pieces, asc_one, asc_float, V.
  - destruct f as [a b]. destruct V as [A B]. apply asc_pieces. unfold tfloat_encode. cbn [concat fst snd]. rewrite app_nil_r. apply asc_app; [apply asc_float, A|]. apply asc_app; [reflexivity|apply asc_float, B].
  - apply asc_pieces, asc_one, asc_int.
  - apply asc_pieces. unfold period_encode. rewrite !concat_app. apply asc_app; [apply asc_datetime|]. apply asc_app; [reflexivity|]. destruct (is_zero _); [apply asc_duration|apply asc_datetime].
  - apply asc_pieces, asc_recur.
  - constructor; [apply text_bytes_utf8|constructor].
  - apply texts_utf8.
  - apply asc_pieces. unfold clock_encode. apply asc_one. destruct (t_loc t); [apply asc_app; [apply asc_clock|reflexivity]|apply asc_clock|apply asc_clock].
  - apply asc_pieces, asc_offset.
Qed.
Lemma zone_utf8 t : Forall utf8 (zone_names t) -> Forall utf8 (write_timezone t ++ [bs ":"]).
Proof.
  unfold zone_names, write_timezone. intros Z. apply Forall_app. split; [|constructor; [apply asc_utf8; reflexivity|constructor]].
  destruct (t_loc t); [constructor|constructor|]. constructor; [apply asc_utf8; reflexivity|exact Z].
Qed.
Lemma avalue_utf8 v : value_ok v -> Forall utf8 (value_outside v) -> Forall utf8 (value_aencode v).
Proof.
  intros V O. unfold value_aencode. apply Forall_app. split; [|apply value_utf8; assumption].
  destruct v; cbn [value_outside] in O; first [apply zone_utf8, O|constructor; [apply asc_utf8; reflexivity|constructor]].
Qed.

(** ** Traces *)
Definition u8 (tr : list wev) : Prop := Forall (fun e => match e with Wr b => utf8 b | Hang => True end) tr.
Lemma u8_app a b : u8 a -> u8 b -> u8 (a ++ b).
Proof. intros A B. apply Forall_app. auto. Qed.
Lemma u8_cons b tr : utf8 b -> u8 tr -> u8 (Wr b :: tr).
Proof. intros A B. constructor; assumption. Qed.
Lemma u8_nil : u8 [].
Proof. constructor. Qed.
Lemma u8_asc b : asc b -> u8 [Wr b].
Proof. intros A. apply u8_cons; [apply asc_utf8, A|apply u8_nil]. Qed.
Lemma u8_wrs ws : Forall utf8 ws -> u8 (wrs ws).
Proof. unfold u8, wrs. rewrite Forall_map. auto. Qed.
Lemma u8_flat {A} (f : A -> list wev) l : (forall a, In a l -> u8 (f a)) -> u8 (flat_map f l).
Proof. induction l as [|a l IH]; intros H; [apply u8_nil|]. cbn [flat_map]. apply u8_app; [apply H; left; reflexivity|]. apply IH. intros b I. apply H. right. exact I. Qed.
Lemma u8_pieces tr : u8 tr -> Forall utf8 (pieces tr).
Proof. induction 1 as [|[b|] tr B _ IH]; cbn [pieces]; constructor; assumption. Qed.

(** ** Parameters *)
Lemma u8_6868 s : utf8 s -> u8 (write6868 s).
Proof.
  intros N. unfold write6868. destruct (special_dec s) as [B|B]; [rewrite (encode6868_none s B); constructor; [exact Logic.I|constructor]|]. rewrite (encode6868_plain s B). apply u8_cons; [exact N|apply u8_nil].
Qed.
Lemma u8_quoted s : utf8 s -> u8 (write_quoted s).
Proof. intros N. unfold write_quoted. apply u8_cons; [apply asc_utf8; reflexivity|]. apply u8_app; [apply u8_6868, N|apply u8_asc; reflexivity]. Qed.
Lemma u8_wtext s : utf8 s -> u8 (write_text s).
Proof. intros N. unfold write_text. destruct (contains_any s needquote); [apply u8_quoted, N|apply u8_6868, N]. Qed.
Definition words_asc (k : pkind) : bool := match k with PKEnum _ ws => forallb (forallb (fun c => code c <? 128)) ws | PKUnit w => forallb (fun c => code c <? 128) w | _ => true end.
Lemma param_utf8 key k v : asc key -> words_asc k = true -> Forall utf8 (param_texts v) -> Forall utf8 (param_outside v) -> u8 (param_encode key k v).
Proof.
  intros K W T O. assert (HD : utf8 (bs ";" ++ key ++ bs "=")) by (apply asc_utf8, asc_app; [reflexivity|apply asc_app; [exact K|reflexivity]]).
  destruct k, v; cbn [param_encode param_texts param_outside words_asc] in *; try apply u8_nil.
  - destruct (isnil (url_string u)); [apply u8_nil|]. apply u8_cons; [exact HD|apply u8_wrs, O].
  - destruct (isnil t); [apply u8_nil|]. apply u8_cons; [exact HD|]. inversion T; subst. destruct quoted; [apply u8_quoted|apply u8_wtext]; assumption.
  - destruct l as [|s l]; [apply u8_nil|]. apply Forall_cons_iff in T as [T1 T2]. apply u8_cons; [exact HD|]. apply u8_app; [apply u8_quoted, T1|]. apply u8_flat. intros a I. apply u8_cons; [apply asc_utf8; reflexivity|]. apply u8_quoted. rewrite Forall_forall in T2. auto.
  - destruct l as [|u l]; [apply u8_nil|]. cbn [map] in O. apply Forall_cons_iff in O as [O1 O2]. rewrite Forall_map in O2. apply u8_cons; [exact HD|]. apply u8_app; [apply u8_wrs; constructor; [exact O1|constructor]|]. apply u8_flat. intros a I. apply u8_cons; [apply asc_utf8; reflexivity|]. rewrite Forall_forall in O2. apply u8_wrs. constructor; [apply O2, I|constructor].
  - apply u8_cons; [exact HD|]. unfold enum_word. assert (U : u8 (if free then [Wr (bs "UNKNOWN")] else [])) by (destruct free; [apply u8_asc; reflexivity|apply u8_nil]). destruct (enum_base free <=? n); [|exact U]. destruct (nth_error _ _) as [w|] eqn:Q; [|exact U]. apply u8_asc.
    rewrite forallb_forall in W. apply W, (nth_error_In _ _ Q).
  - apply u8_cons; [exact HD|apply u8_asc, W].
  - destruct (isnil t); [apply u8_nil|]. inversion T; subst. apply u8_cons; [exact HD|apply u8_wtext; assumption].
  - destruct b; [|apply u8_nil]. apply u8_cons; [exact HD|apply u8_asc; reflexivity].
Qed.
Lemma param_words q : asc (keyword q) /\ words_asc (pkind_of q) = true.
Proof. destruct q; split; reflexivity. Qed.
Lemma params_out : forall ps l, (forall v, In (Some v) l -> Forall utf8 (param_texts v) /\ Forall utf8 (param_outside v)) -> u8 (params_encode ps l).
Proof.
  induction ps as [|q ps IH]; intros [|[v|] l] O; try apply u8_nil; cbn [params_encode]; [|apply IH; intros v' I; apply O; right; exact I].
  destruct (param_words q) as [K W]. destruct (O v (or_introl eq_refl)) as [T U]. apply u8_app; [apply param_utf8; assumption|]. apply IH. intros v' I. apply O. right. exact I.
Qed.

(** ** Properties *)
Definition mode_asc (m : bytes * propkind) : bool := forallb (fun c => code c <? 128) (fst m) && match snd m with MStruct _ vs => forallb (fun t => forallb (fun c => code c <? 128) (fst t)) vs | MEnum ws => forallb (forallb (fun c => code c <? 128)) ws | _ => true end.
Lemma prop_words pid : mode_asc (prop_spec pid) = true.
Proof. destruct pid; reflexivity. Qed.
Lemma values_out : forall vs first l, forallb (fun t => forallb (fun c => code c <? 128) (fst t)) vs = true ->
  (forall v, In (Some v) l -> value_ok v /\ Forall utf8 (value_outside v)) -> u8 (values_encode first vs l).
Proof.
  induction vs as [|[w k] vs IH]; intros first [|o l] T O; try apply u8_nil. cbn [forallb fst] in T. apply andb_true_iff in T as [T1 T2].
  cbn [values_encode]. apply u8_app; [|apply IH; [exact T2|intros v I; apply O; right; exact I]]. destruct o as [v|]; [|apply u8_nil]. destruct (O v (or_introl eq_refl)) as [V U].
  apply u8_app; [|apply u8_wrs, avalue_utf8; assumption]. destruct first; [apply u8_nil|]. apply u8_asc, asc_app; [reflexivity|exact T1].
Qed.
Lemma prop_out pid p : prop_ok pid p -> (forall v, prop_value p v -> Forall utf8 (value_outside v)) ->
  (forall v, prop_param p v -> Forall utf8 (param_texts v) /\ Forall utf8 (param_outside v)) -> u8 (prop_encode pid p).
Proof.
  unfold prop_ok, prop_encode. pose proof (prop_words pid) as T. unfold mode_asc in T. destruct (prop_spec pid) as [key k]. cbn [fst snd] in *. apply andb_true_iff in T as [TK T].
  destruct k as [ps vs|ws|k], p as [l vl|n|v]; cbn [prop_value prop_param]; intros OK OV OP; try apply u8_nil.
  - apply u8_cons; [apply asc_utf8, TK|]. apply u8_app; [apply params_out, OP|]. apply u8_app; [|apply u8_asc; reflexivity]. apply values_out; [exact T|]. intros v I. split; [apply OK, I|apply OV, I].
  - apply (u8_app [_]); [apply u8_asc, asc_app; [exact TK|reflexivity]|]. apply u8_app; [|apply u8_asc; reflexivity].
    destruct (in_range 0 _ n); [|apply u8_nil]. apply u8_asc. destruct (Nat.lt_ge_cases (Z.to_nat n) (length ws)) as [L|L]; [|rewrite nth_overflow by exact L; reflexivity].
    rewrite forallb_forall in T. apply T, nth_In, L.
  - apply u8_cons; [apply asc_utf8, TK|]. apply u8_app; [|apply u8_asc; reflexivity]. apply u8_wrs, avalue_utf8; [exact OK|apply OV; reflexivity].
Qed.

(** ** Components *)
Lemma sec_names id : asc (begin_line (sp_name (sec_spec id))) /\ asc (end_line (sp_name (sec_spec id))).
Proof. destruct id; split; reflexivity. Qed.
Lemma alarm_names id : asc (bs "ACTION:" ++ alarm_word id ++ CRLF).
Proof. destruct id; reflexivity. Qed.
End U.
