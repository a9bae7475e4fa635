(** Parameters: RFC 6868 texts, enumerations, round trips. *)
From Coq Require Import String Ascii ZArith Bool List Lia.
From Verif Require Import Base Lib Utf8 Utf8Proofs GoStrings Strtok Tokeniser SpecContent TokeniserProofs TextProofs GoTime Types Params ParamTable SpecParams.
Import ListNotations.
Local Open Scope Z_scope.

(** ** encode6868 *)
Definition plain68 (c : byte) : bool := negb (inset c ([LF] ++ bs "^" ++ [DQ])).
Lemma plain68_special c : plain68 c = true <-> ~ special68 c.
Proof.
  unfold plain68. rewrite negb_true_iff, inset_nIn. unfold special68. cbn. split; intros H; intuition.
Qed.
Lemma encode_plain s f d : forallb plain68 s = true -> encode6868_loop (S f) d (Tok [] s) = Some (d ++ s).
Proof.
  intros H. cbn [encode6868_loop]. unfold except_run. cbn [trest tbuf]. change (fun c => negb (inset c ([LF] ++ bs "^" ++ [DQ]))) with plain68.
  rewrite (span_all_nil plain68 s H). unfold peek, get. cbn [trest tbuf app]. reflexivity.
Qed.
Lemma encode_stuck : forall f d a c s, forallb plain68 a = true -> plain68 c = false -> encode6868_loop f d (Tok [] (a ++ c :: s)) = None.
Proof.
  induction f as [|f IH]; intros d a c s A C; [reflexivity|]. cbn [encode6868_loop]. unfold except_run. cbn [trest tbuf].
  change (fun c => negb (inset c ([LF] ++ bs "^" ++ [DQ]))) with plain68.
  rewrite (span_all plain68 a (c :: s) A C). unfold peek, get. cbn [trest tbuf app].
  destruct (beqc c LF); [apply (IH _ [] c s eq_refl C)|]. destruct (beqc c "^"); apply (IH _ [] c s eq_refl C).
Qed.
Lemma special_split s : forallb plain68 s = false -> exists a c b, s = a ++ c :: b /\ forallb plain68 a = true /\ plain68 c = false.
Proof.
  induction s as [|x s IH]; [discriminate|]. cbn [forallb]. intros H. destruct (plain68 x) eqn:P.
  - destruct (IH H) as (a & c & b & -> & A & C). exists (x :: a), c, b. cbn [forallb app]. rewrite P. auto.
  - exists [], x, s. auto.
Qed.
Lemma encode_hangs s : (exists c, In c s /\ special68 c) -> forall fuel d, encode6868_loop fuel d (new_tok s) = None.
Proof.
  intros (c & I & Sp) fuel d. destruct (forallb plain68 s) eqn:P.
  - rewrite forallb_forall in P. specialize (P c I). apply plain68_special in P. contradiction.
  - apply special_split in P as (a & x & b & -> & A & X). apply encode_stuck; assumption.
Qed.
Lemma encode6868_plain s : (forall c, In c s -> ~ special68 c) -> encode6868 s = Some s.
Proof. intros H. apply (encode_plain s _ []). apply forallb_forall. intros c I. apply plain68_special. auto. Qed.
Lemma encode6868_none s : (exists c, In c s /\ special68 c) -> encode6868 s = None.
Proof. intros H. apply (encode_hangs s H). Qed.
Lemma special_dec s : {exists c, In c s /\ special68 c} + {forall c, In c s -> ~ special68 c}.
Proof.
  destruct (forallb plain68 s) eqn:P.
  - right. intros c I. rewrite forallb_forall in P. apply plain68_special. auto.
  - left. apply special_split in P as (a & x & b & -> & A & X). exists x. split; [apply in_or_app; right; left; reflexivity|].
    unfold plain68 in X. apply negb_false_iff, inset_In in X. cbn in X. unfold special68. intuition.
Qed.

(** ** decode6868 *)
Definition no_caret (c : byte) : bool := negb (inset c (bs "^")).
Lemma no_caret_neq c : no_caret c = true <-> c <> "^"%char.
Proof. unfold no_caret. rewrite negb_true_iff, inset_nIn. cbn. split; intros H; intuition. Qed.
Lemma decode_plain s f d b : forallb no_caret s = true -> decode6868_loop (S f) d (Tok b s) = d ++ b ++ s.
Proof.
  intros H. cbn [decode6868_loop]. unfold except_run. cbn [trest tbuf]. change (fun c => negb (inset c (bs "^"))) with no_caret.
  rewrite (span_all_nil no_caret s H). unfold peek, get. cbn [trest tbuf app]. reflexivity.
Qed.
Lemma decode6868_plain s : ~ In "^"%char s -> decode6868 s = s.
Proof. intros H. apply (decode_plain s _ [] []). apply forallb_forall. intros c I. apply no_caret_neq. intros ->. contradiction. Qed.

Lemma decode_caret f d b s : decode6868_loop (S f) d (Tok b ("^"%char :: s)) =
  let '(x, t) := next (Tok ["^"%char] s) in
  match x with
  | None => (d ++ b) ++ bs "^"
  | Some r => if r =? 110 then decode6868_loop f ((d ++ b) ++ [LF]) t
        else if r =? 39 then decode6868_loop f ((d ++ b) ++ [DQ]) t
        else if r =? 94 then decode6868_loop f ((d ++ b) ++ bs "^") t
        else decode6868_loop f ((d ++ b) ++ bs "^" ++ encode_rune 94) t
  end.
Proof.
  cbn [decode6868_loop]. unfold except_run. cbn [trest tbuf span]. change (negb (inset "^"%char (bs "^"))) with false. cbn iota.
  unfold peek, get. cbn [trest tbuf app]. rewrite app_nil_r. unfold accept. cbn [trest tbuf]. change (inset "^"%char (bs "^")) with true. cbn iota. cbn [app]. reflexivity.
Qed.
Lemma decode_step f d b c s : c <> "^"%char -> decode6868_loop (S f) d (Tok b (c :: s)) = decode6868_loop (S f) d (Tok (b ++ [c]) s).
Proof.
  intros N. apply no_caret_neq in N. cbn [decode6868_loop]. unfold except_run. cbn [trest tbuf span]. change (fun c => negb (inset c (bs "^"))) with no_caret.
  change (negb (inset c (bs "^"))) with (no_caret c). rewrite N. destruct (span no_caret s) as [a r]. rewrite <- app_assoc. reflexivity.
Qed.
Lemma decode_reads : forall n s, (length s <= n)%nat -> exists t, code_reads s t /\ forall f d b, (length s < f)%nat -> decode6868_loop f d (Tok b s) = d ++ b ++ t.
Proof.
  induction n as [|n IH]; intros s L.
  - destruct s; [|cbn [length] in L; lia]. exists []. split; [constructor|]. intros [|f] d b F; [lia|]. apply decode_plain. reflexivity.
  - destruct s as [|c s]; [exists []; split; [constructor|]; intros [|f] d b F; [lia|]; apply decode_plain; reflexivity|].
    cbn [length] in L. destruct (ascii_dec c "^"%char) as [->|N].
    2:{ destruct (IH s ltac:(lia)) as (t & R & E). exists (c :: t). split; [constructor; assumption|]. intros f d b F. cbn [length] in F.
        destruct f as [|f]; [lia|]. rewrite decode_step by exact N. rewrite E by lia. rewrite <- app_assoc. reflexivity. }
    destruct s as [|c s].
    { exists ["^"%char]. split; [apply K_lone|]. intros [|f] d b F; [lia|]. rewrite decode_caret. cbn. rewrite <- app_assoc. reflexivity. }
    cbn [length] in L.
    assert (ASC : forall (c : byte) x, code c < 128 -> (forall f d b, decode6868_loop (S f) d (Tok b ("^"%char :: c :: s)) = decode6868_loop f ((d ++ b) ++ [x]) (Tok ["^"%char; c] s)) ->
       forall t, (forall f d b, (length s < f)%nat -> decode6868_loop f d (Tok b s) = d ++ b ++ t) ->
       forall f d b, (length ("^"%char :: c :: s) < f)%nat -> decode6868_loop f d (Tok b ("^"%char :: c :: s)) = d ++ b ++ x :: ["^"%char; c] ++ t).
    { clear. intros c x A ST t E f d b F. cbn [length] in F. destruct f as [|f]; [lia|]. rewrite ST. rewrite E by lia. rewrite <- !app_assoc. reflexivity. }
    destruct (IH s ltac:(lia)) as (t & R & E).
    destruct (ascii_dec c "n"%char) as [->|N1].
    { exists (LF :: bs "^n" ++ t). split; [apply K_lf; assumption|]. apply (ASC "n"%char LF); [reflexivity| |exact E]. intros. rewrite decode_caret, next_ascii by reflexivity. reflexivity. }
    destruct (ascii_dec c "^"%char) as [->|N2].
    { exists (bs "^" ++ bs "^^" ++ t). split; [apply K_caret; assumption|]. apply (ASC "^"%char "^"%char); [reflexivity| |exact E]. intros. rewrite decode_caret, next_ascii by reflexivity. reflexivity. }
    destruct (ascii_dec c "'"%char) as [->|N3].
    { exists (DQ :: bs "^'" ++ t). split; [apply K_quote; assumption|]. apply (ASC "'"%char DQ); [reflexivity| |exact E]. intros. rewrite decode_caret, next_ascii by reflexivity. reflexivity. }
    clear t R E. pose proof (decode_rune_width c s) as W. destruct (decode_rune (c :: s)) as [r w] eqn:D. destruct W as [W1 W2].
    assert (RN : r <> 110 /\ r <> 39 /\ r <> 94).
    { destruct (Z_lt_ge_dec (code c) 128) as [A|A].
      - rewrite decode_rune_ascii in D by exact A. assert (r = code c) by congruence. subst r. repeat split; intros Q; [apply N1|apply N3|apply N2]; apply code_inj; exact Q.
      - pose proof (decode_rune_high c s ltac:(lia)) as H. rewrite D in H. destruct H as [H _]. unfold RuneError in *. lia. }
    destruct w as [|w]; [lia|]. cbn [length] in W2.
    set (u := firstn w s). set (s' := skipn w s). assert (Es : s = u ++ s') by (symmetry; apply firstn_skipn).
    assert (Lu : length u = w) by (apply firstn_length_le; lia).
    destruct (IH s' ltac:(unfold s'; rewrite skipn_length; lia)) as (t & R & E).
    exists (bs "^^" ++ "^"%char :: c :: u ++ t). split.
    + rewrite Es. apply K_other; [cbn; intuition|rewrite Lu; lia|exact R].
    + intros f d b F. cbn [length] in F. destruct f as [|f]; [lia|]. rewrite decode_caret. unfold next. cbn [trest tbuf]. rewrite D. cbn iota. cbn [firstn skipn]. fold u s'.
      destruct RN as (R1 & R2 & R3). apply Z.eqb_neq in R1, R2, R3. rewrite R1, R2, R3. rewrite E by (unfold s'; rewrite skipn_length; lia). rewrite <- !app_assoc. reflexivity.
Qed.
Lemma decode6868_reads s : code_reads s (decode6868 s).
Proof. destruct (decode_reads (length s) s (le_n _)) as (t & R & E). unfold decode6868, new_tok. rewrite E by lia. exact R. Qed.

(** The decoded text is never shorter, and longer when there is an escape; what RFC 6868 asks for is
    never longer. *)
Lemma code_longer s t : code_reads s t -> (length s <= length t)%nat /\ (has_escape s -> (length s < length t)%nat).
Proof.
  assert (ESC : forall (c : byte) s, c <> "^"%char -> has_escape (c :: s) -> has_escape s).
  { intros c0 s0 N ([|x a] & y & b & H); cbn [app] in H; [congruence|]. exists a, y, b. congruence. }
  induction 1 as [|c s t N R [IH1 IH2]|s t R [IH1 _]|s t R [IH1 _]|s t R [IH1 _]|c s u t N Lu R [IH1 _]|]; cbn [length app bs list_ascii_of_string]; rewrite ?app_length; try (split; [lia|intros _; lia]).
  - split; [lia|]. intros ([|x a] & y & b & H); discriminate.
  - split; [lia|]. intros H. apply ESC in H; [|exact N]. specialize (IH2 H). lia.
  - split; [lia|]. intros ([|x [|y a]] & z & b & H); discriminate.
Qed.
Lemma rfc_shorter s t : rfc_reads s t -> (length t <= length s)%nat.
Proof. induction 1; cbn [length] in *; lia. Qed.
Lemma escape_never_right s t : has_escape s -> rfc_reads s t -> decode6868 s <> t.
Proof. intros H R <-. apply rfc_shorter in R. pose proof (code_longer _ _ (decode6868_reads s)) as [_ L]. specialize (L H). lia. Qed.

(** ** The reference *)
Lemma rfc_escape_reads t : rfc_reads (rfc_escape t) t.
Proof.
  induction t as [|c t IH]; [constructor|]. cbn [rfc_escape]. destruct (beqc c LF) eqn:A; [apply beqc_eq in A; subst; apply R_lf; exact IH|].
  destruct (beqc c "^") eqn:B; [apply beqc_eq in B; subst; apply R_caret; exact IH|]. destruct (beqc c DQ) eqn:C; [apply beqc_eq in C; subst; apply R_quote; exact IH|].
  apply beqc_neq in B. constructor; [exact B|exact IH].
Qed.

(** ** Tables *)
Fixpoint distinct (l : list bytes) : bool := match l with [] => true | x :: l' => negb (existsb (beq x) l') && distinct l' end.
Lemma distinct_nodup l : distinct l = true -> NoDup l.
Proof.
  induction l as [|x l IH]; cbn [distinct]; intros H; [constructor|]. apply andb_true_iff in H as [H1 H2]. apply negb_true_iff in H1. constructor; [|auto].
  intros I. rewrite existsb_false in H1. specialize (H1 x I). rewrite beq_refl in H1. discriminate.
Qed.
Lemma index_of_some w : forall l n, index_of w l = Some n -> nth_error l n = Some w.
Proof.
  induction l as [|x l IH]; intros n H; [discriminate|]. cbn [index_of] in H. destruct (beq w x) eqn:B.
  - apply beq_eq in B. injection H as <-. cbn. congruence.
  - destruct (index_of w l) as [k|] eqn:K; [|discriminate]. injection H as <-. cbn [nth_error]. apply IH. reflexivity.
Qed.
Lemma index_of_none w l : index_of w l = None <-> ~ In w l.
Proof.
  induction l as [|x l IH]; cbn [index_of In]; [tauto|]. destruct (beq w x) eqn:B.
  - apply beq_eq in B. subst. split; [discriminate|intuition].
  - apply beq_neq in B. destruct (index_of w l); split; try discriminate; intuition congruence.
Qed.
Lemma index_of_nth l : NoDup l -> forall n w, nth_error l n = Some w -> index_of w l = Some n.
Proof.
  induction 1 as [|x l N D IH]; intros n w H; [destruct n; discriminate|]. cbn [index_of]. destruct n as [|n]; cbn [nth_error] in H.
  - injection H as ->. rewrite beq_refl. reflexivity.
  - destruct (beq w x) eqn:B; [apply beq_eq in B; subst; destruct N; eapply nth_error_In; eauto|]. rewrite (IH _ _ H). reflexivity.
Qed.

(** A word in upper case. *)
Definition up_word (w : bytes) : bool := forallb (fun c => (code c <? 128) && beqc (up_ascii c) c && safe_char c) w.
Definition words_ok (ws : list bytes) : bool := distinct ws && forallb up_word ws.

Lemma map_up w : forallb (fun c => beqc (up_ascii c) c) w = true -> map up_ascii w = w.
Proof. induction w as [|c w IH]; cbn [forallb map]; [reflexivity|]. rewrite andb_true_iff. intros [H1 H2]. apply beqc_eq in H1. rewrite H1, IH by exact H2. reflexivity. Qed.
Lemma up_word_facts w : up_word w = true -> forallb (fun c => code c <? 128) w = true /\ map up_ascii w = w /\ forallb safe_char w = true.
Proof.
  unfold up_word. intros H. rewrite forallb_forall in H. repeat split; [| |]; [| |]; try (apply forallb_forall; intros c I; specialize (H c I); rewrite !andb_true_iff in H; tauto).
  apply map_up, forallb_forall. intros c I. specialize (H c I). rewrite !andb_true_iff in H. tauto.
Qed.

Definition name_word (w : bytes) : bool := negb (isnil w) && up_word w && forallb name_char w.

Section P.
Context {env : Env}.

Lemma upper_word w : up_word w = true -> upper w = w.
Proof. intros H. apply up_word_facts in H as (A & B & _). unfold upper, to_upper. rewrite A. exact B. Qed.

(** The same word in letters of any case. *)
Lemma upper_any t w : up_word w = true -> map up_ascii t = w -> upper t = w.
Proof.
  intros U E. unfold upper, to_upper. assert (A : forallb (fun c => code c <? 128) t = true); [|rewrite A; exact E].
  apply up_word_facts in U as (A & _ & _). rewrite <- E in A. rewrite forallb_forall in *. intros c I. specialize (A (up_ascii c) (in_map _ _ _ I)).
  apply Z.ltb_lt in A. apply Z.ltb_lt. revert A. unfold up_ascii. destruct (Utf8.in_range 97 122 (code c)) eqn:R; [|tauto]. unfold Utf8.in_range in R. intros _. lia.
Qed.

Definition kind_table : list pkind := map (fun p => snd (param_spec p)) all_params.
Definition kind_ok (k : pkind) : bool :=
  match k with
  | PKEnum free ws => words_ok ws && (if free then up_word (bs "UNKNOWN") && negb (existsb (beq (bs "UNKNOWN")) ws) else true)
  | PKUnit w => up_word w
  | _ => true
  end.
Lemma params_table : forallb (fun p => name_word (fst (param_spec p)) && kind_ok (snd (param_spec p))) all_params = true.
Proof. vm_compute. reflexivity. Qed.
Lemma all_params_in p : In p all_params.
Proof. destruct p; cbn; tauto. Qed.
Lemma param_table p : name_word (fst (param_spec p)) = true /\ kind_ok (snd (param_spec p)) = true.
Proof. pose proof params_table as T. rewrite forallb_forall in T. specialize (T p (all_params_in p)). apply andb_true_iff in T. exact T. Qed.

(** ** Round trips of parameters *)
Lemma value_quoted s : text_good s -> forallb quoted_char s = true.
Proof.
  intros [V N]. rewrite forallb_forall in *. intros c I. unfold quoted_char. rewrite (V c I). cbn [andb]. specialize (N c I).
  destruct (code c =? 34) eqn:Q; [|reflexivity]. exfalso. apply N. right. right. apply code_inj. apply Z.eqb_eq in Q. rewrite Q. reflexivity.
Qed.
Lemma needquote_char c : quoted_char c = true -> inset c needquote = false -> safe_char c = true.
Proof.
  intros Q N. pose proof (byte_forall (fun c => implb (quoted_char c && negb (inset c needquote)) (safe_char c)) ltac:(vm_compute; reflexivity) c) as T.
  cbv beta in T. rewrite Q, N in T. exact T.
Qed.
Lemma good_no_caret s : text_good s -> decode6868 s = s.
Proof. intros [_ N]. apply decode6868_plain. intros I. apply (N _ I). right. left. reflexivity. Qed.
Lemma write6868_good s : text_good s -> write6868 s = [Wr s].
Proof. intros [_ N]. unfold write6868. rewrite encode6868_plain by exact N. reflexivity. Qed.
Lemma write_quoted_good s : text_good s -> write_quoted s = wrs [[DQ]; s; [DQ]].
Proof. intros G. unfold write_quoted. rewrite write6868_good by exact G. reflexivity. Qed.
Lemma write_text_good s : text_good s -> exists v ws, write_text s = wrs ws /\ concat ws = pvalue_render v /\ pvalue_wf v = true /\ pvalue_text v = s.
Proof.
  intros G. unfold write_text. destruct (contains_any s needquote) eqn:Q.
  - exists (Quoted s), [[DQ]; s; [DQ]]. rewrite write_quoted_good by exact G. cbn. repeat split. apply (value_quoted _ G).
  - exists (Plain s), [s]. rewrite write6868_good by exact G. cbn. rewrite app_nil_r. repeat split.
    pose proof (value_quoted _ G) as V. rewrite forallb_forall in *. intros c I. apply needquote_char; [auto|]. rewrite contains_any_false in Q. apply inset_nIn. auto.
Qed.

Lemma token_data v : t_data (pvalue_token v) = pvalue_text v.
Proof. destruct v; reflexivity. Qed.

(** What is written for a good value of a parameter, as a parameter of a line. *)
Definition param_writes (key : bytes) (k : pkind) (v : pval) (p : cparam) : Prop :=
  (exists ws, param_encode key k v = wrs ws /\ concat ws = cparam_render p) /\ cparam_wf p = true /\ cp_name p = key /\
  param_decode k (map pvalue_token (cp_first p :: cp_more p)) = Ok v.

Lemma wrs_app a b : wrs (a ++ b) = wrs a ++ wrs b.
Proof. apply map_app. Qed.
Lemma texts_writes l : Forall text_good l ->
  exists ws, flat_map (fun s => Wr (bs ",") :: write_quoted s) l = wrs ws /\ concat ws = more_render (map Quoted l) /\ forallb pvalue_wf (map Quoted l) = true /\
   mapM (fun t => let! d := quoted_data t in Ok (decode6868 d)) (map pvalue_token (map Quoted l)) = Ok l.
Proof.
  induction 1 as [|s l G _ (ws & E & C & W & D)].
  - exists []. repeat split.
  - exists ([bs ","; [DQ]; s; [DQ]] ++ ws). cbn [flat_map map]. rewrite E, write_quoted_good by exact G. split; [reflexivity|]. split.
    + rewrite concat_app, C. unfold more_render at 2. cbn [map concat pvalue_render]. rewrite !app_nil_r, <- !app_assoc. reflexivity.
    + cbn [forallb pvalue_wf]. rewrite W, (value_quoted _ G). split; [reflexivity|]. cbn [mapM pvalue_token quoted_data t_type t_data ttype_eqb bind]. rewrite (good_no_caret _ G). cbn [bind]. rewrite D. reflexivity.
Qed.
Lemma word_param key w : forallb name_char key = true -> up_word w = true -> cparam_wf (CParam key (Plain w) []) = true.
Proof. intros K W. unfold cparam_wf. cbn [cp_name cp_first cp_more pvalue_wf forallb]. rewrite K. apply up_word_facts in W as (_ & _ & ->). reflexivity. Qed.
Lemma render_one key v : cparam_render (CParam key v []) = (bs ";" ++ key ++ bs "=") ++ pvalue_render v.
Proof. unfold cparam_render, more_render. cbn [cp_name cp_first cp_more map concat]. rewrite !app_nil_r, <- !app_assoc. reflexivity. Qed.

Lemma param_rt key k v : forallb name_char key = true -> kind_ok k = true -> param_good k v -> exists p, param_writes key k v p.
Proof.
  intros K T G. unfold param_writes.
  assert (ONE : forall w r, up_word w = true -> param_encode key k v = Wr (bs ";" ++ key ++ bs "=") :: wrs [w] -> param_decode k [Token tokenParamValue w] = Ok r -> r = v ->
     exists p, (exists ws, param_encode key k v = wrs ws /\ concat ws = cparam_render p) /\ cparam_wf p = true /\ cp_name p = key /\ param_decode k (map pvalue_token (cp_first p :: cp_more p)) = Ok v).
  { intros w r U E D ->. exists (CParam key (Plain w) []). split; [exists [bs ";" ++ key ++ bs "="; w]; split; [exact E|]|].
    - rewrite render_one. cbn [concat pvalue_render]. rewrite app_nil_r. reflexivity.
    - split; [apply word_param; assumption|]. split; [reflexivity|exact D]. }
  destruct k as [|q| | |free ws|w| |]; cbn [param_good] in G; try contradiction; destruct v as [u|s|l|l|n| |b]; try contradiction; try (destruct free; contradiction).
  - (* a text *) destruct G as [NE G]. destruct q.
    + exists (CParam key (Quoted s) []). split; [|split; [|split; [reflexivity|]]].
      * exists [bs ";" ++ key ++ bs "="; [DQ]; s; [DQ]]. cbn [param_encode]. destruct s; [contradiction|]. cbn [isnil]. rewrite write_quoted_good by exact G. split; [reflexivity|].
        rewrite render_one. cbn [concat pvalue_render]. rewrite ?app_nil_r, <- ?app_assoc. reflexivity.
      * unfold cparam_wf. cbn [cp_name cp_first cp_more pvalue_wf forallb]. rewrite K, (value_quoted _ G). reflexivity.
      * cbn [cp_first cp_more map pvalue_token param_decode one_value bind quoted_data t_type t_data ttype_eqb]. rewrite (good_no_caret _ G). reflexivity.
    + destruct (write_text_good s G) as (v & ws & E & C & W & Tx). exists (CParam key v []). split; [|split; [|split; [reflexivity|]]].
      * exists ((bs ";" ++ key ++ bs "=") :: ws). cbn [param_encode]. destruct s; [contradiction|]. cbn [isnil]. rewrite E. split; [reflexivity|]. rewrite render_one. cbn [concat]. rewrite C. reflexivity.
      * unfold cparam_wf. cbn [cp_name cp_first cp_more forallb]. rewrite K, W. reflexivity.
      * cbn [cp_first cp_more map param_decode one_value bind]. rewrite token_data, Tx, (good_no_caret _ G). reflexivity.
  - (* texts *) destruct G as [NE G]. destruct l as [|s l]; [contradiction|]. inversion G as [|? ? Gs Gl]; subst. destruct (texts_writes l Gl) as (ws & E & C & W & D).
    exists (CParam key (Quoted s) (map Quoted l)). split; [|split; [|split; [reflexivity|]]].
    + exists ([bs ";" ++ key ++ bs "="; [DQ]; s; [DQ]] ++ ws). cbn [param_encode]. rewrite E, write_quoted_good by exact Gs. split; [reflexivity|].
      rewrite concat_app, C. unfold cparam_render. cbn [cp_name cp_first cp_more concat pvalue_render]. rewrite ?app_nil_r, <- ?app_assoc. reflexivity.
    + unfold cparam_wf. cbn [cp_name cp_first cp_more pvalue_wf]. rewrite K, (value_quoted _ Gs), W. reflexivity.
    + cbn [cp_first cp_more param_decode]. change (map pvalue_token (Quoted s :: map Quoted l)) with (pvalue_token (Quoted s) :: map pvalue_token (map Quoted l)). cbn [mapM]. rewrite D. cbn [pvalue_token quoted_data t_type t_data ttype_eqb bind]. rewrite (good_no_caret _ Gs). reflexivity.
  - (* enumeration *) cbn [kind_ok] in T. apply andb_true_iff in T as [T1 T2]. unfold words_ok in T1. apply andb_true_iff in T1 as [Ds Us]. apply distinct_nodup in Ds. rewrite forallb_forall in Us.
    assert (NAMED : forall i, enum_base free <= n -> i = Z.to_nat (n - enum_base free) -> (i < length ws)%nat -> exists p, (exists ws0, param_encode key (PKEnum free ws) (PVEnum n) = wrs ws0 /\ concat ws0 = cparam_render p) /\ cparam_wf p = true /\ cp_name p = key /\ param_decode (PKEnum free ws) (map pvalue_token (cp_first p :: cp_more p)) = Ok (PVEnum n)).
    { intros i Lo Ei Li. destruct (nth_error ws i) as [w|] eqn:N; [|apply nth_error_None in N; lia]. pose proof (Us w (nth_error_In _ _ N)) as U.
      eapply (ONE w); [exact U| | |].
      - cbn [param_encode]. unfold enum_word. apply Z.leb_le in Lo. rewrite Lo, <- Ei, N. reflexivity.
      - cbn [param_decode one_value bind t_data]. rewrite (upper_word w U), (index_of_nth _ Ds _ _ N). reflexivity.
      - f_equal. lia. }
    destruct free; cbn [enum_base] in NAMED.
    + destruct (Z.eq_dec n 0) as [->|N0]; [|apply (NAMED (Z.to_nat (n - 1))); lia].
      apply andb_true_iff in T2 as [U NI]. apply negb_true_iff in NI. rewrite existsb_false in NI.
      eapply (ONE (bs "UNKNOWN")); [exact U|reflexivity| |reflexivity]. cbn [param_decode one_value bind t_data]. rewrite (upper_word _ U).
      rewrite (proj2 (index_of_none _ _)); [reflexivity|]. intros I. specialize (NI _ I). rewrite beq_refl in NI. discriminate.
    + apply (NAMED (Z.to_nat (n - 0))); lia.
  - (* unit *) cbn [kind_ok] in T. eapply (ONE w); [exact T|reflexivity| |reflexivity]. cbn [param_decode one_value bind t_data]. rewrite (upper_word w T), beq_refl. reflexivity.
  - (* pattern *) destruct G as [R G]. destruct (write_text_good s G) as (v & ws & E & C & W & Tx). exists (CParam key v []). split; [|split; [|split; [reflexivity|]]].
    + exists ((bs ";" ++ key ++ bs "=") :: ws). cbn [param_encode]. destruct s; [discriminate R|]. cbn [isnil]. rewrite E. split; [reflexivity|]. rewrite render_one. cbn [concat]. rewrite C. reflexivity.
    + unfold cparam_wf. cbn [cp_name cp_first cp_more forallb]. rewrite K, W. reflexivity.
    + cbn [cp_first cp_more map param_decode one_value bind]. rewrite token_data, Tx, R. reflexivity.
  - (* boolean *) subst b. eapply (ONE (bs "TRUE")); [reflexivity|reflexivity|reflexivity|reflexivity].
Qed.

(** ** Enumerations (C36) *)
Lemma enum_param_spec pm free ws : snd (param_spec pm) = PKEnum free ws ->
  (forall n w t q, nth_error ws n = Some w -> map up_ascii t = w -> param_decode (PKEnum free ws) [Token q t] = Ok (PVEnum (Z.of_nat n + enum_base free))) /\
  (forall ts v, param_decode (PKEnum free ws) ts = Ok v -> exists q t, ts = [Token q t] /\
     ((exists n w, nth_error ws n = Some w /\ upper t = w /\ v = PVEnum (Z.of_nat n + enum_base free)) \/ (free = true /\ v = PVEnum 0 /\ ~ In (upper t) ws))).
Proof.
  intros E. destruct (param_table pm) as [_ T]. rewrite E in T. cbn [kind_ok] in T. apply andb_true_iff in T as [T _]. unfold words_ok in T. apply andb_true_iff in T as [Ds Us].
  apply distinct_nodup in Ds. rewrite forallb_forall in Us. split.
  - intros n w t q N M. cbn [param_decode one_value bind t_data]. rewrite (upper_any t w (Us w (nth_error_In _ _ N)) M), (index_of_nth _ Ds _ _ N). reflexivity.
  - intros [|[q t] [|]] v H; try discriminate. exists q, t. split; [reflexivity|]. cbn [param_decode one_value bind t_data] in H. destruct (index_of (upper t) ws) as [n|] eqn:I.
    + left. apply Ok_inj in H. exists n, (upper t). apply index_of_some in I. auto.
    + destruct free; [|discriminate]. right. apply Ok_inj in H. apply index_of_none in I. auto.
Qed.
End P.
