(** The errors of the tokeniser. *)
From Coq Require Import String Ascii ZArith Bool List Lia.
From Verif Require Import Base Lib Strtok Tokeniser SpecContent TokeniserProofs SpecBadLine.
Import ListNotations.

Lemma stops_span class but v r : forallb class v = true -> stops class but r -> span class (v ++ r) = (v, r).
Proof. intros W []; [apply span_all; [exact W|exact Logic.I]|apply span_all; [exact W|assumption]]. Qed.

Lemma follow_none tk b r : stops (fun _ => false) (bs ",;:") r \/ stops safe_char (bs ",;:") r ->
  exists t, afterParamValue tk (Tok b r) = (Token TokenError [], SError ErrInvalidContentLineParamValue, t).
Proof.
  assert (H : forall c r, ~ In c (bs ",;:") -> exists t, afterParamValue tk (Tok b (c :: r)) = (Token TokenError [], SError ErrInvalidContentLineParamValue, t)).
  { intros c r' N. unfold afterParamValue. cbn [peek trest]. cbn [bs list_ascii_of_string In] in N.
    destruct (beqc c ",") eqn:E1; [apply beqc_eq in E1; subst; destruct N; auto|]. destruct (beqc c ";") eqn:E2; [apply beqc_eq in E2; subst; destruct N; auto|].
    destruct (beqc c ":") eqn:E3; [apply beqc_eq in E3; subst; destruct N; auto|]. eexists. reflexivity. }
  intros [S0|S0]; destruct S0 as [|c r' _ N]; [eexists; reflexivity|auto|eexists; reflexivity|auto].
Qed.

(** ** A bad value *)
Lemma bad_value_complete b c s e : inset c (bs "=,") = true -> bad_value s e ->
  exists t, parseParamValue (Tok b (c :: s)) = (Token TokenError [], SError e, t).
Proof.
  intros C B. rewrite (parseParamValue_spec b c s C). destruct B as [v r W ST|v r W ST|v r W ST ND].
  - rewrite beqc_refl, (stops_span _ _ _ _ W ST). destruct ST as [|q r' N ND]; [eexists; reflexivity|].
    destruct (beqc q DQ) eqn:Q; [apply beqc_eq in Q; subst; destruct ND; left; reflexivity|]. eexists. reflexivity.
  - rewrite beqc_refl. rewrite (span_all quoted_char v (DQ :: r) W) by reflexivity. rewrite beqc_refl. apply follow_none. left. exact ST.
  - destruct (v ++ r) as [|q s'] eqn:Q.
    + destruct v; [|discriminate]. destruct r; [|discriminate]. apply follow_none. right. exact ST.
    + destruct (beqc q DQ) eqn:D; [apply beqc_eq in D; subst; destruct (ND _ eq_refl)|]. rewrite <- Q, (stops_span _ _ _ _ W ST). apply follow_none. right. exact ST.
Qed.

Lemma not_follow c : inset c (bs ",;:") = false -> ~ In c (bs ",;:").
Proof.
  intros H Q. apply not_true_iff_false in H. apply H. unfold inset. apply existsb_exists. exists c. split; [exact Q|]. apply beqc_refl.
Qed.
Lemma after_bad (s : bytes) : (exists c r, s = c :: r /\ inset c (bs ",;:") = true) \/ (s = [] \/ exists c r, s = c :: r /\ ~ In c (bs ",;:")).
Proof. destruct s as [|c r]; [auto|]. destruct (inset c (bs ",;:")) eqn:Q; [left; eauto|]. right. right. exists c, r. split; [reflexivity|]. apply not_follow, Q. Qed.

Lemma value_cases b c s : inset c (bs "=,") = true ->
  (exists v k r b', s = pvalue_render v ++ k :: r /\ pvalue_wf v = true /\ inset k (bs ",;:") = true /\
     parseParamValue (Tok b (c :: s)) = (pvalue_token v, follow k, Tok b' (k :: r))) \/
  (exists e t, bad_value s e /\ parseParamValue (Tok b (c :: s)) = (Token TokenError [], SError e, t)).
Proof.
  intros C. destruct (value_sound b c s C) as [H|_]; [left; exact H|].
  assert (BAD : forall e, bad_value s e -> exists e t, bad_value s e /\ parseParamValue (Tok b (c :: s)) = (Token TokenError [], SError e, t)).
  { intros e B. destruct (bad_value_complete b c s e C B) as (t & H). eauto. }
  destruct s as [|q s'].
  - right. apply (BAD ErrInvalidContentLineParamValue). apply (BV_plain [] []); [reflexivity|constructor|discriminate].
  - destruct (beqc q DQ) eqn:Q.
    + apply beqc_eq in Q. subst q. pose proof (span_app quoted_char s') as SP. destruct (span quoted_char s') as [v r]. destruct SP as (-> & W & N).
      destruct r as [|q2 r'].
      * right. eapply BAD. apply BV_open; [exact W|constructor].
      * destruct (beqc q2 DQ) eqn:Q2.
        -- apply beqc_eq in Q2. subst q2. destruct (after_bad r') as [(k & r & -> & K)|R].
           ++ left. destruct (value_complete b c (Quoted v) k r C W K) as (b' & H). exists (Quoted v), k, r, b'. cbn [pvalue_render pvalue_wf app] in *. rewrite <- app_assoc in *. auto.
           ++ right. eapply BAD. apply BV_quoted; [exact W|]. destruct R as [->|(k & r & -> & K)]; constructor; [reflexivity|exact K].
        -- right. eapply BAD. apply BV_open; [exact W|]. constructor; [exact N|]. intros [H|[]]. subst. rewrite beqc_refl in Q2. discriminate.
    + pose proof (span_app safe_char (q :: s')) as SP. destruct (span safe_char (q :: s')) as [v r]. destruct SP as (E0 & W & N). rewrite E0 in *.
      destruct (after_bad r) as [(k & r' & -> & K)|R].
      * left. destruct (value_complete b c (Plain v) k r' C W K) as (b' & H). exists (Plain v), k, r', b'. cbn [pvalue_render pvalue_wf] in *. auto.
      * right. eapply BAD. apply BV_plain; [exact W| |].
        -- destruct R as [->|(k & r' & -> & K)]; constructor; [exact N|exact K].
        -- intros r' H. rewrite <- E0 in H. injection H as H _. subst q. rewrite beqc_refl in Q. discriminate.
Qed.

(** ** The rest of a line *)
Lemma bad_rest_head s e : bad_rest s e -> exists k r, s = k :: r /\ inset k (bs ",;:") = true.
Proof. intros []; eexists; eexists; (split; [reflexivity|reflexivity]). Qed.
Lemma pv_type {A} v (x y z w : A) : match t_type (pvalue_token v) with tokenParamName => y | tokenParamValue | tokenParamQuotedValue => x | tokenValue => z | _ => w end = x.
Proof. destruct v; reflexivity. Qed.

Lemma bad_rest_complete s e : bad_rest s e -> forall fuel inval acc b k r, s = k :: r -> (k = ","%char -> inval = true) -> length s < fuel ->
  phrase_rest fuel inval acc (Tkz (follow k) (Tok b s)) = Err e.
Proof.
  induction 1 as [v c r W N NL|p r W ST|p r e W B|r e B|p v r e W Wv B IH|v r e Wv B IH]; intros fuel inval acc b k r0 Q I L; destruct fuel as [|fuel]; try lia; cbn [phrase_rest];
    cbn [bs list_ascii_of_string app] in *; injection Q as <- _; cbn [follow].
  - change (follow ":") with SValue. rewrite next_token_value, parseValue_spec, (span_all value_char v (c :: r) W) by exact N.
    destruct (beqc c CR) eqn:C; [|reflexivity]. apply beqc_eq in C. subst c. destruct r as [|d r]; [reflexivity|]. destruct (beqc d LF) eqn:D; [|reflexivity].
    apply beqc_eq in D. subst d. destruct (NL r). reflexivity.
  - change (follow ";") with SParamName. rewrite next_token_name, parseParamName_spec, (stops_span _ _ _ _ W ST). destruct ST as [|c r N NE]; [reflexivity|].
    destruct (beqc c "=") eqn:C; [apply beqc_eq in C; subst; destruct NE; left; reflexivity|]. reflexivity.
  - change (follow ";") with SParamName. rewrite next_token_name, parseParamName_spec, (span_all name_char p ("="%char :: r) W) by reflexivity. rewrite beqc_refl. cbn [t_type].
    rewrite next_token_pvalue. destruct (bad_value_complete [] "="%char r e eq_refl B) as (t & ->). reflexivity.
  - change (follow ",") with SParamValue. rewrite next_token_pvalue. destruct (bad_value_complete b ","%char r e eq_refl B) as (t & ->). reflexivity.
  - change (follow ";") with SParamName. rewrite next_token_name, parseParamName_spec, (span_all name_char p ("="%char :: _) W) by reflexivity. rewrite beqc_refl. cbn [t_type].
    rewrite next_token_pvalue. destruct (bad_rest_head _ _ B) as (k & r' & -> & K). destruct (value_complete [] "="%char v k r' eq_refl Wv K) as (b' & ->).
    assert (TY : forall X, match t_type (pvalue_token v) with tokenParamValue | tokenParamQuotedValue => X | _ => Err (state_err (Tkz (follow k) (Tok b' (k :: r')))) end = X :> res (phrase * tkz))
      by (intros X; destruct v; reflexivity).
    rewrite TY. apply (IH fuel true _ b' k r' eq_refl); [reflexivity|]. cbn [length] in *. rewrite !app_length in L. cbn [length] in L. rewrite app_length in L. cbn [length] in *. lia.
  - change (follow ",") with SParamValue. rewrite next_token_pvalue. destruct (bad_rest_head _ _ B) as (k & r' & -> & K). destruct (value_complete b ","%char v k r' eq_refl Wv K) as (b' & ->).
    rewrite (I eq_refl). rewrite pv_type. apply (IH fuel true _ b' k r' eq_refl); [reflexivity|]. cbn [length] in *. rewrite !app_length in L. cbn [length] in *. lia.
Qed.

Lemma phrase_rest_bad : forall fuel inval acc st b s e, at_state st s inval -> (length s < fuel)%nat ->
  phrase_rest fuel inval acc (Tkz st (Tok b s)) = Err e -> bad_rest s e.
Proof.
  induction fuel as [|fuel IH]; intros inval acc st b s e A F H; [lia|]. cbn [phrase_rest] in H.
  destruct A as [(-> & s' & ->)|[(-> & s' & ->)|(-> & I & s' & ->)]].
  - rewrite next_token_name, parseParamName_spec in H. pose proof (span_app name_char s') as SP. destruct (span name_char s') as [n r]. destruct SP as (-> & Wn & N).
    destruct r as [|c r]; [cbn in H; assert (e = ErrInvalidContentLineParamName) as -> by congruence; apply (BR_name n []); [exact Wn|constructor]|].
    destruct (beqc c "=") eqn:C.
    + apply beqc_eq in C. subst c. cbn [t_type] in H. rewrite next_token_pvalue in H.
      destruct (value_cases [] "="%char r eq_refl) as [(v & k & r' & b' & -> & Wf & K & Q)|(e0 & t & B & Q)]; rewrite Q in H.
      * assert (TY : forall X, match t_type (pvalue_token v) with tokenParamValue | tokenParamQuotedValue => X | _ => Err (state_err (Tkz (follow k) (Tok b' (k :: r')))) end = X :> res (phrase * tkz))
          by (intros X; destruct v; reflexivity).
        rewrite TY in H. apply (BR_param n v (k :: r') e Wn Wf). eapply IH; [apply follow_at, K| |exact H].
        cbn [length] in F. rewrite app_length in F. cbn [length] in F. rewrite app_length in F. cbn [length] in *. lia.
      * cbn in H. assert (e = e0) as -> by congruence. apply (BR_first n r e0 Wn B).
    + cbn in H. assert (e = ErrInvalidContentLineParamName) as -> by congruence. apply (BR_name n (c :: r)); [exact Wn|]. constructor; [exact N|].
      intros [Q|[]]. subst c. rewrite beqc_refl in C. discriminate.
  - rewrite next_token_value, parseValue_spec in H. pose proof (span_app value_char s') as SP. destruct (span value_char s') as [v r]. destruct SP as (-> & Wv & N).
    destruct r as [|c r]; [discriminate|].
    assert (NL : (forall r', c :: r <> CRLF ++ r') -> e = ErrInvalidContentLineValue -> bad_rest (":"%char :: v ++ c :: r) e).
    { intros Q ->. exact (BR_value v c r Wv N Q). }
    destruct (beqc c CR) eqn:C; [apply beqc_eq in C; subst c|].
    + destruct r as [|d r]; [cbn in H; apply NL; [discriminate|congruence]|]. destruct (beqc d LF) eqn:D; [discriminate|].
      cbn in H. apply NL; [|congruence]. intros r' Q. injection Q as -> _. rewrite beqc_refl in D. discriminate.
    + cbn in H. apply NL; [|congruence]. intros r' Q. injection Q as -> _. rewrite beqc_refl in C. discriminate.
  - rewrite next_token_pvalue in H. subst inval.
    destruct (value_cases b ","%char s' eq_refl) as [(v & k & r' & b' & -> & Wf & K & Q)|(e0 & t & B & Q)]; rewrite Q in H.
    + rewrite pv_type in H. apply (BR_more v (k :: r') e Wf). eapply IH; [apply follow_at, K| |exact H]. cbn [length] in *. rewrite app_length in F. cbn [length] in *. lia.
    + cbn in H. assert (e = e0) as -> by congruence. apply (BR_next s' e0 B).
Qed.

(** ** Lines *)
Theorem get_phrase_bad s e : get_phrase (Tkz SName (Tok [] s)) = Err e <-> bad_line s e.
Proof.
  unfold get_phrase, get_phrase_fuel, next_token. cbn [z_state z_tok trest]. rewrite parseName_spec. split.
  - pose proof (span_app name_char s) as SP. destruct (span name_char s) as [n r]. destruct SP as (-> & Wn & N). intros H.
    destruct n as [|n0 n]; [destruct r as [|c r]; cbn in H; [discriminate|assert (e = ErrInvalidContentLine) as -> by congruence; constructor; exact N]|].
    destruct r as [|c r]; [cbn in H; assert (e = ErrInvalidContentLineName) as -> by congruence; apply (BL_name (n0 :: n) []); [discriminate|exact Wn|constructor]|].
    assert (F : (length (c :: r) < S (S (length ((n0 :: n) ++ c :: r))))%nat) by (rewrite app_length; cbn [length]; lia).
    destruct (beqc c ";") eqn:E1; [|destruct (beqc c ":") eqn:E2].
    + cbn [t_type] in H. apply beqc_eq in E1. subst c. apply BL_rest; [discriminate|exact Wn|discriminate|]. eapply phrase_rest_bad; [|exact F|exact H]. left. eauto.
    + cbn [t_type] in H. apply beqc_eq in E2. subst c. apply BL_rest; [discriminate|exact Wn|discriminate|]. eapply phrase_rest_bad; [|exact F|exact H]. right. left. eauto.
    + cbn in H. assert (e = ErrInvalidContentLineName) as -> by congruence. apply BL_name; [discriminate|exact Wn|]. constructor; [exact N|].
      intros [Q|[Q|[]]]; subst c; [rewrite beqc_refl in E1|rewrite beqc_refl in E2]; discriminate.
  - intros [c r N|n r NE W ST|n r e0 NE W NC B].
    + pose proof (span_all name_char [] (c :: r) eq_refl N) as Q. cbn [app] in Q. rewrite Q. reflexivity.
    + rewrite (stops_span _ _ _ _ W ST). destruct n as [|n0 n]; [contradiction|]. destruct ST as [|c r N NS]; [reflexivity|].
      destruct (beqc c ";") eqn:E1; [apply beqc_eq in E1; subst; destruct NS; left; reflexivity|]. destruct (beqc c ":") eqn:E2; [apply beqc_eq in E2; subst; destruct NS; right; left; reflexivity|]. reflexivity.
    + destruct (bad_rest_head _ _ B) as (k & r' & Q & K).
      assert (KK : k = ";"%char \/ k = ":"%char).
      { unfold inset in K. cbn [bs list_ascii_of_string existsb] in K. destruct (beqc k ",") eqn:E0; [apply beqc_eq in E0; subst; destruct (NC r'); reflexivity|].
        destruct (beqc k ";") eqn:E1; [apply beqc_eq in E1; auto|]. destruct (beqc k ":") eqn:E2; [apply beqc_eq in E2; auto|discriminate]. }
      assert (NK : name_char k = false) by (destruct KK; subst k; reflexivity).
      rewrite Q at 1. rewrite (span_all name_char n (k :: r') W) by exact NK. destruct n as [|n0 n]; [contradiction|].
      assert (F : (length r < S (S (length ((n0 :: n) ++ r))))%nat) by (rewrite app_length; lia).
      destruct KK; subst k.
      * change (beqc ";" ";") with true. cbn [t_type]. rewrite <- Q. apply (bad_rest_complete r e0 B _ false _ [] ";"%char r' Q); [discriminate|exact F].
      * change (beqc ":" ";") with false. change (beqc ":" ":") with true. cbn [t_type]. rewrite <- Q. apply (bad_rest_complete r e0 B _ false _ [] ":"%char r' Q); [discriminate|exact F].
Qed.
