(** The tokeniser reads exactly the content lines of SpecContent.v. *)
From Coq Require Import String Ascii ZArith Bool List Lia.
From Verif Require Import Base Lib Strtok Tokeniser SpecContent.
Import ListNotations.

(** ** Character sets *)

Lemma byte_eq (p q : byte -> bool) : forallb (fun c => Bool.eqb (p c) (q c)) all_bytes = true -> forall c, p c = q c.
Proof. intros H c. apply eqb_prop. exact (byte_forall (fun c => Bool.eqb (p c) (q c)) H c). Qed.

Lemma iana_char c : inset c ianaToken = name_char c.
Proof. revert c. apply byte_eq. vm_compute. reflexivity. Qed.
Lemma nonsafe32_char c : negb (inset c nonsafe32) = value_char c.
Proof. revert c. apply byte_eq. vm_compute. reflexivity. Qed.
Lemma nonsafe33_char c : negb (inset c nonsafe33) = quoted_char c.
Proof. revert c. apply byte_eq. vm_compute. reflexivity. Qed.
Lemma nonsafe_char c : negb (inset c nonsafeChars) = safe_char c.
Proof. revert c. apply byte_eq. vm_compute. reflexivity. Qed.

Lemma span_ext p q l : (forall c, p c = q c) -> span p l = span q l.
Proof. intros H. induction l as [|c l IH]; [reflexivity|]. cbn [span]. rewrite H, IH. reflexivity. Qed.

(** Longest prefix in a class: the three ways it can end up. *)
Definition pk (s : bytes) : option byte := match s with [] => None | c :: _ => Some c end.

Lemma accept_run_spec set p b s : (forall c, inset c set = p c) ->
  accept_run set (Tok b s) = (pk (snd (span p s)), Tok (b ++ fst (span p s)) (snd (span p s))).
Proof.
  intros H. unfold accept_run. cbn [trest tbuf]. rewrite (span_ext _ p) by exact H.
  destruct (span p s). reflexivity.
Qed.
Lemma except_run_spec set p b s : (forall c, negb (inset c set) = p c) ->
  except_run set (Tok b s) = (pk (snd (span p s)), Tok (b ++ fst (span p s)) (snd (span p s))).
Proof.
  intros H. unfold except_run. cbn [trest tbuf]. rewrite (span_ext _ p) by exact H.
  destruct (span p s). reflexivity.
Qed.

Lemma accept_hit set c b s : inset c set = true -> accept set (Tok b (c :: s)) = (true, Tok (b ++ [c]) s).
Proof. intros H. unfold accept. cbn [trest tbuf]. rewrite H. reflexivity. Qed.
Lemma accept_miss set c b s : inset c set = false -> accept set (Tok b (c :: s)) = (false, Tok b (c :: s)).
Proof. intros H. unfold accept. cbn [trest tbuf]. rewrite H. reflexivity. Qed.
Lemma accept_nil set b : accept set (Tok b []) = (false, Tok b []).
Proof. reflexivity. Qed.

(** ** The state functions *)

Lemma parseName_spec s : parseName (Tok [] s) =
  let '(n, r) := span name_char s in
  match n, r with
  | [], [] => (Token TokenDone [], SDone, Tok [] r)
  | [], _ => (Token TokenError [], SError ErrInvalidContentLine, Tok [] r)
  | _, c :: _ => if beqc c ";" then (Token tokenName n, SParamName, Tok [] r)
                 else if beqc c ":" then (Token tokenName n, SValue, Tok [] r)
                 else (Token TokenError [], SError ErrInvalidContentLineName, Tok [] r)
  | _, [] => (Token TokenError [], SError ErrInvalidContentLineName, Tok [] r)
  end.
Proof.
  unfold parseName. rewrite (accept_run_spec _ _ _ _ iana_char). cbv zeta.
  destruct (span name_char s) as [n r]. cbn [fst snd get tbuf trest app].
  destruct n; destruct r; reflexivity.
Qed.

Lemma parseParamName_spec b s : parseParamName (Tok b (";"%char :: s)) =
  let '(n, r) := span name_char s in
  match r with
  | c :: _ => if beqc c "=" then (Token tokenParamName n, SParamValue, Tok [] r)
              else (Token TokenError [], SError ErrInvalidContentLineParamName, Tok n r)
  | [] => (Token TokenError [], SError ErrInvalidContentLineParamName, Tok n r)
  end.
Proof.
  unfold parseParamName. rewrite accept_hit by reflexivity. cbn [get tbuf trest].
  rewrite (accept_run_spec _ _ _ _ iana_char). destruct (span name_char s) as [n r]. cbn [fst snd app].
  destruct r as [|c r]; [reflexivity|]. cbn [pk]. destruct (beqc c "="); reflexivity.
Qed.

(** The value state, after "=" or ",". *)
Lemma parseParamValue_spec b c s : inset c (bs "=,") = true -> parseParamValue (Tok b (c :: s)) =
  match s with
  | q :: s' =>
    if beqc q DQ then
      let '(v, r) := span quoted_char s' in
      match r with
      | q2 :: r' => if beqc q2 DQ then afterParamValue (Token tokenParamQuotedValue v) (Tok [DQ] r')
                    else (Token TokenError [], SError ErrInvalidContentLineQuotedParamValue, Tok v r)
      | [] => (Token TokenError [], SError ErrInvalidContentLineQuotedParamValue, Tok v r)
      end
    else let '(v, r) := span safe_char s in afterParamValue (Token tokenParamValue v) (Tok [] r)
  | [] => afterParamValue (Token tokenParamValue []) (Tok [] [])
  end.
Proof.
  intros H. unfold parseParamValue. rewrite accept_hit by exact H. cbn [get tbuf trest].
  destruct s as [|q s].
  - rewrite accept_nil. rewrite (except_run_spec _ _ _ _ nonsafe_char). reflexivity.
  - destruct (beqc q DQ) eqn:Q.
    + apply beqc_eq in Q. subst. rewrite accept_hit by reflexivity. cbn [get tbuf trest].
      rewrite (except_run_spec _ _ _ _ nonsafe33_char). destruct (span quoted_char s) as [v r]. cbn [fst snd app].
      destruct r as [|q2 r]; [reflexivity|]. cbn [pk]. destruct (beqc q2 DQ) eqn:Q; [|reflexivity].
      apply beqc_eq in Q. subst. cbn [get tbuf trest]. rewrite accept_hit by reflexivity. reflexivity.
    + rewrite accept_miss by (unfold inset; cbn [existsb]; rewrite Q; reflexivity).
      rewrite (except_run_spec _ _ _ _ nonsafe_char). destruct (span safe_char (q :: s)) as [v r]. reflexivity.
Qed.

Lemma parseValue_spec b s : parseValue (Tok b (":"%char :: s)) =
  let '(v, r) := span value_char s in
  match r with
  | [] => (Token tokenValue v, SDone, Tok [] [])
  | c :: r' =>
    if beqc c CR then
      match r' with
      | d :: r'' => if beqc d LF then (Token tokenValue v, SName, Tok [] r'')
                    else (Token TokenError [], SError ErrInvalidContentLineValue, Tok [CR] r')
      | [] => (Token TokenError [], SError ErrInvalidContentLineValue, Tok [CR] r')
      end
    else (Token TokenError [], SError ErrInvalidContentLineValue, Tok v r)
  end.
Proof.
  unfold parseValue. rewrite accept_hit by reflexivity. cbn [get tbuf trest].
  rewrite (except_run_spec _ _ _ _ nonsafe32_char). destruct (span value_char s) as [v r]. cbn [fst snd app].
  destruct r as [|c r]; [reflexivity|]. cbn [pk]. destruct (beqc c CR) eqn:E; [|reflexivity].
  apply beqc_eq in E. subst. cbn [get tbuf trest]. rewrite accept_hit by reflexivity.
  destruct r as [|d r]; [reflexivity|]. destruct (beqc d LF) eqn:E.
  - apply beqc_eq in E. subst. rewrite accept_hit by reflexivity. reflexivity.
  - rewrite accept_miss by (unfold inset; cbn [existsb]; rewrite E; reflexivity). reflexivity.
Qed.

(** ** Lines *)

(** What may follow a parameter value. *)
Definition follow (c : byte) : tstate := if beqc c "," then SParamValue else if beqc c ";" then SParamName else SValue.
Definition follows (s : bytes) : Prop := exists c r, s = c :: r /\ inset c (bs ",;:") = true.

Lemma follow_not_safe c : inset c (bs ",;:") = true -> safe_char c = false /\ beqc c DQ = false.
Proof.
  intros H.
  pose proof (byte_forall (fun c => implb (inset c (bs ",;:")) (negb (safe_char c) && negb (beqc c DQ))) ltac:(vm_compute; reflexivity) c) as B.
  cbv beta in B. rewrite H in B. cbn [implb] in B. apply andb_true_iff in B as [B1 B2]. apply negb_true_iff in B1, B2. auto.
Qed.

Lemma after_spec tk b c r : inset c (bs ",;:") = true ->
  afterParamValue tk (Tok b (c :: r)) = (tk, follow c, Tok b (c :: r)).
Proof.
  intros H. unfold afterParamValue, follow. cbn [peek trest].
  destruct (beqc c ",") eqn:E1; [reflexivity|]. destruct (beqc c ";") eqn:E2; [reflexivity|].
  destruct (beqc c ":") eqn:E3; [reflexivity|]. exfalso.
  unfold inset in H. cbn [bs list_ascii_of_string existsb] in H. rewrite E1, E2, E3 in H. discriminate.
Qed.

(** A well-formed parameter value is read whole. *)
Lemma value_complete b c v k r : inset c (bs "=,") = true -> pvalue_wf v = true -> inset k (bs ",;:") = true ->
  exists b', parseParamValue (Tok b (c :: pvalue_render v ++ k :: r)) = (pvalue_token v, follow k, Tok b' (k :: r)).
Proof.
  intros C W K. destruct (follow_not_safe k K) as [KS KQ]. rewrite parseParamValue_spec by exact C.
  destruct v as [v|v]; cbn [pvalue_render pvalue_wf pvalue_token] in *.
  - cbn [app]. rewrite beqc_refl, <- app_assoc. cbn [app].
    rewrite (span_all quoted_char v (DQ :: k :: r) W) by reflexivity. rewrite beqc_refl.
    exists [DQ]. apply after_spec, K.
  - exists []. rewrite (span_all safe_char v (k :: r) W) by exact KS.
    destruct (v ++ k :: r) as [|q s] eqn:E; [destruct v; discriminate|].
    assert (Q : beqc q DQ = false).
    { destruct v as [|x v]; cbn [app] in E; injection E as <- _; [exact KQ|].
      cbn [forallb] in W. apply andb_true_iff in W as [W _].
      pose proof (byte_forall (fun c => implb (safe_char c) (negb (beqc c DQ))) ltac:(vm_compute; reflexivity) x) as B.
      cbv beta in B. rewrite W in B. cbn [implb] in B. apply negb_true_iff in B. exact B. }
    rewrite Q. apply after_spec, K.
Qed.

Lemma next_token_name s : next_token (Tkz SParamName s) = let '(tk, st, t) := parseParamName s in (tk, Tkz st t).
Proof. reflexivity. Qed.
Lemma next_token_pvalue s : next_token (Tkz SParamValue s) = let '(tk, st, t) := parseParamValue s in (tk, Tkz st t).
Proof. reflexivity. Qed.
Lemma next_token_value s : next_token (Tkz SValue s) = let '(tk, st, t) := parseValue s in (tk, Tkz st t).
Proof. reflexivity. Qed.

(** The end of a line: CR LF and more input, or the end of the input. *)
Lemma value_line_complete b v e z : forallb value_char v = true -> line_end e z ->
  next_token (Tkz SValue (Tok b (":"%char :: v ++ e))) = (Token tokenValue v, z).
Proof.
  intros W L. rewrite next_token_value, parseValue_spec. destruct L as [r|].
  - rewrite (span_all value_char v (CR :: LF :: r) W) by reflexivity. reflexivity.
  - rewrite app_nil_r, (span_all_nil value_char v W). reflexivity.
Qed.

(** What comes after a value: more values, more parameters, the value of the line. *)
Definition tail_render (more : list pvalue) (ps : list cparam) (v : bytes) : bytes :=
  more_render more ++ concat (map cparam_render ps) ++ bs ":" ++ v.

Lemma tail_follows more ps v e : exists k r, tail_render more ps v ++ e = k :: r /\ inset k (bs ",;:") = true /\
  follow k = match more, ps with [], [] => SValue | [], _ => SParamName | _, _ => SParamValue end.
Proof.
  unfold tail_render. destruct more as [|m more]; [destruct ps as [|p ps]|].
  - eexists. eexists. split; [reflexivity|]. split; reflexivity.
  - eexists. eexists. split; [reflexivity|]. split; reflexivity.
  - eexists. eexists. split; [reflexivity|]. split; [reflexivity|]. destruct ps; reflexivity.
Qed.

Lemma more_render_cons m more : more_render (m :: more) = ","%char :: pvalue_render m ++ more_render more.
Proof. reflexivity. Qed.
Lemma cparam_render_eq p : cparam_render p =
  ";"%char :: cp_name p ++ "="%char :: pvalue_render (cp_first p) ++ more_render (cp_more p).
Proof. reflexivity. Qed.

Lemma phrase_rest_complete : forall ps more inval fuel acc b v e z,
  forallb pvalue_wf more = true -> forallb cparam_wf ps = true -> forallb value_char v = true -> line_end e z ->
  (more <> [] -> inval = true) -> (length more + length ps + fold_right (fun p n => length (cp_more p) + n) 0 ps < fuel)%nat ->
  phrase_rest fuel inval acc
    (Tkz (match more, ps with [], [] => SValue | [], _ => SParamName | _, _ => SParamValue end) (Tok b (tail_render more ps v ++ e)))
  = Ok (PhraseLine (acc ++ map pvalue_token more ++ params_tokens ps ++ [Token tokenValue v]), z).
Proof.
  induction ps as [|p ps IHp].
  - induction more as [|m more IHm]; intros inval fuel acc b v e z Wm Wp Wv L I F.
    + destruct fuel as [|fuel]; [lia|]. cbn [phrase_rest]. unfold tail_render. cbn [map concat more_render app].
      change (bs ":" ++ v) with (":"%char :: v). cbn [app].
      rewrite (value_line_complete b v e z Wv L). reflexivity.
    + destruct fuel as [|fuel]; [lia|]. cbn [phrase_rest].
      cbn [forallb] in Wm. apply andb_true_iff in Wm as [W1 W2].
      unfold tail_render. rewrite more_render_cons. cbn [app].
      rewrite <- !app_assoc. change (more_render more ++ (concat (map cparam_render []) ++ bs ":" ++ v) ++ e)
        with (more_render more ++ (concat (map cparam_render []) ++ bs ":" ++ v) ++ e).
      destruct (tail_follows more [] v e) as (k & r & E & K & FK).
      assert (E' : more_render more ++ concat (map cparam_render []) ++ (bs ":" ++ v) ++ e = k :: r).
      { rewrite <- E. unfold tail_render. rewrite <- !app_assoc. reflexivity. }
      rewrite <- ?app_assoc in E'. rewrite E'.
      rewrite next_token_pvalue. destruct (value_complete b ","%char m k r eq_refl W1 K) as (b' & ->).
      assert (TY : forall X, match t_type (pvalue_token m) with
                 | tokenParamName => X | tokenParamValue | tokenParamQuotedValue =>
                   if inval then phrase_rest fuel true (acc ++ [pvalue_token m]) (Tkz (follow k) (Tok b' (k :: r))) else Err (state_err (Tkz (follow k) (Tok b' (k :: r))))
                 | tokenValue => Ok (PhraseLine (acc ++ [pvalue_token m]), Tkz (follow k) (Tok b' (k :: r)))
                 | _ => Err (state_err (Tkz (follow k) (Tok b' (k :: r)))) end
             = phrase_rest fuel true (acc ++ [pvalue_token m]) (Tkz (follow k) (Tok b' (k :: r)))).
      { intros X. rewrite (I ltac:(discriminate)). destruct m; reflexivity. }
      rewrite TY. rewrite FK, <- E.
      replace (match more, @nil cparam with [], [] => SValue | [], _ => SParamName | _, _ => SParamValue end)
        with (match more, @nil cparam with [], [] => SValue | [], _ => SParamName | _, _ => SParamValue end) by reflexivity.
      rewrite (IHm true fuel _ b' v e z W2 Wp Wv L); [|reflexivity|cbn [length fold_right] in *; lia].
      cbn [map]. rewrite <- app_assoc. reflexivity.
  - induction more as [|m more IHm]; intros inval fuel acc b v e z Wm Wp Wv L I F.
    + destruct fuel as [|fuel]; [lia|]. cbn [phrase_rest].
      cbn [forallb] in Wp. apply andb_true_iff in Wp as [Wp1 Wp2]. unfold cparam_wf in Wp1.
      apply andb_true_iff in Wp1 as [Wp1 Wmore]. apply andb_true_iff in Wp1 as [Wn Wf].
      unfold tail_render. cbn [map concat more_render app]. rewrite cparam_render_eq. cbn [app].
      rewrite <- !app_assoc. cbn [app].
      rewrite next_token_name, parseParamName_spec.
      rewrite (span_all name_char (cp_name p)) by (exact Wn || reflexivity). cbn [beqc]. rewrite beqc_refl.
      cbn [t_type].
      destruct (tail_follows (cp_more p) ps v e) as (k & r & E & K & FK).
      rewrite <- !app_assoc.
      assert (E' : more_render (cp_more p) ++ concat (map cparam_render ps) ++ (bs ":" ++ v) ++ e = k :: r).
      { rewrite <- E. unfold tail_render. rewrite <- !app_assoc. reflexivity. }
      rewrite <- ?app_assoc in E'. rewrite E'.
      rewrite next_token_pvalue. destruct (value_complete [] "="%char (cp_first p) k r eq_refl Wf K) as (b' & ->).
      assert (TY : forall X, match t_type (pvalue_token (cp_first p)) with
                 | tokenParamValue | tokenParamQuotedValue => X
                 | _ => Err (state_err (Tkz (follow k) (Tok b' (k :: r)))) end = X :> res (phrase * tkz))
        by (intros X; destruct (cp_first p); reflexivity).
      rewrite TY, FK, <- E.
      rewrite (IHp (cp_more p) true fuel _ b' v e z Wmore Wp2 Wv L); [|reflexivity|cbn [length fold_right] in *; lia].
      unfold params_tokens. cbn [flat_map cparam_tokens map app]. rewrite <- !app_assoc. cbn [app]. reflexivity.
    + destruct fuel as [|fuel]; [lia|]. cbn [phrase_rest].
      cbn [forallb] in Wm. apply andb_true_iff in Wm as [W1 W2].
      unfold tail_render. rewrite more_render_cons. cbn [app].
      destruct (tail_follows more (p :: ps) v e) as (k & r & E & K & FK).
      rewrite <- !app_assoc.
      assert (E' : more_render more ++ concat (map cparam_render (p :: ps)) ++ (bs ":" ++ v) ++ e = k :: r).
      { rewrite <- E. unfold tail_render. rewrite <- !app_assoc. reflexivity. }
      rewrite <- ?app_assoc in E'. rewrite E'.
      rewrite next_token_pvalue. destruct (value_complete b ","%char m k r eq_refl W1 K) as (b' & ->).
      assert (TY : forall X, match t_type (pvalue_token m) with
                 | tokenParamName => X | tokenParamValue | tokenParamQuotedValue =>
                   if inval then phrase_rest fuel true (acc ++ [pvalue_token m]) (Tkz (follow k) (Tok b' (k :: r))) else Err (state_err (Tkz (follow k) (Tok b' (k :: r))))
                 | tokenValue => Ok (PhraseLine (acc ++ [pvalue_token m]), Tkz (follow k) (Tok b' (k :: r)))
                 | _ => Err (state_err (Tkz (follow k) (Tok b' (k :: r)))) end
             = phrase_rest fuel true (acc ++ [pvalue_token m]) (Tkz (follow k) (Tok b' (k :: r)))).
      { intros X. rewrite (I ltac:(discriminate)). destruct m; reflexivity. }
      rewrite TY, FK, <- E.
      rewrite (IHm true fuel _ b' v e z W2 Wp Wv L); [|reflexivity|cbn [length fold_right] in *; lia].
      cbn [map]. rewrite <- app_assoc. reflexivity.
Qed.

Lemma render_bound ps : (length ps + fold_right (fun p n => length (cp_more p) + n) 0 ps <= length (concat (map cparam_render ps)))%nat.
Proof.
  induction ps as [|p ps IH]; [reflexivity|]. cbn [length fold_right map concat].
  rewrite app_length. rewrite cparam_render_eq. cbn [length]. rewrite app_length. cbn [length]. rewrite app_length.
  assert (M : (length (cp_more p) <= length (more_render (cp_more p)))%nat).
  { induction (cp_more p) as [|m more IHm]; [reflexivity|]. rewrite more_render_cons. cbn [length]. rewrite app_length. lia. }
  lia.
Qed.

Theorem get_phrase_complete l e z : cline_wf l = true -> line_end e z ->
  get_phrase (Tkz SName (Tok [] (cline_render l ++ e))) = Ok (PhraseLine (cline_tokens l), z).
Proof.
  intros W L. unfold cline_wf in W. apply andb_true_iff in W as [W Wv]. apply andb_true_iff in W as [W Wp].
  apply andb_true_iff in W as [Wn0 Wn].
  unfold get_phrase, get_phrase_fuel, next_token. cbn [z_state z_tok trest]. rewrite parseName_spec.
  unfold cline_render at 1. rewrite <- app_assoc.
  destruct (tail_follows [] (cl_params l) (cl_value l) e) as (k & r & E & K & FK).
  unfold tail_render in E. cbn [more_render map concat app] in E.
  rewrite E.
  assert (KN : name_char k = false /\ k <> ","%char).
  { unfold inset in K. cbn [bs list_ascii_of_string existsb] in K.
    destruct (cl_params l); cbn in E; injection E as <- _; split; (reflexivity || discriminate). }
  rewrite (span_all name_char (cl_name l)) by (exact Wn || exact (proj1 KN)).
  destruct (cl_name l) as [|n0 n] eqn:EN; [discriminate|]. rewrite <- EN.
  assert (ST : (if beqc k ";" then (Token tokenName (cl_name l), SParamName, Tok [] (k :: r))
                else if beqc k ":" then (Token tokenName (cl_name l), SValue, Tok [] (k :: r))
                else (Token TokenError [], SError ErrInvalidContentLineName, Tok [] (k :: r)))
    = (Token tokenName (cl_name l), match cl_params l with [] => SValue | _ => SParamName end, Tok [] (k :: r))).
  { destruct (cl_params l); cbn in E; injection E as <- _; reflexivity. }
  rewrite ST. cbn [t_type].
  pose proof (phrase_rest_complete (cl_params l) [] false
    (S (S (length (cline_render l ++ e)))) [Token tokenName (cl_name l)] [] (cl_value l) e z eq_refl Wp Wv L) as P.
  unfold tail_render in P. cbn [more_render map concat app] in P. rewrite E in P.
  replace (match @nil pvalue, cl_params l with [], [] => SValue | [], _ => SParamName | _, _ => SParamValue end)
    with (match cl_params l with [] => SValue | _ => SParamName end) in P by (destruct (cl_params l); reflexivity).
  rewrite EN in *. rewrite P.
  - unfold cline_tokens. rewrite EN. reflexivity.
  - intros H. contradiction.
  - pose proof (render_bound (cl_params l)) as B. unfold cline_render. rewrite !app_length. cbn [length]. lia.
Qed.

(** ** Everything read is a content line *)

Lemma after_cases tk b s : (exists c r, s = c :: r /\ inset c (bs ",;:") = true /\
    afterParamValue tk (Tok b s) = (tk, follow c, Tok b s)) \/
  exists st t, afterParamValue tk (Tok b s) = (Token TokenError [], st, t).
Proof.
  destruct s as [|c r]; [right; eexists; eexists; reflexivity|].
  destruct (inset c (bs ",;:")) eqn:E.
  - left. exists c, r. split; [reflexivity|]. split; [exact E|]. apply after_spec, E.
  - right. unfold afterParamValue. cbn [peek trest]. unfold inset in E.
    cbn [bs list_ascii_of_string existsb] in E. apply orb_false_iff in E as [E1 E]. apply orb_false_iff in E as [E2 E].
    apply orb_false_iff in E as [E3 _]. rewrite E1, E2, E3. eexists. eexists. reflexivity.
Qed.

Lemma value_sound b c s : inset c (bs "=,") = true ->
  (exists v k r b', s = pvalue_render v ++ k :: r /\ pvalue_wf v = true /\ inset k (bs ",;:") = true /\
     parseParamValue (Tok b (c :: s)) = (pvalue_token v, follow k, Tok b' (k :: r))) \/
  exists st t, parseParamValue (Tok b (c :: s)) = (Token TokenError [], st, t).
Proof.
  intros C. rewrite (parseParamValue_spec b c s C). destruct s as [|q s'].
  - destruct (after_cases (Token tokenParamValue []) [] []) as [(k & r & E & _)|R]; [discriminate|auto].
  - destruct (beqc q DQ) eqn:Q.
    + apply beqc_eq in Q. subst q. pose proof (span_app quoted_char s') as S.
      destruct (span quoted_char s') as [v r]. destruct S as (-> & W & _).
      destruct r as [|q2 r']; [right; eexists; eexists; reflexivity|].
      destruct (beqc q2 DQ) eqn:Q2; [|right; eexists; eexists; reflexivity]. apply beqc_eq in Q2. subst q2.
      destruct (after_cases (Token tokenParamQuotedValue v) [DQ] r') as [(k & r & -> & K & E)|R]; [|auto].
      left. exists (Quoted v), k, r, [DQ]. cbn [pvalue_render pvalue_wf pvalue_token app].
      rewrite <- app_assoc. auto.
    + pose proof (span_app safe_char (q :: s')) as S. destruct (span safe_char (q :: s')) as [v r].
      destruct S as (E0 & W & _). rewrite E0.
      destruct (after_cases (Token tokenParamValue v) [] r) as [(k & r' & -> & K & E)|R]; [|auto].
      left. exists (Plain v), k, r', []. auto.
Qed.

Definition at_state (st : tstate) (s : bytes) (inval : bool) : Prop :=
  (st = SParamName /\ exists s', s = ";"%char :: s') \/ (st = SValue /\ exists s', s = ":"%char :: s') \/
  (st = SParamValue /\ inval = true /\ exists s', s = ","%char :: s').

Lemma follow_at k r : inset k (bs ",;:") = true -> at_state (follow k) (k :: r) true.
Proof.
  intros H. unfold at_state, follow.
  destruct (beqc k ",") eqn:E1; [apply beqc_eq in E1; subst; eauto 6|].
  destruct (beqc k ";") eqn:E2; [apply beqc_eq in E2; subst; eauto 6|].
  unfold inset in H. cbn [bs list_ascii_of_string existsb] in H. rewrite E1, E2 in H. cbn [orb] in H.
  rewrite orb_false_r in H. apply beqc_eq in H. subst. eauto 6.
Qed.

Lemma phrase_rest_sound : forall fuel inval acc st b s, at_state st s inval -> (length s < fuel)%nat ->
  match phrase_rest fuel inval acc (Tkz st (Tok b s)) with
  | Ok (ph, z) => exists more ps v e, forallb pvalue_wf more = true /\ forallb cparam_wf ps = true /\
      forallb value_char v = true /\ line_end e z /\ s = tail_render more ps v ++ e /\
      (inval = false -> more = []) /\
      ph = PhraseLine (acc ++ map pvalue_token more ++ params_tokens ps ++ [Token tokenValue v])
  | Err _ => True
  | Panic | NoFuel => False
  end.
Proof.
  induction fuel as [|fuel IH]; intros inval acc st b s A F; [lia|]. cbn [phrase_rest].
  destruct A as [(-> & s' & ->)|[(-> & s' & ->)|(-> & I & s' & ->)]].
  - rewrite next_token_name, parseParamName_spec. pose proof (span_app name_char s') as S.
    destruct (span name_char s') as [n r]. destruct S as (-> & Wn & _).
    destruct r as [|c r]; [exact Logic.I|]. destruct (beqc c "=") eqn:C; [|exact Logic.I]. apply beqc_eq in C. subst c.
    cbn [t_type]. rewrite next_token_pvalue.
    destruct (value_sound [] "="%char r eq_refl) as [(v & k & r' & b' & -> & Wf & K & ->)|(st & t & ->)]; [|exact Logic.I].
    assert (TY : forall X, match t_type (pvalue_token v) with
                 | tokenParamValue | tokenParamQuotedValue => X
                 | _ => Err (state_err (Tkz (follow k) (Tok b' (k :: r')))) end = X :> res (phrase * tkz))
        by (intros X; destruct v; reflexivity).
    rewrite TY. clear TY.
    assert (F' : (length (k :: r') < fuel)%nat).
    { cbn [length] in F. rewrite app_length in F. cbn [length] in F. rewrite app_length in F. lia. }
    specialize (IH true (acc ++ [Token tokenParamName n; pvalue_token v]) (follow k) b' (k :: r') (follow_at k r' K) F').
    destruct (phrase_rest _ _ _ _) as [[ph z]|e| |]; try exact IH.
    destruct IH as (more & ps & w & e & W1 & W2 & W3 & L & E & _ & ->).
    exists [], (CParam n v more :: ps), w, e. split; [reflexivity|]. split.
    { cbn [forallb]. unfold cparam_wf at 1. cbn [cp_name cp_first cp_more]. rewrite Wn, Wf, W1, W2. reflexivity. }
    split; [exact W3|]. split; [exact L|]. split.
    { unfold tail_render in *. cbn [more_render map concat app]. rewrite cparam_render_eq. cbn [cp_name cp_first cp_more app].
      rewrite <- !app_assoc. cbn [app]. rewrite <- !app_assoc. rewrite <- !app_assoc in E. rewrite E. reflexivity. }
    split; [reflexivity|].
    unfold params_tokens. cbn [flat_map cparam_tokens cp_name cp_first cp_more map app]. rewrite <- !app_assoc. reflexivity.
  - rewrite next_token_value, parseValue_spec. pose proof (span_app value_char s') as S.
    destruct (span value_char s') as [v r]. destruct S as (-> & Wv & _).
    destruct r as [|c r].
    + exists [], [], v, []. repeat (split; [reflexivity||assumption||constructor|]). reflexivity.
    + destruct (beqc c CR) eqn:C; [|exact Logic.I]. apply beqc_eq in C. subst c.
      destruct r as [|d r]; [exact Logic.I|]. destruct (beqc d LF) eqn:D; [|exact Logic.I]. apply beqc_eq in D. subst d.
      cbn [t_type]. exists [], [], v, (CR :: LF :: r). repeat (split; [reflexivity||assumption||constructor|]). reflexivity.
  - rewrite next_token_pvalue.
    destruct (value_sound b ","%char s' eq_refl) as [(v & k & r' & b' & -> & Wf & K & ->)|(st & t & ->)]; [|exact Logic.I].
    subst inval.
    assert (TY : forall X, match t_type (pvalue_token v) with
               | tokenParamName => X | tokenParamValue | tokenParamQuotedValue =>
                 phrase_rest fuel true (acc ++ [pvalue_token v]) (Tkz (follow k) (Tok b' (k :: r')))
               | tokenValue => Ok (PhraseLine (acc ++ [pvalue_token v]), Tkz (follow k) (Tok b' (k :: r')))
               | _ => Err (state_err (Tkz (follow k) (Tok b' (k :: r')))) end
           = phrase_rest fuel true (acc ++ [pvalue_token v]) (Tkz (follow k) (Tok b' (k :: r')))).
    { intros X. destruct v; reflexivity. }
    rewrite TY. clear TY.
    assert (F' : (length (k :: r') < fuel)%nat).
    { cbn [length] in F. rewrite app_length in F. lia. }
    specialize (IH true (acc ++ [pvalue_token v]) (follow k) b' (k :: r') (follow_at k r' K) F').
    destruct (phrase_rest _ _ _ _) as [[ph z]|e| |]; try exact IH.
    destruct IH as (more & ps & w & e & W1 & W2 & W3 & L & E & _ & ->).
    exists (v :: more), ps, w, e. split.
    { cbn [forallb]. rewrite Wf, W1. reflexivity. }
    split; [exact W2|]. split; [exact W3|]. split; [exact L|]. split.
    { unfold tail_render in *. rewrite more_render_cons. cbn [app]. rewrite <- !app_assoc. rewrite <- !app_assoc in E.
      rewrite E. reflexivity. }
    split; [discriminate|]. cbn [map app]. rewrite <- app_assoc. reflexivity.
Qed.

(** A tokeniser between lines. *)
Theorem get_phrase_sound z s : ready z s ->
  match get_phrase z with
  | Ok (PhraseLine data, z') => exists l e, cline_wf l = true /\ data = cline_tokens l /\ line_end e z' /\ s = cline_render l ++ e
  | Ok (PhraseDone, z') => s = [] /\ ready z' []
  | Err _ => s <> []
  | Panic | NoFuel => False
  end.
Proof.
  intros [s'|]; [|cbn; split; [reflexivity|constructor]].
  unfold get_phrase, get_phrase_fuel, next_token. cbn [z_state z_tok trest]. rewrite parseName_spec.
  pose proof (span_app name_char s') as S. destruct (span name_char s') as [n r]. destruct S as (-> & Wn & _).
  destruct n as [|n0 n]; [destruct r; cbn; [split; [reflexivity|constructor]|discriminate]|].
  destruct r as [|c r]; [cbn; discriminate|].
  assert (AS : beqc c ";" = true \/ beqc c ":" = true \/ (beqc c ";" = false /\ beqc c ":" = false))
    by (destruct (beqc c ";"), (beqc c ":"); auto).
  assert (G : forall st, at_state st (c :: r) false ->
    match phrase_rest (S (S (length ((n0 :: n) ++ c :: r)))) false [Token tokenName (n0 :: n)] (Tkz st (Tok [] (c :: r))) with
    | Ok (PhraseLine data, z') => exists l e, cline_wf l = true /\ data = cline_tokens l /\ line_end e z' /\ (n0 :: n) ++ c :: r = cline_render l ++ e
    | Ok (PhraseDone, z') => (n0 :: n) ++ c :: r = [] /\ ready z' []
    | Err _ => (n0 :: n) ++ c :: r <> []
    | Panic | NoFuel => False
    end).
  { intros st A.
    assert (F : (length (c :: r) < S (S (length ((n0 :: n) ++ c :: r))))%nat) by (rewrite app_length; cbn [length]; lia).
    pose proof (phrase_rest_sound _ false [Token tokenName (n0 :: n)] st [] (c :: r) A F) as P.
    destruct (phrase_rest _ _ _ _) as [[ph z']|e| |]; try contradiction; [|discriminate].
    destruct P as (more & ps & v & e & W1 & W2 & W3 & L & E & M & ->). rewrite (M eq_refl) in *.
    exists (CLine (n0 :: n) ps v), e. split.
    { unfold cline_wf. cbn [cl_name cl_params cl_value andb]. rewrite Wn, W2, W3. reflexivity. }
    split; [reflexivity|]. split; [exact L|].
    unfold cline_render. cbn [cl_name cl_params cl_value]. rewrite E. unfold tail_render. cbn [more_render map concat app].
    rewrite <- !app_assoc. reflexivity. }
  destruct AS as [E|[E|[E1 E2]]].
  - rewrite E. cbn [t_type]. apply G. left. apply beqc_eq in E. subst. eauto.
  - destruct (beqc c ";") eqn:E1; [apply beqc_eq in E1, E; congruence|]. rewrite E. cbn [t_type]. apply G.
    right. left. apply beqc_eq in E. subst. eauto.
  - rewrite E1, E2. cbn. discriminate.
Qed.

Lemma line_end_ready e z : line_end e z -> exists s, ready z s.
Proof. intros [r|]; eexists; constructor. Qed.

(** An empty input is the end. *)
Lemma get_phrase_done z : ready z [] -> exists z', get_phrase z = Ok (PhraseDone, z') /\ ready z' [].
Proof. intros H. inversion H; subst; eexists; (split; [reflexivity|constructor]). Qed.
