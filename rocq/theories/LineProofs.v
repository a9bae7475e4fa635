(** The tables of the code are those of SpecRfc.v, and a line is read exactly as SpecLine.v says. *)
From Coq Require Import String Ascii ZArith Bool List Lia.
From Verif Require Import Base Lib Utf8 GoStrings Tokeniser SpecContent TokeniserProofs NumProofs DecodeProofs GoTime Types Params ParamTable PropTable Props SecTable Sections Codec SpecTree SpecRules CaseProofs SpecParams ParamProofs SpecProps PropProofs HangProofs GroupProofs EncodableProofs SpecValid ValidProofs SpecRfc SpecLine.
Import ListNotations.

Section L.
Context {env : Env}.

(** ** Parameters *)
Definition kind_form (f : param_form) : pkind :=
  match f with
  | OneAddress => PKUri | ManyAddresses => PKAddrs | ManyTexts => PKTexts | AnyText => PKText false | QuotedText => PKText true
  | Choice o ws => PKEnum o (map bs ws) | OnlyWord w => PKUnit (bs w) | MediaType => PKRegex | TrueFalse => PKBool
  end.
Lemma param_table q : param_spec q = (fst (rfc_param q), kind_form (snd (rfc_param q))).
Proof. destruct q; reflexivity. Qed.

Lemma one_value_text x t : one_value (param_values x) = Ok t <-> cp_more x = [] /\ t = pvalue_token (cp_first x).
Proof.
  unfold one_value, param_values. cbn [map]. destruct (cp_more x) as [|v r]; cbn [map].
  - split; [intros H; apply Ok_inj in H; auto|intros [_ ->]; reflexivity].
  - split; [discriminate|intros [H _]; discriminate].
Qed.
Lemma token_text v : t_data (pvalue_token v) = pvalue_text v.
Proof. destruct v; reflexivity. Qed.
Lemma quoted_iff v d : quoted_data (pvalue_token v) = Ok d <-> v = Quoted d.
Proof. destruct v as [w|w]; unfold quoted_data; cbn [pvalue_token t_type t_data ttype_eqb]; split; intros H; try discriminate; [apply Ok_inj in H; subst; reflexivity|injection H as ->; reflexivity]. Qed.
Lemma mapM_iff {A B} (f : A -> res B) : forall l r, mapM f l = Ok r <-> Forall2 (fun a b => f a = Ok b) l r.
Proof.
  induction l as [|a l IH]; intros r; cbn [mapM].
  - split; [intros H; apply Ok_inj in H; subst; constructor|inversion 1; reflexivity].
  - split.
    + intros H. apply bind_ok in H as (b & B1 & H). apply bind_ok in H as (r' & R & H). apply Ok_inj in H. subst r. constructor; [exact B1|apply IH, R].
    + inversion 1 as [|? b ? r' B1 R]; subst. rewrite B1. cbn [bind]. apply IH in R. rewrite R. reflexivity.
Qed.
Lemma Forall2_map_l {A B C} (f : A -> B) (R : B -> C -> Prop) l r : Forall2 R (map f l) r <-> Forall2 (fun a => R (f a)) l r.
Proof.
  revert r. induction l as [|a l IH]; intros r; cbn [map]; split; inversion 1; subst; constructor; auto; apply IH; assumption.
Qed.
Lemma Forall2_iff {A B} (R R' : A -> B -> Prop) : (forall a b, R a b <-> R' a b) -> forall l r, Forall2 R l r <-> Forall2 R' l r.
Proof. intros H l r. split; induction 1; constructor; auto; apply H; assumption. Qed.
Lemma url_iff s u : url_decode s = Ok u <-> url_parse s = Some u.
Proof. unfold url_decode. destruct (url_parse s); cbn [of_option]; split; intros H; try discriminate; [apply Ok_inj in H|injection H as ->]; subst; reflexivity. Qed.
Lemma words_in (s : bytes) (a b : list bytes) : (forall x, In x a <-> In x b) -> In s a <-> In s b.
Proof. auto. Qed.
Lemma form_iff f x v : match f with Choice _ ws => NoDup (map bs ws) | _ => True end -> param_decode (kind_form f) (param_values x) = Ok v <-> form_means f x v.
Proof.
  intros ND. destruct f as [| | | | |o ws|w| |]; cbn [kind_form param_decode].
  - split.
    + intros H. apply bind_ok in H as (t & T & H). apply one_value_text in T as [M ->]. apply bind_ok in H as (d & D & H). apply quoted_iff in D. apply bind_ok in H as (u & U & H). apply url_iff in U. apply Ok_inj in H. subst v. econstructor; eauto.
    + inversion 1 as [? s u F M U| | | | | | | | | | ]; subst. rewrite (proj2 (one_value_text _ _) (conj M eq_refl)). cbn [bind]. apply quoted_iff in F. rewrite F. cbn [bind]. apply url_iff in U. rewrite U. reflexivity.
  - assert (Q : forall us, mapM (fun t => let! d := quoted_data t in url_decode d) (param_values x) = Ok us <-> Forall2 (fun v u => exists s, v = Quoted s /\ url_parse s = Some u) (cp_first x :: cp_more x) us).
    { intros us. rewrite mapM_iff. unfold param_values. rewrite Forall2_map_l. apply Forall2_iff. intros a u. split.
      - intros H. apply bind_ok in H as (d & D & H). apply quoted_iff in D. apply url_iff in H. eauto.
      - intros (s & S1 & U). apply quoted_iff in S1. rewrite S1. cbn [bind]. apply url_iff, U. }
    split.
    + intros H. apply bind_ok in H as (us & U & H). apply Ok_inj in H. subst v. constructor. apply Q, U.
    + inversion 1 as [ |? us U| | | | | | | | | ]; subst. apply Q in U. rewrite U. reflexivity.
  - assert (Q : forall ts, mapM (fun t => let! d := quoted_data t in Ok (decode6868 d)) (param_values x) = Ok ts <-> Forall2 (fun v t => exists s, v = Quoted s /\ decode6868 s = t) (cp_first x :: cp_more x) ts).
    { intros ts. rewrite mapM_iff. unfold param_values. rewrite Forall2_map_l. apply Forall2_iff. intros a u. split.
      - intros H. apply bind_ok in H as (d & D & H). apply quoted_iff in D. apply Ok_inj in H. eauto.
      - intros (s & S1 & U). apply quoted_iff in S1. rewrite S1. cbn [bind]. congruence. }
    split.
    + intros H. apply bind_ok in H as (us & U & H). apply Ok_inj in H. subst v. constructor. apply Q, U.
    + inversion 1 as [ | |? us U| | | | | | | | ]; subst. apply Q in U. rewrite U. reflexivity.
  - split.
    + intros H. apply bind_ok in H as (t & T & H). apply one_value_text in T as [M ->]. cbn [bind] in H. apply Ok_inj in H. subst v. rewrite token_text. constructor. split; auto.
    + inversion 1 as [ | | |? t [M T]| | | | | | | ]; subst. rewrite (proj2 (one_value_text _ _) (conj M eq_refl)). cbn [bind]. rewrite token_text. reflexivity.
  - split.
    + intros H. apply bind_ok in H as (t & T & H). apply one_value_text in T as [M ->]. apply bind_ok in H as (d & D & H). apply quoted_iff in D. apply Ok_inj in H. subst v. econstructor; eauto.
    + inversion 1 as [ | | | |? s F M| | | | | | ]; subst. rewrite (proj2 (one_value_text _ _) (conj M eq_refl)). cbn [bind]. apply quoted_iff in F. rewrite F. reflexivity.
  - split.
    + intros H. apply bind_ok in H as (t & T & H). apply one_value_text in T as [M ->]. rewrite token_text in H. destruct (index_of _ _) as [n|] eqn:IX.
      * apply Ok_inj in H. subst v. apply index_of_some in IX. rewrite nth_error_map in IX. destruct (nth_error ws n) as [w|] eqn:N; [|discriminate]. injection IX as IX. econstructor; [split; [exact M|reflexivity]|exact N|auto].
      * destruct o; [|discriminate]. apply Ok_inj in H. subst v. apply index_of_none in IX. econstructor; [split; [exact M|reflexivity]|exact IX].
    + inversion 1 as [ | | | | |? ? ? t n w [M T] N U|? ? t [M T] U| | | | ]; subst; rewrite (proj2 (one_value_text _ _) (conj M eq_refl)); cbn [bind]; rewrite token_text.
      * assert (index_of (upper (pvalue_text (cp_first x))) (map bs ws) = Some n) as ->; [|reflexivity]. apply index_of_nth; [exact ND|]. rewrite nth_error_map, N, U. reflexivity.
      * apply index_of_none in U. rewrite U. reflexivity.
  - split.
    + intros H. apply bind_ok in H as (t & T & H). apply one_value_text in T as [M ->]. rewrite token_text in H. destruct (beq _ _) eqn:B; [|discriminate]. apply Ok_inj in H. subst v. apply beq_eq in B. econstructor; [split; [exact M|reflexivity]|exact B].
    + inversion 1 as [ | | | | | | |? ? t [M T] U| | | ]; subst. rewrite (proj2 (one_value_text _ _) (conj M eq_refl)). cbn [bind]. rewrite token_text, U, beq_refl. reflexivity.
  - split.
    + intros H. apply bind_ok in H as (t & T & H). apply one_value_text in T as [M ->]. rewrite token_text in H. destruct (regex_match _) eqn:B; [|discriminate]. apply Ok_inj in H. subst v. apply regex_iff in B. econstructor; [split; [exact M|reflexivity]|exact B].
    + inversion 1 as [ | | | | | | | |? t [M T] U| | ]; subst. rewrite (proj2 (one_value_text _ _) (conj M eq_refl)). cbn [bind]. apply regex_iff in U. rewrite token_text, U. reflexivity.
  - split.
    + intros H. apply bind_ok in H as (t & T & H). apply one_value_text in T as [M ->]. rewrite token_text in H. apply bind_ok in H as (b & B & H). apply Ok_inj in H. subst v. apply boolean_exact in B.
      destruct b; econstructor; try (split; [exact M|reflexivity]); cbn [map In] in *; tauto.
    + intros H. assert (Q : exists b t, v = PVBool b /\ one_text x t /\ boolean_decode t = Ok b).
      { inversion H as [ | | | | | | | | |? t O U|? t O U]; subst; [exists true, t|exists false, t]; (split; [reflexivity|]); (split; [exact O|]); apply boolean_exact; cbn [map In] in *; tauto. }
      destruct Q as (b & t & -> & [M T] & B). rewrite (proj2 (one_value_text _ _) (conj M eq_refl)). cbn [bind]. rewrite token_text, T, B. reflexivity.
Qed.
Lemma choices_distinct q : match snd (rfc_param q) with Choice _ ws => NoDup (map bs ws) | _ => True end.
Proof. destruct q; try exact Logic.I; apply distinct_nodup; reflexivity. Qed.
Lemma param_means_iff cps q o : param_read cps q o <-> param_means cps q o.
Proof.
  unfold param_read, param_means. rewrite (param_table q). cbn [fst snd]. split; (intros [H|(x & v & G & D & Q)]; [left; exact H|right; exists x, v; split; [exact G|split; [|exact Q]]]); (apply form_iff; [apply choices_distinct|exact D]).
Qed.

(** ** Structs *)
Definition of_name (n : bytes) (gs : list (bytes * list token)) : list (bytes * list token) := filter (fun g => beq (fst g) n) gs.
Lemma of_name_given n cps : of_name n (map group_of cps) = map group_of (given n cps).
Proof.
  unfold of_name, given. induction cps as [|p cps IH]; [reflexivity|]. cbn [map filter]. change (fst (group_of p)) with (upper (cp_name p)). destruct (beq (upper (cp_name p)) n); cbn [map]; rewrite IH; reflexivity.
Qed.
Lemma other_spec ps vs : forall gs st st', struct_params ps vs st gs = Ok st' -> forall n, ~ In n ((if several vs then [bs "VALUE"] else []) ++ map keyword ps) ->
  pmap_get (ps_other st') n = match rev (of_name n gs) with [] => pmap_get (ps_other st) n | g :: _ => Some (join_values (snd g)) end.
Proof.
  induction gs as [|g gs IH]; intros st st' H n N; cbn [struct_params] in H.
  - apply Ok_inj in H. subst. reflexivity.
  - apply bind_ok in H as (st1 & H1 & H2). rewrite (IH _ _ H2 n N). unfold of_name. cbn [filter]. fold (of_name n gs). destruct (beq (fst g) n) eqn:B.
    + apply beq_eq in B. rewrite unknown_param in H1 by (rewrite B; exact N). apply Ok_inj in H1. subst st1. cbn [ps_other rev]. destruct (rev (of_name n gs)) as [|x r]; cbn [app]; [|reflexivity]. cbn [pmap_get]. rewrite B, beq_refl. reflexivity.
    + destruct (rev (of_name n gs)) as [|x r]; [|reflexivity]. unfold struct_param in H1. destruct g as [m tv]. cbn [fst] in B. destruct (param_index m ps).
      * destruct (nth _ _ _); [discriminate|]. apply bind_ok in H1 as (y & _ & H1). apply Ok_inj in H1. subst. reflexivity.
      * destruct (_ && _).
        -- destruct tv as [|t [|]]; try discriminate. destruct (ps_vtype st); [discriminate|]. destruct (index_of _ _); [|discriminate]. apply Ok_inj in H1. subst. reflexivity.
        -- apply Ok_inj in H1. subst. cbn [ps_other pmap_get]. apply beq_neq in B. destruct (beq n m) eqn:B2; [apply beq_eq in B2; congruence|reflexivity].
Qed.
Lemma last_given_groups n cps : last_given n cps = match rev (of_name n (map group_of cps)) with [] => None | g :: _ => Some (join_values (snd g)) end.
Proof.
  unfold last_given. rewrite of_name_given, <- map_rev. destruct (rev (given n cps)) as [|x r]; [reflexivity|]. cbn [map]. f_equal. unfold join_values, group_of. cbn [snd]. f_equal.
  change (pvalue_token (cp_first x) :: map pvalue_token (cp_more x)) with (map pvalue_token (cp_first x :: cp_more x)). rewrite map_map. change (pvalue_text (cp_first x) :: map pvalue_text (cp_more x)) with (map pvalue_text (cp_first x :: cp_more x)). apply map_ext. intros v. symmetry. apply token_text.
Qed.
Lemma value_params_get cps n : used n -> pmap_get (value_params cps) n = last_given n cps.
Proof.
  unfold value_params. cbn [flat_map]. rewrite app_nil_r. intros [-> | ->].
  - destruct (last_given (bs "TZID") cps); [reflexivity|]. cbn [app]. destruct (last_given (bs "ENCODING") cps); reflexivity.
  - destruct (last_given (bs "TZID") cps); cbn [app]; destruct (last_given (bs "ENCODING") cps); reflexivity.
Qed.
Lemma struct_used pid ps vs : snd (prop_spec pid) = MStruct ps vs -> forall n, used n -> ~ In n ((if several vs then [bs "VALUE"] else []) ++ map keyword ps).
Proof.
  intros E n U I. destruct (prop_table pid) as [_ T]. rewrite E in T. cbn [struct_ok] in T. rewrite !andb_true_iff in T. destruct T as [[_ T] _]. apply in_app_or in I as [I|I].
  - destruct (several vs); [|destruct I]. destruct I as [I|[]]. subst n. destruct U; discriminate.
  - apply in_map_iff in I as (q & Q & I). rewrite forallb_forall in T. specialize (T q I). rewrite Q in T. destruct U as [-> | ->]; discriminate.
Qed.

(** Parameters that are each given at most once and can be read are read. *)
Lemma struct_complete ps vs : NoDup (map keyword ps) -> ~ In (bs "VALUE") (map keyword ps) -> forall gs st, length (ps_params st) = length ps ->
  (forall i q, nth_error ps i = Some q -> of_name (keyword q) gs = [] \/ nth i (ps_params st) None = None /\ exists g v, of_name (keyword q) gs = [g] /\ param_decode (pkind_of q) (snd g) = Ok v) ->
  (several vs = true -> of_name (bs "VALUE") gs = [] \/ ps_vtype st = None /\ exists g t j, of_name (bs "VALUE") gs = [g] /\ snd g = [t] /\ index_of (upper (t_data t)) (map fst vs) = Some j) ->
  exists st', struct_params ps vs st gs = Ok st'.
Proof.
  intros ND NV. induction gs as [|g gs IH]; intros st L HP HV; [eexists; reflexivity|]. cbn [struct_params]. destruct g as [n tv].
  assert (CONS : forall k, of_name k ((n, tv) :: gs) = if beq n k then (n, tv) :: of_name k gs else of_name k gs) by reflexivity.
  assert (PASS : forall st1, ps_params st1 = ps_params st -> (forall q, In q ps -> n <> keyword q) -> 
    (forall i q, nth_error ps i = Some q -> of_name (keyword q) gs = [] \/ nth i (ps_params st1) None = None /\ exists g v, of_name (keyword q) gs = [g] /\ param_decode (pkind_of q) (snd g) = Ok v)).
  { intros st1 E N i q Q. specialize (HP i q Q). rewrite CONS in HP. destruct (beq n (keyword q)) eqn:B; [|rewrite E; exact HP]. apply beq_eq in B. destruct (N q (nth_error_In _ _ Q) B). }
  unfold struct_param. destruct (param_index n ps) as [k|] eqn:PI.
  - apply index_of_some in PI. rewrite nth_error_map in PI. destruct (nth_error ps k) as [q|] eqn:Q; [|discriminate]. injection PI as PI. pose proof (HP k q Q) as HQ. rewrite CONS, PI, beq_refl in HQ. destruct HQ as [HQ|(NK & g & v & G & D)]; [discriminate|].
    injection G as G1 G2. subst g. cbn [snd] in D. rewrite NK, (nth_error_nth _ _ PmAgentID Q), D. cbn [bind]. assert (Lk : (k < length (ps_params st))%nat) by (rewrite L; apply nth_error_Some; congruence). apply IH; cbn [ps_params ps_vtype].
    + rewrite length_set_nth. exact L.
    + intros i q' Q'. rewrite nth_set_nth by exact Lk. destruct (Nat.eqb_spec k i) as [->|NE].
      * left. replace q' with q by congruence. rewrite PI. exact G2.
      * assert (NQ : n <> keyword q').
        { intros E. apply NE. rewrite NoDup_nth_error in ND. apply ND; [rewrite map_length; apply nth_error_Some; congruence|]. rewrite !nth_error_map, Q, Q'. cbn. congruence. }
        specialize (HP i q' Q'). rewrite CONS in HP. apply beq_neq in NQ. rewrite NQ in HP. exact HP.
    + intros SV. specialize (HV SV). rewrite CONS in HV. destruct (beq n (bs "VALUE")) eqn:B; [|exact HV]. apply beq_eq in B. exfalso. apply NV. rewrite <- B, <- PI. apply in_map. eapply nth_error_In, Q.
  - apply index_of_none in PI. assert (NN : forall q, In q ps -> n <> keyword q) by (intros q I E; apply PI; rewrite E; apply in_map, I).
    destruct (Nat.ltb 1 (length vs) && beq n (bs "VALUE")) eqn:VV.
    + apply andb_true_iff in VV as [SV B]. apply beq_eq in B. subst n. destruct (HV SV) as [HN|(VT & g & t & j & G & T & IX)]; rewrite CONS, beq_refl in *; [discriminate|]. injection G as G1 G2. subst g. cbn [snd] in T. subst tv. rewrite VT, IX. cbn [bind]. apply IH; cbn [ps_params ps_vtype].
      * exact L. * apply PASS; [reflexivity|exact NN]. * intros _. left. exact G2.
    + cbn [bind]. apply IH; cbn [ps_params ps_vtype].
      * exact L. * apply PASS; [reflexivity|exact NN]. * intros SV. specialize (HV SV). rewrite CONS in HV. unfold several in SV. rewrite SV in VV. cbn [andb] in VV. rewrite VV in HV. exact HV.
Qed.

Lemma param_read_fun cps q o o' : param_read cps q o -> param_read cps q o' -> o = o'.
Proof. intros [[G ->]|(x & v & G & D & ->)] [[G' ->]|(x' & v' & G' & D' & ->)]; congruence. Qed.
Lemma params_read_fun cps ps l : Forall2 (param_read cps) ps l -> forall l', Forall2 (param_read cps) ps l' -> l = l'.
Proof. induction 1 as [|q o ps l R _ IH]; inversion 1; subst; [reflexivity|]. f_equal; [eapply param_read_fun; eauto|auto]. Qed.
Lemma split_key {B} (a a' : list (bytes * B)) w k k' b b' : NoDup (map fst (a ++ (w, k) :: b)) -> a ++ (w, k) :: b = a' ++ (w, k') :: b' -> a = a' /\ k = k' /\ b = b'.
Proof.
  revert a'. induction a as [|x a IH]; intros [|x' a'] ND E; cbn [app] in E.
  - injection E as -> ->. auto.
  - injection E as <- ->. exfalso. cbn [app map fst] in ND. inversion ND as [|? ? N _]; subst. apply N. rewrite map_app. apply in_or_app. right. left. reflexivity.
  - injection E as -> E. exfalso. cbn [app map fst] in ND. inversion ND as [|? ? N _]; subst. apply N. rewrite map_app. apply in_or_app. right. left. reflexivity.
  - injection E as <- E. cbn [app map] in ND. inversion ND; subst. destruct (IH a' H2 E) as (-> & -> & ->). auto.
Qed.
Lemma type_read_fun cps vs a w k b a' w' k' b' : (several vs = true -> NoDup (map fst vs)) -> type_read cps vs a w k b -> type_read cps vs a' w' k' b' -> a = a' /\ k = k' /\ b = b'.
Proof.
  intros ND [E T] [E' T'].
  destruct (several vs) eqn:SV.
  - specialize (ND eq_refl). assert (N1 : length vs <> 1%nat) by (unfold several in SV; apply Nat.ltb_lt in SV; lia).
    destruct T as [[-> [G|G]]|(x & G & M & W)]; [|contradiction|]; destruct T' as [[-> [G'|G']]|(x' & G' & M' & W')]; try contradiction; try congruence.
    + rewrite E in E'. injection E' as -> -> ->. auto.
    + assert (x = x') by congruence. subst x'. assert (w = w') by congruence. subst w'. rewrite E in ND. apply (split_key a a' w k k' b b' ND). congruence.
  - assert (L : (length vs <= 1)%nat) by (unfold several in SV; apply Nat.ltb_ge in SV; exact SV). rewrite E in E', L. rewrite app_length in L. cbn [length] in L. destruct a; [|cbn [length] in L; lia]. destruct b; [|cbn [length] in L; lia]. cbn [app] in E'.
    destruct a' as [|? [|? ?]]; [|discriminate E'|discriminate E']. injection E' as -> -> ->. auto.
Qed.
Lemma struct_words pid ps vs : snd (prop_spec pid) = MStruct ps vs -> several vs = true -> NoDup (map fst vs).
Proof.
  intros E SV. destruct (prop_table pid) as [_ T]. rewrite E in T. cbn [struct_ok] in T. rewrite !andb_true_iff in T. destruct T as [_ T]. unfold several in SV. rewrite SV in T. unfold words_ok in T. apply andb_true_iff in T as [T _]. apply distinct_nodup, T.
Qed.

Lemma struct_ok_words pid ws : snd (prop_spec pid) = MEnum ws -> NoDup ws.
Proof. intros E. destruct (prop_table pid) as [_ T]. rewrite E in T. cbn [struct_ok] in T. unfold words_ok in T. apply andb_true_iff in T as [T _]. apply distinct_nodup, T. Qed.

Theorem struct_exact pid ps vs cps d p : snd (prop_spec pid) = MStruct ps vs ->
  (prop_decode pid (params_tokens cps) d = Ok p <->
   exists l a w k b v, Forall2 (param_read cps) ps l /\ type_read cps vs a w k b /\ value_decode k (value_params cps) d = Ok v /\ p = PStruct l (map (fun _ => None) a ++ Some v :: map (fun _ => None) b)).
Proof.
  intros E. assert (AG : forall st, struct_params ps vs (PState (map (fun _ => None) ps) None []) (groups (params_tokens cps)) = Ok st -> agree used (ps_other st) (value_params cps)).
  { intros st HS n U. rewrite groups_params in HS. rewrite (other_spec _ _ _ _ _ HS n (struct_used _ _ _ E n U)), (value_params_get _ _ U), last_given_groups. destruct (rev _); reflexivity. }
  unfold prop_decode. rewrite E. split.
  - intros H. apply bind_ok in H as (st & HS & H). cbv zeta in H. apply bind_ok in H as (v & HV & H). apply Ok_inj in H. subst p.
    destruct (struct_state _ _ _ _ _ E HS) as (F2 & a & w & k & b & N & EV & LA & T). rewrite (nth_error_nth _ _ _ N) in HV. cbn [snd] in HV. rewrite (value_ext _ _ _ _ (AG st HS)) in HV.
    exists (ps_params st), a, w, k, b, v. split; [exact F2|]. split; [exact T|]. split; [exact HV|]. f_equal. rewrite EV, map_app. cbn [map]. rewrite <- LA. rewrite <- (map_length (fun _ : bytes * vkind => @None value) a). apply set_nth_at.
  - intros (l & a & w & k & b & v & F2 & T & HV & ->). destruct (struct_facts _ _ _ E) as [ND NV].
    assert (HS : exists st, struct_params ps vs (PState (map (fun _ => None) ps) None []) (groups (params_tokens cps)) = Ok st).
    { rewrite groups_params. apply struct_complete; cbn [ps_params ps_vtype]; [exact ND|exact NV|apply map_length| |].
      - intros i q N. rewrite of_name_given. destruct (Forall2_in _ _ _ F2 q (nth_error_In _ _ N)) as (o & [[G _]|(x & y & G & D & _)]); unfold keyword; rewrite G.
        + left. reflexivity.
        + right. split; [apply nth_none|]. exists (group_of x), y. split; [reflexivity|]. exact D.
      - intros SV. rewrite of_name_given. destruct T as [EV [[-> [G|G]]|(x & G & M & W)]].
        + rewrite G. left. reflexivity.
        + unfold several in SV. apply Nat.ltb_lt in SV. lia.
        + rewrite G. right. split; [reflexivity|]. exists (group_of x), (pvalue_token (cp_first x)), (length a). split; [reflexivity|]. split; [unfold group_of; cbn [snd]; rewrite M; reflexivity|]. rewrite token_text, W, EV. apply (index_at fst a (w, k) b). rewrite <- EV. exact (struct_words _ _ _ E SV). }
    destruct HS as (st & HS). rewrite HS. cbn [bind]. cbv zeta. destruct (struct_state _ _ _ _ _ E HS) as (F2' & a' & w' & k' & b' & N & EV & LA & T').
    destruct (type_read_fun _ _ _ _ _ _ _ _ _ _ (struct_words _ _ _ E) T T') as (<- & <- & <-). rewrite <- (params_read_fun _ _ _ F2 _ F2'). rewrite (nth_error_nth _ _ _ N). cbn [snd]. rewrite (value_ext _ _ _ _ (AG st HS)), HV. cbn [bind].
    f_equal. f_equal. rewrite EV, map_app. cbn [map]. rewrite <- LA. rewrite <- (map_length (fun _ : bytes * vkind => @None value) a). apply set_nth_at.
Qed.

(** ** Every property *)
Lemma prop_row pid : match snd (prop_spec pid) with
  | MStruct ps vs => rfc_words pid = [] /\ api_struct pid = Some ps /\ (vs = rfc_types pid \/ exists w w' k, vs = [(w, k)] /\ rfc_types pid = [(w', k)])
  | MEnum ws => rfc_words pid = ws /\ ws <> []
  | MNew k => rfc_words pid = [] /\ api_struct pid = None /\ exists w, rfc_types pid = [(w, k)]
  end.
Proof. destruct pid; try (split; [reflexivity|discriminate]); (split; [reflexivity|]); (split; [reflexivity|]); first [left; reflexivity|right; do 3 eexists; split; reflexivity|eexists; reflexivity]. Qed.
Lemma type_one cps w w' k a x kk b : type_read cps [(w, k)] a x kk b -> type_read cps [(w', k)] a w' kk b.
Proof.
  intros [E T]. destruct a as [|? [|? ?]]; [|discriminate E|discriminate E]. injection E as -> -> <-. split; [reflexivity|]. left. split; [reflexivity|]. right. reflexivity.
Qed.
Theorem line_exact pid cps d p : prop_decode pid (params_tokens cps) d = Ok p <-> line_means pid cps d p.
Proof.
  pose proof (prop_row pid) as R. unfold line_means. destruct (snd (prop_spec pid)) as [ps vs|ws|k] eqn:E.
  - destruct R as (-> & -> & R). rewrite (struct_exact _ _ _ _ _ _ E). split; intros (l & a & w & k & b & v & F2 & T & V & ->).
    + assert (F2' : Forall2 (param_means cps) ps l) by (eapply (Forall2_iff _ _ (param_means_iff cps)); exact F2).
      destruct R as [<-|(w0 & w' & k0 & -> & ->)]; [exists l, a, w, k, b, v; auto|]. exists l, a, w', k, b, v. split; [exact F2'|]. split; [eapply type_one, T|auto].
    + assert (F2' : Forall2 (param_read cps) ps l) by (eapply (Forall2_iff _ _ (param_means_iff cps)); exact F2).
      destruct R as [->|(w0 & w' & k0 & -> & EQ)]; [exists l, a, w, k, b, v; auto|]. rewrite EQ in T. exists l, a, w0, k, b, v. split; [exact F2'|]. split; [eapply type_one, T|auto].
  - destruct R as [-> NE]. destruct ws as [|w ws]; [contradiction|]. unfold prop_decode. rewrite E. pose proof (struct_ok_words pid (w :: ws) E) as ND. split.
    + intros H. destruct (index_of _ _) as [n|] eqn:IX; [|discriminate]. apply Ok_inj in H. subst p. exists n. split; [apply index_of_some, IX|reflexivity].
    + intros (n & N & ->). rewrite (index_of_nth _ ND _ _ N). reflexivity.
  - destruct R as (-> & -> & w & ->). unfold prop_decode. rewrite E. cbv zeta. rewrite groups_params.
    assert (AG : agree used (fold_left (fun (m : pmap) g => (fst g, join_values (snd g)) :: m) (map group_of cps) []) (value_params cps)).
    { intros n U. rewrite (value_params_get _ _ U), last_given_groups. generalize (map group_of cps) as gs. intros gs.
      assert (G : forall gs m, pmap_get (fold_left (fun (m : pmap) g => (fst g, join_values (snd g)) :: m) gs m) n = match rev (of_name n gs) with [] => pmap_get m n | g :: _ => Some (join_values (snd g)) end).
      { clear gs. induction gs as [|g gs IH]; intros m; [reflexivity|]. cbn [fold_left]. rewrite IH. unfold of_name. cbn [filter]. fold (of_name n gs). destruct (beq (fst g) n) eqn:B.
        - cbn [rev]. destruct (rev (of_name n gs)) as [|x r]; cbn [app]; [|reflexivity]. apply beq_eq in B. cbn [pmap_get]. rewrite B, beq_refl. reflexivity.
        - destruct (rev (of_name n gs)) as [|x r]; [|reflexivity]. cbn [pmap_get]. destruct (beq n (fst g)) eqn:B2; [apply beq_eq in B2; apply beq_neq in B; congruence|reflexivity]. }
      rewrite G. destruct (rev _); reflexivity. }
    rewrite (value_ext _ _ k d AG). split.
    + intros H. apply bind_ok in H as (v & V & H). apply Ok_inj in H. subst p. exists w, k, v. auto.
    + intros (w' & k' & v & Q & V & ->). injection Q as <- <-. rewrite V. reflexivity.
Qed.
End L.
