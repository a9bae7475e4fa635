(** The parameters of a line: which are read, twice given ones, and addresses without quotes. *)
From Coq Require Import String Ascii ZArith Bool List Lia ZifyBool.
From Verif Require Import Base Lib Utf8 GoStrings Strtok Tokeniser SpecContent TokeniserProofs GoTime Types Params ParamTable PropTable Props SpecTree TreeProofs CaseProofs PrefixProofs TotalProofs EncodeProofs SpecParams ParamProofs SpecProps PropProofs.
Import ListNotations.

(** ** Cancellation *)
Definition heads (p : byte -> Prop) (s : bytes) : Prop := exists c r, s = c :: r /\ p c.
Lemma span_cancel (p : byte -> bool) : forall a b X Y, forallb p a = true -> forallb p b = true -> heads (fun c => p c = false) X -> heads (fun c => p c = false) Y ->
  a ++ X = b ++ Y -> a = b /\ X = Y.
Proof.
  intros a. induction a as [|x a IH]; intros [|y b] X Y A B HX HY Q; cbn [app] in Q.
  - auto.
  - destruct HX as (c & r & -> & P). injection Q as -> _. cbn [forallb] in B. rewrite P in B. discriminate.
  - destruct HY as (c & r & -> & P). injection Q as <- _. cbn [forallb] in A. rewrite P in A. discriminate.
  - cbn [forallb] in A, B. apply andb_true_iff in A as [_ A], B as [_ B]. injection Q as <- Q. destruct (IH b X Y A B HX HY Q) as [-> ->]. auto.
Qed.
Definition stop (c : byte) : Prop := In c (bs ",;:").
Lemma stop_safe c : stop c -> safe_char c = false.
Proof. intros [<-|[<-|[<-|[]]]]; reflexivity. Qed.
Lemma stop_dq c : stop c -> c <> DQ.
Proof. intros [<-|[<-|[<-|[]]]]; discriminate. Qed.
Lemma heads_imp (p q : byte -> Prop) s : (forall c, p c -> q c) -> heads p s -> heads q s.
Proof. intros I (c & r & E & P). exists c, r. auto. Qed.

Lemma quoted_plain v v' X X' : forallb safe_char v' = true -> heads stop X' -> [DQ] ++ v ++ [DQ] ++ X = v' ++ X' -> False.
Proof.
  intros W H Q. destruct v' as [|c v'].
  - destruct H as (c & r & -> & P). cbn [app] in Q. injection Q as Q _. apply (stop_dq c P). auto.
  - cbn [app] in Q. injection Q as <- _. discriminate W.
Qed.
Lemma pvalue_cancel v v' X X' : pvalue_wf v = true -> pvalue_wf v' = true -> heads stop X -> heads stop X' -> pvalue_render v ++ X = pvalue_render v' ++ X' -> v = v' /\ X = X'.
Proof.
  intros W W' HX HX' Q. destruct v as [v|v], v' as [v'|v']; cbn [pvalue_render pvalue_wf] in *.
  - rewrite <- !app_assoc in Q. cbn [app] in Q. injection Q as Q. apply (span_cancel quoted_char) in Q as [-> Q]; auto; [|exists DQ, X; auto|exists DQ, X'; auto]. injection Q as ->. auto.
  - exfalso. rewrite <- !app_assoc in Q. exact (quoted_plain _ _ _ _ W' HX' Q).
  - exfalso. rewrite <- !app_assoc in Q. symmetry in Q. exact (quoted_plain _ _ _ _ W HX Q).
  - apply (span_cancel safe_char) in Q as [-> ->]; auto; eapply heads_imp; eauto; intros c; apply stop_safe.
Qed.
Definition param_end (c : byte) : Prop := In c (bs ";:").
Lemma param_end_stop c : param_end c -> stop c.
Proof. intros [<-|[<-|[]]]; cbn; auto. Qed.
Lemma more_heads m X : heads param_end X -> heads stop (more_render m ++ X).
Proof. destruct m as [|v m]; intros H; [eapply heads_imp; [|exact H]; apply param_end_stop|]. unfold more_render. cbn [map concat app bs list_ascii_of_string]. eexists _, _. split; [reflexivity|]. left. reflexivity. Qed.
Lemma more_cancel : forall m m' X X', forallb pvalue_wf m = true -> forallb pvalue_wf m' = true -> heads param_end X -> heads param_end X' -> more_render m ++ X = more_render m' ++ X' -> m = m' /\ X = X'.
Proof.
  induction m as [|v m IH]; intros [|v' m'] X X' W W' HX HX' Q.
  - auto.
  - exfalso. destruct HX as (c & r & -> & P). unfold more_render in Q. cbn [map concat app bs list_ascii_of_string] in Q. injection Q as Q _. subst c. destruct P as [P|[P|[]]]; discriminate.
  - exfalso. destruct HX' as (c & r & -> & P). unfold more_render in Q. cbn [map concat app bs list_ascii_of_string] in Q. injection Q as Q _. subst c. destruct P as [P|[P|[]]]; discriminate.
  - cbn [forallb] in W, W'. apply andb_true_iff in W as [W1 W2], W' as [W1' W2'].
    change (more_render (v :: m)) with ((bs "," ++ pvalue_render v) ++ more_render m) in Q. change (more_render (v' :: m')) with ((bs "," ++ pvalue_render v') ++ more_render m') in Q.
    rewrite <- !app_assoc in Q. cbn [bs list_ascii_of_string app] in Q. injection Q as Q.
    apply pvalue_cancel in Q as [-> Q]; auto using more_heads. apply IH in Q as [-> ->]; auto.
Qed.
Lemma cparam_cancel p p' X X' : cparam_wf p = true -> cparam_wf p' = true -> heads param_end X -> heads param_end X' -> cparam_render p ++ X = cparam_render p' ++ X' -> p = p' /\ X = X'.
Proof.
  unfold cparam_wf, cparam_render. rewrite !andb_true_iff. intros [[N F] M] [[N' F'] M'] HX HX' Q. rewrite <- !app_assoc in Q. cbn [bs list_ascii_of_string app] in Q. injection Q as Q.
  apply (span_cancel name_char) in Q as [E1 Q]; auto; [|eexists _, _; split; reflexivity|eexists _, _; split; reflexivity]. injection Q as Q.
  apply pvalue_cancel in Q as [E2 Q]; auto using more_heads. apply more_cancel in Q as [E3 ->]; auto. destruct p, p'; cbn in *; subst. auto.
Qed.
Lemma params_head ps X : heads param_end X -> heads param_end (concat (map cparam_render ps) ++ X).
Proof. destruct ps as [|p ps]; intros H; [exact H|]. cbn [map concat]. unfold cparam_render. cbn [app bs list_ascii_of_string]. eexists _, _. split; [reflexivity|]. left. reflexivity. Qed.

(** A parameter without quotes is read without quotes, if a line is read at all. *)
Lemma unquoted_found kw u X : forall ps ps' v, forallb cparam_wf ps = true -> forallb cparam_wf ps' = true -> forallb name_char kw = true -> heads (fun c => c <> DQ) u ->
  concat (map cparam_render ps) ++ (bs ";" ++ kw ++ bs "=") ++ u ++ X = concat (map cparam_render ps') ++ bs ":" ++ v ->
  exists p w, In p ps' /\ cp_name p = kw /\ cp_first p = Plain w.
Proof.
  induction ps as [|p ps IH]; intros ps' v W W' K U Q.
  - destruct ps' as [|p' ps']; [discriminate Q|]. cbn [map concat app bs list_ascii_of_string] in Q. unfold cparam_render in Q at 1. rewrite <- !app_assoc in Q. cbn [app bs list_ascii_of_string] in Q. injection Q as Q.
    cbn [forallb] in W'. apply andb_true_iff in W' as [Wp W']. unfold cparam_wf in Wp. rewrite !andb_true_iff in Wp. destruct Wp as [[N F] M].
    apply (span_cancel name_char) in Q as [E1 Q]; auto; [|eexists _, _; split; reflexivity|eexists _, _; split; reflexivity]. injection Q as Q.
    destruct (cp_first p') as [w|w] eqn:CF; [|exists p', w; split; [left; reflexivity|auto]].
    exfalso. destruct U as (c & r & -> & NC). cbn [pvalue_render app] in Q. injection Q as Q _. auto.
  - destruct ps' as [|p' ps']; [discriminate Q|]. cbn [map concat forallb] in *. apply andb_true_iff in W as [Wp W], W' as [Wp' W']. rewrite <- !app_assoc in Q.
    apply cparam_cancel in Q as [-> Q]; auto.
    + destruct (IH ps' v W W' K U) as (x & w & I & R); [rewrite <- !app_assoc; exact Q|]. exists x, w. split; [right; exact I|exact R].
    + apply params_head. eexists _, _. split; [reflexivity|]. left. reflexivity.
    + apply params_head. eexists _, _. split; [reflexivity|]. right. left. reflexivity.
Qed.

Section G.
Context {env : Env}.

(** ** Which parameters are read *)
Lemma nth_set_nth {A} (d : A) x : forall l i j, i < length l -> nth j (set_nth i x l) d = if Nat.eqb i j then x else nth j l d.
Proof. induction l as [|y l IH]; intros i j L; cbn [length] in L; [lia|]. destruct i as [|i], j as [|j]; cbn [set_nth nth Nat.eqb]; try reflexivity. apply IH. lia. Qed.
Lemma length_set_nth {A} (x : A) : forall l i, length (set_nth i x l) = length l.
Proof. induction l as [|y l IH]; intros [|i]; cbn [set_nth length]; auto. Qed.

Definition named (n : bytes) (gs : list (bytes * list token)) : Prop := exists g, In g gs /\ fst g = n.
Definition several {A} (l : list A) : bool := Nat.ltb 1 (length l).
Lemma struct_params_spec ps vs : NoDup (map keyword ps) -> forall gs st st', length (ps_params st) = length ps -> struct_params ps vs st gs = Ok st' ->
  length (ps_params st') = length ps /\
  (forall i q, nth_error ps i = Some q ->
    (forall v, nth i (ps_params st) None = Some v -> nth i (ps_params st') None = Some v /\ ~ named (keyword q) gs) /\
    (nth i (ps_params st) None = None -> (nth i (ps_params st') None = None /\ ~ named (keyword q) gs) \/
       exists a g b v, gs = a ++ g :: b /\ fst g = keyword q /\ ~ named (keyword q) a /\ ~ named (keyword q) b /\ param_decode (pkind_of q) (snd g) = Ok v /\ nth i (ps_params st') None = Some v)) /\
  (several vs = true -> ~ In (bs "VALUE") (map keyword ps) -> 
    (forall j, ps_vtype st = Some j -> ps_vtype st' = Some j /\ ~ named (bs "VALUE") gs) /\
    (ps_vtype st = None -> (ps_vtype st' = None /\ ~ named (bs "VALUE") gs) \/
       exists a g b t j, gs = a ++ g :: b /\ fst g = bs "VALUE" /\ ~ named (bs "VALUE") a /\ ~ named (bs "VALUE") b /\ snd g = [t] /\
         index_of (upper (t_data t)) (map fst vs) = Some j /\ ps_vtype st' = Some j)).
Proof.
  intros ND. induction gs as [|g gs IH]; intros st st' L H.
  - cbn [struct_params] in H. apply Ok_inj in H. subst st'. split; [exact L|]. assert (NN : forall n, ~ named n []) by (intros n (g & [] & _)).
    split; [intros i q N; split; [intros v E; auto|intros E; auto]|]. intros _ _. split; [intros j E; auto|auto].
  - cbn [struct_params] in H. apply bind_ok in H as (st1 & H1 & H2).
    assert (CONS : forall n, fst g <> n -> named n (g :: gs) -> named n gs) by (intros n N (x & [<-|I] & E); [contradiction|exists x; auto]).
    unfold struct_param in H1. destruct g as [n tv]. cbn [fst] in *. destruct (param_index n ps) as [k|] eqn:PI.
    + assert (Hk : exists q, nth_error ps k = Some q /\ keyword q = n).
      { apply index_of_some in PI. rewrite nth_error_map in PI. destruct (nth_error ps k) as [q|] eqn:Q; [|discriminate]. exists q. injection PI as PI. auto. }
      destruct Hk as (qk & Qk & Kk). destruct (nth k (ps_params st) None) eqn:NK; [discriminate|]. apply bind_ok in H1 as (v & D & H1). apply Ok_inj in H1. subst st1.
      rewrite (nth_error_nth _ _ PmAgentID Qk) in D. assert (Lk : k < length (ps_params st)) by (rewrite L; apply nth_error_Some; congruence).
      pose proof (fun L0 => IH _ _ L0 H2) as IHs. cbn [ps_params ps_vtype] in IHs. destruct (IHs ltac:(rewrite length_set_nth; exact L)) as (L' & HP & HV). split; [exact L'|]. split.
      * intros i q N. specialize (HP i q N). rewrite nth_set_nth in HP by exact Lk. destruct (Nat.eqb_spec k i) as [->|NE].
        -- assert (q = qk) by congruence. subst q. rewrite NK. split; [discriminate|]. intros _. right. destruct (proj1 HP v eq_refl) as [A B]. exists [], (n, tv), gs, v. cbn [app fst snd].
           repeat split; auto. intros (x & [] & _).
        -- assert (NQ : n <> keyword q).
           { intros E. apply NE. rewrite NoDup_nth_error in ND. apply ND; [rewrite map_length; apply nth_error_Some; congruence|]. rewrite !nth_error_map, Qk, N. cbn. congruence. }
           destruct HP as [HP1 HP2]. split.
           ++ intros v' E. destruct (HP1 v' E) as [A B]. split; [exact A|]. intros X. apply B, CONS; auto.
           ++ intros E. destruct (HP2 E) as [[A B]|(a & g & b & v' & -> & R1 & R2 & R3)]; [left; split; [exact A|intros X; apply B, CONS; auto]|]. right.
              exists ((n, tv) :: a), g, b, v'. split; [reflexivity|]. split; [exact R1|]. split; [|exact R3]. intros (y & [<-|I] & E'); [cbn [fst] in E'; contradiction|apply R2; exists y; auto].
      * intros SV NV. destruct (HV SV NV) as [HV1 HV2]. assert (NQ : n <> bs "VALUE"). { intros E. apply NV. rewrite <- E, <- Kk. apply in_map. eapply nth_error_In. exact Qk. } split.
        -- intros j E. destruct (HV1 j E) as [A B]. split; [exact A|]. intros X. apply B, CONS; auto.
        -- intros E. destruct (HV2 E) as [[A B]|(a & g & b & t & j & -> & R1 & R2 & R3)]; [left; split; [exact A|intros X; apply B, CONS; auto]|]. right.
           exists ((n, tv) :: a), g, b, t, j. split; [reflexivity|]. split; [exact R1|]. split; [|exact R3]. intros (y & [<-|I] & E'); [cbn [fst] in E'; contradiction|apply R2; exists y; auto].
    + assert (NK : forall i q, nth_error ps i = Some q -> n <> keyword q).
      { intros i q N E. apply index_of_none in PI. apply PI. rewrite E. apply in_map. eapply nth_error_In. exact N. }
      assert (PRESERVE : forall st1, ps_params st1 = ps_params st -> struct_params ps vs st1 gs = Ok st' -> length (ps_params st') = length ps /\
        (forall i q, nth_error ps i = Some q -> (forall v, nth i (ps_params st) None = Some v -> nth i (ps_params st') None = Some v /\ ~ named (keyword q) ((n, tv) :: gs)) /\
         (nth i (ps_params st) None = None -> (nth i (ps_params st') None = None /\ ~ named (keyword q) ((n, tv) :: gs)) \/
         exists a g b v, (n, tv) :: gs = a ++ g :: b /\ fst g = keyword q /\ ~ named (keyword q) a /\ ~ named (keyword q) b /\ param_decode (pkind_of q) (snd g) = Ok v /\ nth i (ps_params st') None = Some v))).
      { intros st2 EP H3. destruct (IH st2 st' ltac:(congruence) H3) as (L' & HP & _). rewrite EP in HP. split; [exact L'|]. intros i q N. destruct (HP i q N) as [HP1 HP2]. specialize (NK i q N). split.
        - intros v' E. destruct (HP1 v' E) as [A B]. split; [exact A|]. intros X. apply B, CONS; auto.
        - intros E. destruct (HP2 E) as [[A B]|(a & g & b & v' & -> & R1 & R2 & R3)]; [left; split; [exact A|intros X; apply B, CONS; auto]|]. right.
          exists ((n, tv) :: a), g, b, v'. split; [reflexivity|]. split; [exact R1|]. split; [|exact R3]. intros (y & [<-|I] & E'); [cbn [fst] in E'; contradiction|apply R2; exists y; auto]. }
      destruct (Nat.ltb 1 (length vs) && beq n (bs "VALUE")) eqn:VV.
      * apply andb_true_iff in VV as [SV EV]. apply beq_eq in EV. subst n. destruct tv as [|t [|t' tv]]; try discriminate. destruct (ps_vtype st) eqn:VT; [discriminate|]. destruct (index_of _ _) as [j|] eqn:IX; [|discriminate].
        apply Ok_inj in H1. subst st1. pose proof (fun E => PRESERVE _ E H2) as PR. destruct (PR eq_refl) as [L' HP]. split; [exact L'|]. split; [exact HP|]. intros SV' NV. split; [discriminate|]. intros _. right.
        pose proof (fun L0 => IH _ _ L0 H2) as IHs. cbn [ps_params ps_vtype] in IHs. destruct (IHs L) as (_ & _ & HV). destruct (HV SV' NV) as [HV1 _]. destruct (HV1 j eq_refl) as [A B]. exists [], (bs "VALUE", [t]), gs, t, j. cbn [app fst snd].
        repeat split; auto. intros (x & [] & _).
      * apply Ok_inj in H1. subst st1. pose proof (fun E => PRESERVE _ E H2) as PR. destruct (PR eq_refl) as [L' HP]. split; [exact L'|]. split; [exact HP|]. intros SV NV. unfold several in SV. rewrite SV in VV. cbn [andb] in VV. apply beq_neq in VV.
        pose proof (fun L0 => IH _ _ L0 H2) as IHs. cbn [ps_params ps_vtype] in IHs. destruct (IHs L) as (_ & _ & HV). destruct (HV SV NV) as [HV1 HV2]. split.
        -- intros j E. destruct (HV1 j E) as [A B]. split; [exact A|]. intros X. apply B, CONS; auto.
        -- intros E. destruct (HV2 E) as [[A B]|(a & g & b & t & j & -> & R1 & R2 & R3)]; [left; split; [exact A|intros X; apply B, CONS; auto]|]. right.
           exists ((n, tv) :: a), g, b, t, j. split; [reflexivity|]. split; [exact R1|]. split; [|exact R3]. intros (y & [<-|I] & E'); [cbn [fst] in E'; contradiction|apply R2; exists y; auto].
Qed.

Lemma given_nil k cps : ~ named k (map group_of cps) -> given k cps = [].
Proof.
  intros N. induction cps as [|p cps IH]; [reflexivity|]. unfold given. cbn [filter]. destruct (beq (upper (cp_name p)) k) eqn:B.
  - exfalso. apply N. exists (group_of p). split; [left; reflexivity|]. apply beq_eq, B.
  - apply IH. intros (g & I & F). apply N. exists g. split; [right; exact I|exact F].
Qed.
Lemma map_split {A B} (f : A -> B) : forall l a y b, map f l = a ++ y :: b -> exists la x lb, l = la ++ x :: lb /\ map f la = a /\ f x = y /\ map f lb = b.
Proof.
  induction l as [|z l IH]; intros [|c a] y b E; cbn [map app] in E; try discriminate.
  - injection E as <- <-. exists [], z, l. auto.
  - injection E as <- E. destruct (IH a y b E) as (la & x & lb & -> & <- & <- & <-). exists (z :: la), x, lb. auto.
Qed.
Lemma given_one k cps a g b : map group_of cps = a ++ g :: b -> fst g = k -> ~ named k a -> ~ named k b -> exists x, given k cps = [x] /\ g = group_of x.
Proof.
  intros E K A B. apply map_split in E as (ca & x & cb & -> & <- & <- & <-). exists x. split; [|reflexivity]. unfold given. rewrite filter_app. cbn [filter].
  change (upper (cp_name x)) with (fst (group_of x)). rewrite K, (proj2 (beq_eq _ _) eq_refl). change (filter _ ca) with (given k ca). change (filter _ cb) with (given k cb). rewrite !given_nil by assumption. reflexivity.
Qed.

Lemma value_kind k m d v : value_decode k m d = Ok v -> kind_of v = k.
Proof. unfold value_decode, rmap. destruct k; intros H; apply bind_ok in H as (x & _ & H); apply Ok_inj in H; subst v; reflexivity. Qed.

Lemma nth_none {A} (ps : list A) i (T : Type) : nth i (map (fun _ => @None T) ps) None = None.
Proof. revert i. induction ps as [|p ps IH]; intros [|i]; cbn; auto. Qed.

Lemma struct_facts pid ps vs : snd (prop_spec pid) = MStruct ps vs -> NoDup (map keyword ps) /\ ~ In (bs "VALUE") (map keyword ps).
Proof.
  intros E. destruct (prop_table pid) as [_ T]. rewrite E in T. cbn [struct_ok] in T. rewrite !andb_true_iff in T. destruct T as [[T1 T2] _]. split; [apply distinct_nodup, T1|].
  intros J. apply in_map_iff in J as (q & Q & Iq). rewrite forallb_forall in T2. specialize (T2 q Iq). rewrite Q in T2. discriminate.
Qed.
Lemma values_nonempty : forallb (fun pid => match snd (prop_spec pid) with MStruct _ [] => false | _ => true end) all_props = true.
Proof. vm_compute. reflexivity. Qed.

Lemma Forall2_nth {A B} (R : A -> B -> Prop) (d : B) : forall l l', length l' = length l -> (forall i a, nth_error l i = Some a -> R a (nth i l' d)) -> Forall2 R l l'.
Proof.
  induction l as [|a l IH]; intros [|b l'] L H; cbn [length] in L; try lia; constructor.
  - exact (H 0 a eq_refl).
  - apply IH; [lia|]. intros i x N. exact (H (S i) x N).
Qed.
Lemma nth_error_at {A} (l : list A) : forall i x, nth_error l i = Some x -> exists a b, l = a ++ x :: b /\ length a = i.
Proof. intros i x N. apply nth_error_split in N as (a & b & -> & L). exists a, b. auto. Qed.

(** ** C57: what is read *)
Lemma struct_state pid ps vs cps st : snd (prop_spec pid) = MStruct ps vs -> struct_params ps vs (PState (map (fun _ => None) ps) None []) (groups (params_tokens cps)) = Ok st ->
  Forall2 (param_read cps) ps (ps_params st) /\
  exists a w k b, nth_error vs (match ps_vtype st with Some i => i | None => O end) = Some (w, k) /\ vs = a ++ (w, k) :: b /\ length a = (match ps_vtype st with Some i => i | None => O end) /\ type_read cps vs a w k b.
Proof.
  intros E HS. destruct (struct_facts _ _ _ E) as [ND NV].
  rewrite groups_params in HS.
  pose proof (fun L0 => struct_params_spec ps vs ND _ _ _ L0 HS) as SPEC. cbn [ps_params ps_vtype] in SPEC. destruct (SPEC (map_length _ _)) as (L & HP & HT). clear SPEC.
  assert (NE : vs <> []). { intros ->. pose proof values_nonempty as T. rewrite forallb_forall in T. specialize (T pid (PropProofs.all_props_in pid)). cbv beta in T. rewrite E in T. discriminate. }
  assert (F2 : Forall2 (param_read cps) ps (ps_params st)).
  { apply Forall2_nth with (d := None); [exact L|]. intros i q N. destruct (proj2 (HP i q N) (nth_none _ _ _)) as [[A B]|(a & g & b & x & G & K & NA & NB & D & A)].
    - left. split; [apply given_nil, B|exact A].
    - destruct (given_one _ _ _ _ _ G K NA NB) as (y & GY & ->). right. exists y, x. split; [exact GY|]. split; [exact D|exact A]. }
  split; [exact F2|]. destruct (several vs) eqn:SV.
    - destruct (proj2 (HT eq_refl NV) eq_refl) as [[A B]|(a & g & b & t & j & G & K & NA & NB & T & IX & A)]; rewrite A.
      + destruct vs as [|[w k] vs']; [contradiction|]. exists [], w, k, vs'. repeat split; auto. left. split; [reflexivity|]. left. apply given_nil, B.
      + apply index_of_some in IX. rewrite nth_error_map in IX. destruct (nth_error vs j) as [[w k]|] eqn:NJ; [|discriminate]. injection IX as W. destruct (nth_error_at _ _ _ NJ) as (va & vb & EV & LA).
        exists va, w, k, vb. repeat split; auto. right. destruct (given_one _ _ _ _ _ G K NA NB) as (y & GY & ->). exists y. split; [exact GY|]. unfold group_of in T. cbn [snd map] in T. injection T as T M.
        split; [destruct (cp_more y); [reflexivity|discriminate]|]. subst t. rewrite W. destruct (cp_first y); reflexivity.
    - destruct vs as [|[w k] [|x vs']]; [contradiction| |discriminate SV].
      assert (VT : ps_vtype st = None).
      { clear - HS. revert HS. set (st0 := PState _ _ _). assert (V0 : ps_vtype st0 = None) by reflexivity. revert V0. generalize st0. clear st0. induction (map group_of cps) as [|g gs IH]; intros st0 V0 HS; cbn [struct_params] in HS.
        - apply Ok_inj in HS. subst. exact V0.
        - apply bind_ok in HS as (st1 & H1 & H2). eapply IH; [|exact H2]. unfold struct_param in H1. destruct g as [n tv]. cbn [length Nat.ltb Nat.leb andb] in H1. destruct (param_index n ps).
          + destruct (nth _ _ _); [discriminate|]. apply bind_ok in H1 as (y & _ & H1). apply Ok_inj in H1. subst. exact V0.
          + apply Ok_inj in H1. subst. exact V0. }
      rewrite VT. exists [], w, k, []. repeat split; auto.
Qed.
Theorem struct_read pid ps vs cps d p : snd (prop_spec pid) = MStruct ps vs -> prop_decode pid (params_tokens cps) d = Ok p ->
  exists l a w k b v, p = PStruct l (map (fun _ => None) a ++ Some v :: map (fun _ => None) b) /\ Forall2 (param_read cps) ps l /\ type_read cps vs a w k b /\ kind_of v = k /\ exists m, value_decode k m d = Ok v.
Proof.
  intros E H. unfold prop_decode in H. rewrite E in H. apply bind_ok in H as (st & HS & H). cbv zeta in H. apply bind_ok in H as (v & HV & H). apply Ok_inj in H. subst p.
  destruct (struct_state _ _ _ _ _ E HS) as (F2 & CH).
  destruct CH as (a & w & k & b & N & EV & LA & T). rewrite (nth_error_nth _ _ _ N) in HV. cbn [snd] in HV.
  exists (ps_params st), a, w, k, b, v. split; [|split; [exact F2|split; [exact T|split; [exact (value_kind _ _ _ _ HV)|eexists; exact HV]]]]. f_equal. rewrite EV, map_app. cbn [map]. rewrite <- LA. rewrite <- (map_length (fun _ : bytes * vkind => @None value) a). apply set_nth_at.
Qed.

(** ** C38 *)
Lemma given_two k a x b y c : upper (cp_name x) = k -> upper (cp_name y) = k -> exists u v w r, given k (a ++ x :: b ++ y :: c) = u ++ v :: w :: r.
Proof.
  intros X Y. unfold given. rewrite filter_app. cbn [filter]. rewrite (proj2 (beq_eq _ _) X), filter_app. cbn [filter]. rewrite (proj2 (beq_eq _ _) Y).
  destruct (filter (fun p => beq (upper (cp_name p)) k) b) as [|z bb]; cbn [app]; eauto.
Qed.
Lemma Forall2_in {A B} (R : A -> B -> Prop) l l' : Forall2 R l l' -> forall a, In a l -> exists b, R a b.
Proof. induction 1 as [|a b l l' H _ IH]; intros x []; [subst; eauto|auto]. Qed.
Theorem duplicate_params pid a x b y c d : upper (cp_name x) = upper (cp_name y) -> In (upper (cp_name x)) (known_params (snd (prop_spec pid))) ->
  exists e, prop_decode pid (params_tokens (a ++ x :: b ++ y :: c)) d = Err e.
Proof.
  intros U K. destruct (snd (prop_spec pid)) as [ps vs|ws|k] eqn:E; try destruct K. set (cps := a ++ x :: b ++ y :: c).
  destruct (given_two _ a x b y c eq_refl (eq_sym U)) as (u & v & w & r & G). fold cps in G.
  assert (SAFE : safe (struct_params ps vs (PState (map (fun _ => None) ps) None []) (groups (params_tokens cps)))) by apply struct_params_safe.
  unfold prop_decode in *. rewrite E in *. destruct (struct_params ps vs _ _) as [st|e| |] eqn:SP; cbn [bind] in *; [|eauto|destruct SAFE; congruence|destruct SAFE; congruence].
  exfalso.
  destruct (struct_facts _ _ _ E) as [ND NV]. rewrite groups_params in SP. pose proof (fun L0 => struct_params_spec ps vs ND _ _ _ L0 SP) as SPEC. cbn [ps_params ps_vtype] in SPEC. destruct (SPEC (map_length _ _)) as (L & HP & HT). clear SPEC.
  unfold known_params in K. apply in_app_or in K as [K|K].
  - destruct (Nat.ltb 1 (length vs)) eqn:L1; [|destruct K]. destruct K as [K|[]]. rewrite <- K in G.
    destruct (proj2 (HT L1 NV) eq_refl) as [[A B]|(ga & g & gb & t & j & GG & GK & NA & NB & _)]; [rewrite (given_nil _ _ B) in G; destruct u; discriminate|].
    destruct (given_one _ _ _ _ _ GG GK NA NB) as (z & GZ & _). rewrite GZ in G. destruct u as [|? [|]]; discriminate.
  - apply in_map_iff in K as (q & Q & I). apply In_nth_error in I as (i & N).
    destruct (proj2 (HP i q N) (nth_none _ _ _)) as [[A B]|(ga & g & gb & v' & GG & GK & NA & NB & _)]; [rewrite <- Q in G; change (fst (param_spec q)) with (keyword q) in G; rewrite (given_nil _ _ B) in G; destruct u; discriminate|].
    destruct (given_one _ _ _ _ _ GG GK NA NB) as (z & GZ & _). rewrite <- Q in G. change (fst (param_spec q)) with (keyword q) in G. rewrite GZ in G. destruct u as [|? [|]]; discriminate.
Qed.

(** ** Parameters that a property does not know *)
Definition agree (P : bytes -> Prop) (m m' : pmap) : Prop := forall k, P k -> pmap_get m k = pmap_get m' k.
Definition used (k : bytes) : Prop := k = bs "TZID" \/ k = bs "ENCODING".
Lemma datetime_ext id m m' s : agree used m m' -> datetime_decode id m s = datetime_decode id m' s.
Proof. intros A. unfold datetime_decode. rewrite (A (bs "TZID") (or_introl eq_refl)). reflexivity. Qed.
Lemma rule_ext m m' r f k v : agree used m m' -> recur_rule m r f k v = recur_rule m' r f k v.
Proof. intros A. unfold recur_rule. rewrite (datetime_ext 0 m m' v A). reflexivity. Qed.
Lemma rules_ext m m' : agree used m m' -> forall l r f, recur_rules m r f l = recur_rules m' r f l.
Proof.
  intros A. induction l as [|x l IH]; intros r f; cbn [recur_rules]; [reflexivity|]. destruct (cut _ x) as [[k v]|]; [|reflexivity]. rewrite (rule_ext m m' r f k v A).
  destruct (recur_rule m' r f k v) as [[r' f']| | |]; cbn [bind]; auto.
Qed.
Lemma value_ext m m' k d : agree used m m' -> value_decode k m d = value_decode k m' d.
Proof.
  intros A. destruct k; cbn [value_decode]; try reflexivity; f_equal.
  - unfold binary_decode. rewrite (A (bs "ENCODING") (or_intror eq_refl)). reflexivity.
  - apply datetime_ext, A.
  - unfold period_decode. destruct (cut _ d) as [[a [|c b]]|]; try reflexivity. rewrite (datetime_ext 0 m m' a A), (datetime_ext 1 m m' (c :: b) A). reflexivity.
  - unfold recur_decode. rewrite (rules_ext m m' A). reflexivity.
  - unfold clock_decode. rewrite (A (bs "TZID") (or_introl eq_refl)). reflexivity.
Qed.

Definition same_state (P : bytes -> Prop) (s s' : pstate) : Prop := ps_params s = ps_params s' /\ ps_vtype s = ps_vtype s' /\ agree P (ps_other s) (ps_other s').
Definition same_res (P : bytes -> Prop) (r r' : res pstate) : Prop :=
  match r, r' with Ok s, Ok s' => same_state P s s' | Err e, Err e' => e = e' | Panic, Panic => True | NoFuel, NoFuel => True | _, _ => False end.
Lemma agree_cons P n j m m' : agree P m m' -> agree (fun k => P k \/ k = n) ((n, j) :: m) ((n, j) :: m').
Proof. intros A k H. cbn [pmap_get]. destruct (beq k n) eqn:B; [reflexivity|]. destruct H as [H|H]; [auto|]. apply beq_neq in B. contradiction. Qed.
Lemma struct_param_same P ps vs s s' g : same_state P s s' -> same_res P (struct_param ps vs s g) (struct_param ps vs s' g).
Proof.
  destruct s as [a b m], s' as [a' b' m']. intros (A & B & C). cbn [ps_params ps_vtype ps_other] in *. subst a' b'. unfold struct_param. destruct g as [n tv]. cbn [ps_params ps_vtype ps_other].
  destruct (param_index n ps) as [i|].
  - destruct (nth i a None); [reflexivity|]. destruct (param_decode _ tv); cbn [bind]; [|reflexivity|exact I|exact I]. split; [reflexivity|]. split; [reflexivity|exact C].
  - destruct (_ && _).
    + destruct tv as [|t [|t' tv]]; try reflexivity. destruct b; [reflexivity|]. destruct (index_of _ _); [|reflexivity]. split; [reflexivity|]. split; [reflexivity|exact C].
    + split; [reflexivity|]. split; [reflexivity|]. intros k K. apply (agree_cons P n _ m m' C). left. exact K.
Qed.
Lemma struct_params_same P ps vs : forall gs s s', same_state P s s' -> same_res P (struct_params ps vs s gs) (struct_params ps vs s' gs).
Proof.
  induction gs as [|g gs IH]; intros s s' H; cbn [struct_params]; [exact H|]. pose proof (struct_param_same P ps vs s s' g H) as R.
  destruct (struct_param ps vs s g), (struct_param ps vs s' g); cbn [same_res bind] in *; try contradiction; auto.
Qed.
Lemma same_refl P s : same_state P s s.
Proof. repeat split. Qed.
Lemma unknown_param ps vs st g : ~ In (fst g) ((if several vs then [bs "VALUE"] else []) ++ map keyword ps) ->
  struct_param ps vs st g = Ok (PState (ps_params st) (ps_vtype st) ((fst g, join_values (snd g)) :: ps_other st)).
Proof.
  intros N. unfold struct_param. destruct g as [n tv]. cbn [fst snd] in *. assert (PI : param_index n ps = None) by (apply index_of_none; intros I; apply N, in_or_app; right; exact I). rewrite PI.
  destruct (Nat.ltb 1 (length vs)) eqn:L; [|reflexivity]. cbn [andb]. destruct (beq n (bs "VALUE")) eqn:B; [|reflexivity]. exfalso. apply N, in_or_app. left. unfold several. rewrite L. apply beq_eq in B. left. auto.
Qed.

(** An entry that is not used may be left out. *)
Lemma drop_unused ps vs st a g b : ~ In (fst g) ((if several vs then [bs "VALUE"] else []) ++ map keyword ps) -> ~ used (fst g) ->
  same_res used (struct_params ps vs st (a ++ g :: b)) (struct_params ps vs st (a ++ b)).
Proof.
  intros N U. rewrite !struct_params_app. destruct (struct_params ps vs st a) as [s| | |]; cbn [bind]; [|reflexivity|exact I|exact I].
  cbn [struct_params]. rewrite unknown_param by exact N. cbn [bind]. apply struct_params_same. split; [reflexivity|]. split; [reflexivity|]. cbn [ps_other]. intros k K. cbn [pmap_get].
  destruct (beq k (fst g)) eqn:B; [|reflexivity]. apply beq_eq in B. subst k. contradiction.
Qed.
(** One that is given again later may be left out. *)
Lemma drop_earlier ps vs st a g b g' c : ~ In (fst g) ((if several vs then [bs "VALUE"] else []) ++ map keyword ps) -> fst g' = fst g ->
  same_res (fun _ => True) (struct_params ps vs st (a ++ g :: b ++ g' :: c)) (struct_params ps vs st (a ++ b ++ g' :: c)).
Proof.
  intros N E. rewrite !struct_params_app. destruct (struct_params ps vs st a) as [s| | |]; cbn [bind]; [|reflexivity|exact I|exact I].
  cbn [struct_params]. rewrite unknown_param by exact N. cbn [bind]. rewrite !struct_params_app.
  assert (H : same_state (fun k => k <> fst g) (PState (ps_params s) (ps_vtype s) ((fst g, join_values (snd g)) :: ps_other s)) s).
  { split; [reflexivity|]. split; [reflexivity|]. cbn [ps_other]. intros k K. cbn [pmap_get]. destruct (beq k (fst g)) eqn:B; [|reflexivity]. apply beq_eq in B. contradiction. }
  pose proof (struct_params_same _ ps vs b _ _ H) as R.
  destruct (struct_params ps vs _ b) as [s1| | |], (struct_params ps vs s b) as [s2| | |]; cbn [same_res bind] in *; try contradiction; auto.
  cbn [struct_params]. rewrite !unknown_param by (rewrite E; exact N). cbn [bind]. apply struct_params_same. destruct R as (R1 & R2 & R3). split; [exact R1|]. split; [exact R2|]. cbn [ps_other]. intros k _.
  apply (agree_cons (fun k => k <> fst g) (fst g') _ _ _ R3). rewrite E. destruct (beq k (fst g)) eqn:B; [right; apply beq_eq, B|left; apply beq_neq, B].
Qed.

Definition other_step (m : pmap) (g : bytes * list token) : pmap := (fst g, join_values (snd g)) :: m.
Lemma fold_same P : forall gs m m', agree P m m' -> agree P (fold_left other_step gs m) (fold_left other_step gs m').
Proof. induction gs as [|g gs IH]; intros m m' A; [exact A|]. cbn [fold_left]. apply IH. intros k K. apply (agree_cons P _ _ m m' A). left. exact K. Qed.

Lemma same_decode (P : bytes -> Prop) (ps vs : list (bytes * vkind)) d (st st' : res pstate) : (forall k, used k -> P k) -> same_res P st st' ->
  (let! st := st in let i := match ps_vtype st with Some i => i | None => O end in
   let! v := value_decode (snd (nth i vs ([], KText))) (ps_other st) d in Ok (PStruct (ps_params st) (set_nth i (Some v) (map (fun _ : bytes * vkind => None) ps)))) =
  (let! st := st' in let i := match ps_vtype st with Some i => i | None => O end in
   let! v := value_decode (snd (nth i vs ([], KText))) (ps_other st) d in Ok (PStruct (ps_params st) (set_nth i (Some v) (map (fun _ : bytes * vkind => None) ps)))).
Proof.
  intros I R. destruct st as [s| | |], st' as [s'| | |]; cbn [same_res bind] in *; try contradiction; try reflexivity; [|congruence].
  destruct R as (R1 & R2 & R3). rewrite R1, R2. cbv zeta. rewrite (value_ext (ps_other s) (ps_other s')); [reflexivity|]. intros k K. apply R3, I, K.
Qed.

Theorem unknown_params_ignored pid a x b d : ~ In (upper (cp_name x)) (known_params (snd (prop_spec pid))) -> ~ used (upper (cp_name x)) ->
  prop_decode pid (params_tokens (a ++ x :: b)) d = prop_decode pid (params_tokens (a ++ b)) d.
Proof.
  intros N U. unfold prop_decode. rewrite !groups_params. destruct (snd (prop_spec pid)) as [ps vs|ws|k]; [|reflexivity|].
  - apply (same_decode used); [auto|]. rewrite !map_app. cbn [map]. apply drop_unused; [exact N|exact U].
  - cbv zeta. rewrite !map_app. cbn [map]. rewrite !fold_left_app. cbn [fold_left].
    match goal with |- bind (value_decode k ?m d) _ = bind (value_decode k ?m' d) _ => rewrite (value_ext m m'); [reflexivity|] end.
    apply (fold_same used (map group_of b)). intros k' K. cbn [pmap_get]. destruct (beq k' _) eqn:B; [|reflexivity]. apply beq_eq in B. subst k'. contradiction.
Qed.
Theorem last_param_wins pid a x b y c d : ~ In (upper (cp_name x)) (known_params (snd (prop_spec pid))) -> upper (cp_name y) = upper (cp_name x) ->
  prop_decode pid (params_tokens (a ++ x :: b ++ y :: c)) d = prop_decode pid (params_tokens (a ++ b ++ y :: c)) d.
Proof.
  intros N U. unfold prop_decode. rewrite !groups_params. destruct (snd (prop_spec pid)) as [ps vs|ws|k]; [|reflexivity|].
  - apply (same_decode (fun _ => True)); [auto|]. rewrite !map_app. cbn [map]. rewrite map_app. cbn [map]. apply drop_earlier; [exact N|exact U].
  - cbv zeta. rewrite !map_app. cbn [map]. rewrite map_app. cbn [map]. rewrite !fold_left_app. cbn [fold_left]. rewrite !fold_left_app. cbn [fold_left].
    match goal with |- bind (value_decode k ?m d) _ = bind (value_decode k ?m' d) _ => rewrite (value_ext m m'); [reflexivity|] end.
    intros k' _. apply (fold_same (fun _ => True) (map group_of c)); [|exact I]. intros k2 _. cbn [fst group_of]. rewrite U. unfold group_of at 1 3. cbn [fst snd].
    match goal with |- pmap_get ((?n, ?j) :: ?m) k2 = pmap_get (_ :: ?m') k2 => apply (agree_cons (fun q => q <> n) n j m m') end.
    + apply (fold_same (fun q => q <> upper (cp_name x)) (map group_of b)). intros k3 K. cbn [pmap_get fst group_of]. destruct (beq k3 _) eqn:B; [|reflexivity]. apply beq_eq in B. contradiction.
    + destruct (beq k2 (upper (cp_name x))) eqn:B; [right; apply beq_eq, B|left; apply beq_neq, B].
Qed.

(** ** C37: addresses without quotes *)
Lemma params_encode_app a : forall la b lb, length la = length a -> params_encode (a ++ b) (la ++ lb) = params_encode a la ++ params_encode b lb.
Proof.
  induction a as [|q a IH]; intros [|o la] b lb L; cbn [length] in L; try lia; [reflexivity|]. cbn [app params_encode].
  destruct o; rewrite IH by lia; [rewrite app_assoc|]; reflexivity.
Qed.
Lemma wrs_cons ws b tr : wrs ws = Wr b :: tr -> exists r, ws = b :: r /\ wrs r = tr.
Proof. destruct ws as [|x ws]; [discriminate|]. cbn [wrs map]. intros E. injection E as -> E. exists ws. auto. Qed.
Lemma wrs_prefix a : forall ws tr, wrs ws = wrs a ++ tr -> exists r, ws = a ++ r /\ wrs r = tr.
Proof.
  induction a as [|x a IH]; intros ws tr E; [exists ws; auto|]. cbn [wrs map app] in E. apply wrs_cons in E as (r & -> & E). destruct (IH r tr E) as (r' & -> & E'). exists r'. auto.
Qed.
Lemma Forall2_len {A B} (R : A -> B -> Prop) l l' : Forall2 R l l' -> length l = length l'.
Proof. induction 1; cbn [length]; congruence. Qed.
Lemma bare_encode key k v : bare_address k v -> exists u tr, param_encode key k v = Wr (bs ";" ++ key ++ bs "=") :: Wr u :: tr /\ heads (fun c => c <> DQ) u.
Proof.
  intros [u c r E N|u l c r E N]; cbn [param_encode]; rewrite ?E; cbn [isnil].
  - exists (c :: r), []. rewrite <- E. split; [reflexivity|]. rewrite E. exists c, r. auto.
  - exists (c :: r). eexists. rewrite <- E. split; [reflexivity|]. rewrite E. exists c, r. auto.
Qed.
Lemma bare_refused k v w more : bare_address k v -> forall x, param_decode k (pvalue_token (Plain w) :: more) <> Ok x.
Proof.
  intros [u c r E N|u l c r E N] x H; cbn [param_decode] in H.
  - destruct more; cbn [one_value bind] in H; discriminate.
  - cbn [mapM] in H. discriminate.
Qed.

Theorem bare_address_lost pid ps vs a q b la v lb vl ws l : snd (prop_spec pid) = MStruct ps vs -> ps = a ++ q :: b ->
  Forall2 (fun q o => forall v, o = Some v -> param_good (snd (param_spec q)) v) a la -> bare_address (snd (param_spec q)) v ->
  prop_encode pid (PStruct (la ++ Some v :: lb) vl) = wrs ws -> cline_wf l = true -> concat ws = cline_render l ++ CRLF ->
  exists e, prop_decode pid (params_tokens (cl_params l)) (cl_value l) = Err e.
Proof.
  intros E -> F B P W C. destruct (struct_facts _ _ _ E) as [ND NV].
  assert (NOK : exists x w, In x (cl_params l) /\ cp_name x = keyword q /\ cp_first x = Plain w).
  { destruct (params_rt vs None [] a la F [] [] eq_refl) as (cps & ws1 & E1 & C1 & W1 & _).
    { rewrite map_app in ND. apply NoDup_remove_1 in ND. cbn [app]. clear - ND. induction a as [|x a IH]; cbn [map app] in *; [constructor|]. apply NoDup_cons_iff in ND as [N D]. constructor; [|auto]. intros I. apply N, in_or_app. auto. }
    destruct (prop_table pid) as [KW _]. unfold prop_encode in P. destruct (prop_spec pid) as [key k]. cbn [snd fst] in *. subst k. destruct (name_word_facts _ KW) as (_ & _ & KC).
    rewrite params_encode_app in P by (symmetry; eapply Forall2_len; exact F). rewrite E1 in P. cbn [params_encode] in P. destruct (bare_encode (keyword q) _ _ B) as (u & tr & BE & HU).
    change (pkind_of q) with (snd (param_spec q)) in P. rewrite BE in P. symmetry in P. apply wrs_cons in P as (r & -> & P). rewrite <- !app_assoc in P. apply wrs_prefix in P as (r1 & -> & P). cbn [app] in P.
    apply wrs_cons in P as (r2 & -> & P). apply wrs_cons in P as (r3 & -> & P).
    cbn [concat] in C. rewrite concat_app in C. cbn [concat] in C. rewrite C1 in C. unfold cline_render in C. unfold cline_wf in W. rewrite !andb_true_iff in W. destruct W as [[[_ WN] WP] WV]. rewrite <- !app_assoc in C.
    apply (span_cancel name_char) in C as [_ C]; auto.
    - cbn [app] in C. eapply unquoted_found with (kw := keyword q) (u := u); [exact W1|exact WP| |exact HU|]; [|rewrite <- !app_assoc; exact C].
      destruct (param_table q) as [T _]. apply name_word_facts in T as (_ & _ & T). exact T.
    - eapply heads_imp; [|apply params_head; eexists _, _; split; [reflexivity|left; reflexivity]]. intros c [<-|[<-|[]]]; reflexivity.
    - eapply heads_imp; [|apply params_head; eexists _, _; split; [reflexivity|right; left; reflexivity]]. intros c [<-|[<-|[]]]; reflexivity. }
  destruct NOK as (x & w & I & XN & XF).
  assert (SAFE : safe (struct_params (a ++ q :: b) vs (PState (map (fun _ => None) (a ++ q :: b)) None []) (groups (params_tokens (cl_params l))))) by apply struct_params_safe.
  unfold prop_decode. rewrite E. destruct (struct_params (a ++ q :: b) vs _ _) as [st|e| |] eqn:SP; cbn [bind]; [exfalso|eauto|destruct SAFE; congruence|destruct SAFE; congruence].
  rewrite groups_params in SP. pose proof (fun L0 => struct_params_spec _ vs ND _ _ _ L0 SP) as SPEC. cbn [ps_params ps_vtype] in SPEC. destruct (SPEC (map_length _ _)) as (L & HP & HT). clear SPEC HT.
  assert (N : nth_error (a ++ q :: b) (length a) = Some q) by (rewrite nth_error_app2, Nat.sub_diag by lia; reflexivity).
  assert (NM : named (keyword q) (map group_of (cl_params l))).
  { exists (group_of x). split; [apply in_map, I|]. unfold group_of. cbn [fst]. rewrite XN. destruct (param_table q) as [T _]. apply name_word_facts in T as (_ & T & _). exact T. }
  destruct (proj2 (HP _ _ N) (nth_none _ _ _)) as [[_ B']|(ga & g & gb & v' & GG & GK & NA & NB & D & _)]; [contradiction|].
  assert (IG : In (group_of x) (ga ++ g :: gb)) by (rewrite <- GG; apply in_map, I). assert (KX : fst (group_of x) = keyword q). { unfold group_of. cbn [fst]. rewrite XN. destruct (param_table q) as [T _]. apply name_word_facts in T as (_ & T & _). exact T. }
  apply in_app_or in IG as [IG|[IG|IG]]; [apply NA; exists (group_of x); auto| |apply NB; exists (group_of x); auto]. subst g. unfold group_of in D. cbn [snd] in D. rewrite XF in D. cbn [map] in D. exact (bare_refused _ _ _ _ B _ D).
Qed.

(** ** Enumerated properties *)
Theorem enum_prop_spec pid ws : snd (prop_spec pid) = MEnum ws ->
  (forall n w t cps, nth_error ws n = Some w -> map up_ascii t = w -> prop_decode pid cps t = Ok (PEnum (Z.of_nat n))) /\
  (forall cps t p, prop_decode pid cps t = Ok p -> exists n w, nth_error ws n = Some w /\ upper t = w /\ p = PEnum (Z.of_nat n)).
Proof.
  intros E. destruct (prop_table pid) as [_ T]. rewrite E in T. cbn [struct_ok] in T. unfold words_ok in T. apply andb_true_iff in T as [Ds Us].
  apply distinct_nodup in Ds. rewrite forallb_forall in Us. unfold prop_decode. rewrite E. split.
  - intros n w t cps N M. rewrite (upper_any t w (Us w (nth_error_In _ _ N)) M), (index_of_nth _ Ds _ _ N). reflexivity.
  - intros cps t p H. destruct (index_of (upper t) ws) as [n|] eqn:I; [|discriminate]. apply Ok_inj in H. exists n, (upper t). apply index_of_some in I. auto.
Qed.
End G.
