(** What Decode returns and Encode refuses. *)
From Coq Require Import String Ascii ZArith Bool List Lia.
From Verif Require Import Base Lib Utf8 Utf8Proofs GoStrings Strtok Tokeniser SpecContent TokeniserProofs GoTime Types SpecText TextProofs SpecDuration DurationProofs RecurProofs Params ParamTable PropTable Props SecTable Sections Folder Codec SpecTree TreeProofs ExactProofs SpecRules ShapeProofs RulesProofs EncodeProofs PrefixProofs SpecParams ParamProofs CaseProofs SpecProps PropProofs HangProofs GroupProofs SpecCal.
Import ListNotations.
Local Open Scope Z_scope.

(** ** Texts *)
Definition tame (c : byte) : Prop := value_char c = true \/ c = LF.
Lemma tame_valid x : Forall tame x -> contains_any x nonsafe31 = false.
Proof.
  intros F. apply contains_any_false. intros c I N. rewrite Forall_forall in F. specialize (F c I). apply inset_In in N.
  pose proof (byte_forall (fun c => negb (inset c nonsafe31) || (negb (value_char c) && negb (beqc c LF))) ltac:(vm_compute; reflexivity) c) as B. cbv beta in B. rewrite N in B. cbn [negb orb] in B.
  apply andb_true_iff in B as [B1 B2]. destruct F as [F| ->]; [rewrite F in B1; discriminate|discriminate].
Qed.
Lemma tame_rune c s : value_char c = true -> Forall tame (encode_rune (fst (decode_rune (c :: s)))).
Proof.
  intros V. destruct (Z.lt_ge_cases (code c) 128) as [L|G].
  - rewrite decode_rune_ascii by exact L. cbn [fst]. pose proof (code_range c). rewrite encode_rune_low by lia. rewrite chr_code. repeat constructor. exact V.
  - pose proof (decode_rune_high c s G) as H. destruct (decode_rune (c :: s)) as [r w]. destruct H as [H _]. cbn [fst]. eapply Forall_impl; [|apply encode_rune_high, H]. intros b Hb. left. apply high_value, Hb.
Qed.
Lemma skipn_all_chars (p : byte -> bool) n s : forallb p s = true -> forallb p (skipn n s) = true.
Proof. revert s. induction n as [|n IH]; intros [|c s] H; auto. cbn [forallb skipn] in *. apply andb_true_iff in H as [_ H]. auto. Qed.
Lemma reads_tame s t rest : SpecText.reads s t rest -> forallb value_char s = true -> Forall tame t /\ forallb value_char rest = true.
Proof.
  induction 1 as [|c s E|c s t rest E1 E2 R IH|e s t rest E R IH|e s t rest E R IH|c s t rest E1 E2 E3 E4 R IH|]; intros V; cbn [forallb] in V; rewrite ?andb_true_iff in V.
  - split; [constructor|reflexivity].
  - split; [constructor|]. cbn [forallb]. rewrite andb_true_iff. exact V.
  - destruct V as [V1 V2]. destruct (IH V2) as [A B]. split; [constructor; [left; exact V1|exact A]|exact B].
  - destruct V as [_ [V1 V2]]. destruct (IH V2) as [A B]. split; [constructor; [left; exact V1|exact A]|exact B].
  - destruct V as [_ [_ V2]]. destruct (IH V2) as [A B]. split; [constructor; [right; reflexivity|exact A]|exact B].
  - destruct V as [_ [V1 V2]]. assert (VC : forallb value_char (c :: s) = true) by (cbn [forallb]; rewrite V1, V2; reflexivity). destruct (IH (skipn_all_chars _ _ _ VC)) as [A B]. split; [|exact B]. constructor; [left; reflexivity|]. apply Forall_app. split; [apply tame_rune, V1|exact A].
  - split; [|reflexivity]. constructor; [left; reflexivity|]. eapply Forall_impl; [|apply encode_rune_high; unfold RuneError; lia]. intros b Hb. left. apply high_value, Hb.
Qed.
Lemma text_tame s t : text_decode s = Ok t -> forallb value_char s = true -> text_valid t = None.
Proof. intros D V. apply text_decode_reads in D. unfold text_valid. rewrite (tame_valid t); [reflexivity|]. exact (proj1 (reads_tame _ _ _ D V)). Qed.
Lemma mtext_valid_all l : Forall (fun t => Forall tame t) l -> mtext_valid l = None.
Proof. induction 1 as [|t l T _ IH]; [reflexivity|]. cbn [mtext_valid]. unfold text_valid. rewrite (tame_valid t T). exact IH. Qed.
Lemma mtext_loop_tame : forall f n acc s l, forallb value_char s = true -> (length s < n)%nat -> Forall (fun t => Forall tame t) acc -> mtext_loop f n acc (Tok [] s) = Ok l -> Forall (fun t => Forall tame t) l.
Proof.
  induction f as [|f IH]; intros n acc s l V N A H; [discriminate|]. cbn [mtext_loop] in H. destruct (reads_total (length s) s (le_n _)) as (t & rest & R).
  rewrite (decode_text_reads s t rest R) in H by exact N. cbn [bind peek trest app] in H. destruct (reads_tame _ _ _ R V) as [T VR].
  assert (A' : Forall (fun t => Forall tame t) (acc ++ [t])) by (apply Forall_app; split; [exact A|repeat constructor; exact T]).
  destruct rest as [|c rest]; [apply Ok_inj in H; subst; exact A'|]. cbn [peek trest] in H. destruct (beqc c ",") eqn:C; [|discriminate H]. apply beqc_eq in C. subst c.
  rewrite accept_hit in H by reflexivity. cbn [get trest] in H. apply TotalProofs.reads_length in R. cbn [length forallb] in R, VR. apply andb_true_iff in VR as [_ VR]. apply (IH n (acc ++ [t]) rest l VR); [lia|exact A'|exact H].
Qed.
Lemma code_reads_tame s t : code_reads s t -> forallb value_char s = true -> Forall tame t.
Proof.
  assert (AP : forall u s, forallb value_char (u ++ s) = true -> Forall tame u /\ forallb value_char s = true).
  { clear. intros u s V. rewrite forallb_app, andb_true_iff in V. destruct V as [V1 V2]. split; [|exact V2]. apply Forall_forall. intros c I. left. rewrite forallb_forall in V1. auto. }
  induction 1 as [|c s t N R IH|s t R IH|s t R IH|s t R IH|c s u t N L R IH|]; intros V; cbn [forallb] in V; rewrite ?andb_true_iff in V.
  - constructor.
  - destruct V as [V1 V2]. constructor; [left; exact V1|auto].
  - destruct V as (_ & _ & V). constructor; [right; reflexivity|]. repeat (constructor; [left; reflexivity|]). auto.
  - destruct V as (_ & _ & V). repeat (constructor; [left; reflexivity|]). auto.
  - destruct V as (_ & _ & V). repeat (constructor; [left; reflexivity|]). auto.
  - destruct V as (_ & V1 & V). destruct (AP u s V) as [U V']. repeat (constructor; [left; reflexivity|]). constructor; [left; exact V1|]. apply Forall_app. auto.
  - repeat constructor.
Qed.

Lemma loop_neg : forall f d level t d', duration_loop f d level t = Ok d' -> d_neg d' = d_neg d.
Proof.
  induction f as [|f IH]; intros d level t d' H; [discriminate|]. cbn [duration_loop] in H.
  repeat match type of H with
  | Ok _ = Ok _ => apply Ok_inj in H; subst d'; reflexivity
  | duration_loop _ _ _ _ = _ => apply IH in H; exact H
  | context [match ?x with _ => _ end] => destruct x; try discriminate H
  end.
Qed.

Section E.
Context {env : Env}.

(** ** Values *)
Lemma go_date_loc y m d h mi s ns l : t_loc (go_date y m d h mi s ns l) = l.
Proof. unfold go_date; cbv zeta; destruct (lookup l _) as [[? ?] ?]; reflexivity. Qed.
Lemma parse_datetime_loc z s l t : parse_datetime z s l = Some t -> t_loc t = l.
Proof.
  unfold parse_datetime. destruct (parse_ymd s) as [[[[y m] d] s1]|]; [|discriminate]. cbn [obind]. destruct (lit _ s1) as [s2|]; [|discriminate]. cbn [obind].
  destruct (parse_hms s2) as [[[[[h mi] x] ns] s3]|]; [|discriminate]. cbn [obind]. destruct (if z then lit _ s3 else Some s3) as [s4|]; [|discriminate]. cbn [obind].
  destruct s4; [|discriminate]. intros Q. injection Q as <-. apply go_date_loc.
Qed.
Lemma datetime_loc id m s t : datetime_decode id m s = Ok t -> t_loc t = LUTC \/ t_loc t = LLocal \/ exists z, t_loc t = LZone z id.
Proof.
  unfold datetime_decode. destruct (pmap_get m (bs "TZID")) as [tz|].
  - destruct (load_location id tz) as [l|] eqn:L; [|discriminate]. destruct (parse_datetime false s l) eqn:P; [|discriminate]. intros H. apply Ok_inj in H. subst. apply parse_datetime_loc in P. rewrite P.
    unfold load_location in L. destruct (beq tz [] || beq tz (bs "UTC")); [injection L as <-; auto|]. destruct (beq tz (bs "Local")); [injection L as <-; auto|]. destruct (has_dotdot tz); [discriminate|].
    destruct tz as [|c tz]; [discriminate|]. destruct (_ || _); [discriminate|]. destruct (load_zone _) as [z|]; [|discriminate]. injection L as <-. right. right. exists z. reflexivity.
  - destruct (ends_with _ s).
    + destruct (parse_datetime true s LUTC) eqn:P; [|discriminate]. intros H. apply Ok_inj in H. subst. apply parse_datetime_loc in P. auto.
    + destruct (parse_datetime false s LLocal) eqn:P; [|discriminate]. intros H. apply Ok_inj in H. subst. apply parse_datetime_loc in P. auto.
Qed.
Lemma is_zero_spec t : is_zero t = true <-> year_one t.
Proof. unfold is_zero, year_one. change zero_sec with (-62135596800). lia. Qed.
Lemma after_spec a b : after a b = true <-> later a b.
Proof. unfold after, later. lia. Qed.
Lemma float_valid_spec f : float_valid f = None <-> ~ finite f.
Proof. destruct f; cbn; split; try tauto; try congruence; intuition discriminate. Qed.

Lemma value_refused k m d v : value_decode k m d = Ok v -> forallb value_char d = true -> (value_valid v = None <-> ~ refused v).
Proof.
  intros D V. assert (TRUE : forall P : Prop, P -> (P <-> ~ False)) by tauto.
  destruct k; cbn [value_decode] in D; unfold rmap in D; apply bind_ok in D as (x & D & E); apply Ok_inj in E; subst v; cbn [value_valid refused];
    try (apply TRUE; reflexivity); try (unfold time_valid; pose proof (is_zero_spec x) as Z; destruct (is_zero x); split; [discriminate|intros H; destruct H; apply Z; reflexivity|intros _ H; apply Z in H; discriminate|reflexivity]).
  - apply float_valid_spec.
  - destruct x as [a b]. unfold tfloat_valid. cbn [fst snd]. pose proof (float_valid_spec a) as A. pose proof (float_valid_spec b) as B. destruct (float_valid a); [|rewrite B; tauto].
    split; [discriminate|]. intros H. assert (Some g = None) by (apply A; tauto). discriminate.
  - unfold period_valid. pose proof (is_zero_spec (p_start x)) as Z. destruct (is_zero (p_start x)); [split; [discriminate|intros H; destruct H; left; apply Z; reflexivity]|].
    pose proof (is_zero_spec (p_end x)) as Ze. unfold period_decode in D. destruct (cut _ d) as [[a b]|]; [|discriminate]. destruct b as [|c b]; [discriminate|]. apply bind_ok in D as (st & DS & D).
    destruct (beqc c "P" || beqc c "+") eqn:C.
    + apply bind_ok in D as (du & DD & D). apply Ok_inj in D. subst x. cbn [p_end p_start p_dur] in *. change (is_zero zero_time) with true in *. cbv iota. assert (d_neg du = false) as ->.
      { unfold duration_decode in DD. apply orb_true_iff in C. assert (NM : accept (bs "-") (new_tok (c :: b)) = (false, new_tok (c :: b))) by (destruct C as [C|C]; apply beqc_eq in C; subst c; reflexivity).
        rewrite NM in DD. cbv beta iota zeta in DD. destruct (accept (bs "+") (new_tok (c :: b))) as [q t]. destruct (accept (bs "P") t) as [q' t']. destruct q'; [|discriminate]. apply loop_neg in DD. exact DD. }
      split; [|reflexivity]. intros _ [H|[H _]]; [apply Z in H; discriminate|]. apply H, Ze. reflexivity.
    + apply bind_ok in D as (en & DE & D). apply Ok_inj in D. subst x. cbn [p_end p_start p_dur] in *. destruct (is_zero en).
      * change (d_neg zero_duration) with false. cbv iota. split; [|reflexivity]. intros _ [H|[H _]]; [apply Z in H; discriminate|]. apply H, Ze. reflexivity.
      * assert (LS : loc_same (t_loc st) (t_loc en) = true <-> same_clock st en).
        { unfold same_clock. destruct (datetime_loc _ _ _ _ DS) as [A|[A|(za & A)]], (datetime_loc _ _ _ _ DE) as [B|[B|(zb & B)]]; rewrite A, B; cbn [loc_same Nat.eqb]; split; intros Q; try discriminate; auto;
            destruct Q as [[Q1 Q2]|[Q1 Q2]]; discriminate. }
        pose proof (after_spec en st) as AF. destruct (after en st), (loc_same (t_loc st) (t_loc en)); cbn [negb orb].
        -- split; [|reflexivity]. intros _ [H|[_ [H|H]]]; [apply Z in H; discriminate|apply H, AF; reflexivity|apply H, LS; reflexivity].
        -- split; [discriminate|]. intros H. destruct H. right. split; [intros Q; apply Ze in Q; discriminate|]. right. intros Q. apply LS in Q. discriminate.
        -- split; [discriminate|]. intros H. destruct H. right. split; [intros Q; apply Ze in Q; discriminate|]. left. intros Q. apply AF in Q. discriminate.
        -- split; [discriminate|]. intros H. destruct H. right. split; [intros Q; apply Ze in Q; discriminate|]. left. intros Q. apply AF in Q. discriminate.
  - apply TRUE. apply recur_decoded in D. apply recur_valid_range, D.
  - apply TRUE. eapply text_tame; eauto.
  - apply TRUE. apply mtext_valid_all. unfold mtext_decode in D. eapply mtext_loop_tame; [exact V| |constructor|exact D]. apply Nat.lt_succ_diag_r.
Qed.

(** ** Parameters *)
Lemma values_chars x t : cparam_wf x = true -> In t (param_values x) -> forallb value_char (t_data t) = true.
Proof.
  unfold cparam_wf. rewrite !andb_true_iff. intros [[_ F] M] I. assert (ALL : forall v, In v (cp_first x :: cp_more x) -> pvalue_wf v = true).
  { intros v [<-|J]; [exact F|]. rewrite forallb_forall in M. auto. }
  unfold param_values in I. apply in_map_iff in I as (v & <- & J). apply ALL in J. destruct v as [v|v]; cbn [pvalue_token t_data pvalue_wf] in *.
  - eapply forallb_imp; [|exact J]. intros c H. apply andb_true_iff in H. apply H.
  - eapply forallb_imp; [|exact J]. intros c H. unfold safe_char, quoted_char in H. rewrite !andb_true_iff in H. tauto.
Qed.
Lemma decode6868_valid s : forallb value_char s = true -> contains_any (decode6868 s) nonsafe31 = false.
Proof. intros V. apply tame_valid. eapply code_reads_tame; [apply decode6868_reads|exact V]. Qed.
Lemma one_value_in vs t : one_value vs = Ok t -> In t vs.
Proof. unfold one_value. destruct vs as [|a [|b vs]]; try discriminate. intros H. apply Ok_inj in H. subst. left. reflexivity. Qed.
Lemma quoted_data_eq t d : quoted_data t = Ok d -> d = t_data t.
Proof. unfold quoted_data. destruct (ttype_eqb _ _); [|discriminate]. intros H. apply Ok_inj in H. auto. Qed.
Lemma param_decoded_valid k x v : cparam_wf x = true -> param_decode k (param_values x) = Ok v -> param_valid k v = None.
Proof.
  intros W H. pose proof (fun t => values_chars x t W) as C. revert C H. generalize (param_values x). intros vs C H. destruct k as [|q| | |free ws|w| |]; cbn [param_decode] in H.
  - apply bind_ok in H as (t & _ & H). apply bind_ok in H as (d & _ & H). apply bind_ok in H as (u & _ & H). apply Ok_inj in H. subst v. reflexivity.
  - apply bind_ok in H as (t & T & H). apply bind_ok in H as (d & D & H). apply Ok_inj in H. subst v. cbn [param_valid]. apply one_value_in in T. rewrite decode6868_valid; [reflexivity|].
    assert (d = t_data t) as ->; [|auto]. destruct q; [apply quoted_data_eq, D|apply Ok_inj in D; auto].
  - apply bind_ok in H as (l & L & H). apply Ok_inj in H. subst v. cbn [param_valid]. assert (existsb (fun s => contains_any s nonsafe31) l = false) as ->; [|reflexivity].
    revert l L. induction vs as [|t vs IH]; intros l L; cbn [mapM] in L; [apply Ok_inj in L; subst; reflexivity|]. apply bind_ok in L as (a & A & L). apply bind_ok in L as (l' & L' & L). apply Ok_inj in L. subst l.
    apply bind_ok in A as (d & D & A). apply Ok_inj in A. subst a. apply quoted_data_eq in D. subst d. cbn [existsb]. rewrite decode6868_valid by (apply C; left; reflexivity). cbn [orb]. apply IH; [|exact L']. intros t' I. apply C. right. exact I.
  - apply bind_ok in H as (l & _ & H). apply Ok_inj in H. subst v. reflexivity.
  - apply bind_ok in H as (t & T & H). destruct (index_of _ ws) as [n|] eqn:IX.
    + apply Ok_inj in H. subst v. cbn [param_valid]. destruct free; [reflexivity|]. cbn [enum_base]. apply index_of_some in IX. assert (n < length ws)%nat by (apply nth_error_Some; congruence).
      assert (Utf8.in_range 0 (Z.of_nat (length ws) - 1) (Z.of_nat n + 0) = true) as -> by (unfold Utf8.in_range; apply andb_true_iff; split; apply Z.leb_le; lia). reflexivity.
    + destruct free; [|discriminate]. apply Ok_inj in H. subst v. reflexivity.
  - apply bind_ok in H as (t & _ & H). destruct (beq _ _); [|discriminate]. apply Ok_inj in H. subst v. reflexivity.
  - apply bind_ok in H as (t & _ & H). destruct (regex_match _) eqn:R; [|discriminate]. apply Ok_inj in H. subst v. cbn [param_valid]. rewrite R. reflexivity.
  - apply bind_ok in H as (t & _ & H). apply bind_ok in H as (b & _ & H). apply Ok_inj in H. subst v. reflexivity.
Qed.
Lemma params_decoded_valid cps : forallb cparam_wf cps = true -> forall ps l, Forall2 (param_read cps) ps l -> params_valid ps l = None.
Proof.
  intros W. induction 1 as [|q o ps l R _ IH]; [reflexivity|]. cbn [params_valid]. destruct R as [[_ ->]|(x & v & G & D & ->)]; [exact IH|].
  unfold pkind_of. rewrite (param_decoded_valid _ x v); [exact IH| |exact D]. rewrite forallb_forall in W. apply W. assert (In x (given (fst (param_spec q)) cps)) by (rewrite G; left; reflexivity).
  unfold given in H. apply filter_In in H. apply H.
Qed.

(** ** Properties *)
Lemma values_none {A} (a : list A) rest : values_valid (map (fun _ => None) a ++ rest) = values_valid rest.
Proof. induction a as [|x a IH]; [reflexivity|exact IH]. Qed.
Lemma filter_none {A B} (a : list A) : filter is_some (map (fun _ => @None B) a) = [].
Proof. induction a as [|x a IH]; [reflexivity|exact IH]. Qed.
Lemma in_none {A B} (a : list A) (v : B) : ~ In (Some v) (map (fun _ => None) a).
Proof. intros I. apply in_map_iff in I as (x & Q & _). discriminate. Qed.
Theorem prop_refused pid l p : cline_wf l = true -> prop_decode pid (params_tokens (cl_params l)) (cl_value l) = Ok p -> (prop_valid pid p = None <-> forall v, prop_value p v -> ~ refused v).
Proof.
  intros W D. unfold cline_wf in W. rewrite !andb_true_iff in W. destruct W as [[_ WP] WV]. unfold prop_valid. destruct (snd (prop_spec pid)) as [ps vs|ws|k] eqn:E.
  - destruct (struct_read _ _ _ _ _ _ E D) as (lp & a & w & k & b & v & -> & F2 & (EV & _) & K & m & DV). rewrite (params_decoded_valid _ WP _ _ F2).
    rewrite filter_app, filter_none. cbn [filter is_some app]. rewrite filter_none. cbn [length Nat.eqb negb]. rewrite andb_false_r. rewrite values_none. cbn [values_valid].
    rewrite <- (app_nil_r (map _ b)), values_none, app_nil_r. cbn [values_valid]. pose proof (value_refused _ _ _ _ DV WV) as R. split.
    + intros N u U. cbn [prop_value] in U. apply in_app_iff in U as [U|[U|U]]; [destruct (in_none _ _ U)| |destruct (in_none _ _ U)]. injection U as <-. apply R. destruct (value_valid v); [discriminate|reflexivity].
    + intros N. rewrite (proj2 R); [reflexivity|]. apply N. cbn [prop_value]. apply in_app_iff. right. left. reflexivity.
  - unfold prop_decode in D. rewrite E in D. destruct (index_of _ ws) as [n|] eqn:IX; [|discriminate]. apply Ok_inj in D. subst p. apply index_of_some in IX. assert (n < length ws)%nat by (apply nth_error_Some; congruence).
    assert (Utf8.in_range 0 (Z.of_nat (length ws) - 1) (Z.of_nat n) = true) as -> by (unfold Utf8.in_range; apply andb_true_iff; split; apply Z.leb_le; lia). cbn [prop_value]. tauto.
  - unfold prop_decode in D. rewrite E in D. apply bind_ok in D as (v & DV & D). apply Ok_inj in D. subst p. cbn [prop_value]. rewrite (value_refused _ _ _ _ DV WV). split; [intros N u <-; exact N|intros N; apply N; reflexivity].
Qed.

(** ** Components *)
Lemma first_err_none {A} (f : A -> option gerr) l : first_err f l = None <-> forall a, In a l -> f a = None.
Proof.
  induction l as [|a l IH]; cbn [first_err]; [split; [intros _ a []|reflexivity]|]. split.
  - intros H x [<-|I]; destruct (f a); try discriminate; [reflexivity|]. apply IH; assumption.
  - intros H. rewrite (H a (or_introl eq_refl)). apply IH. intros x I. apply H. right. exact I.
Qed.
Lemma sec_valid_exact cal : sec_valid cal = None <->
  (forall pid p, has_prop cal pid p -> prop_valid pid p = None) /\ (forall x vs, part_of x cal -> In vs (sec_fields x) -> ~ In (FVAlarm None) vs).
Proof.
  induction cal as [id fs IH] using sec_induct. change (sec_valid (Sec id fs)) with (first_err (first_err fval_valid) fs). rewrite first_err_none. split.
  - intros H. assert (V : forall vs v, In vs fs -> In v vs -> fval_valid v = None) by (intros vs v I J; exact (proj1 (first_err_none _ _) (H vs I) v J)). split.
    + intros pid p (y & ws & Py & I & J). inversion Py as [x E|y' x id' fs' vs I' J' Px|y' x id' fs' vs I' J' Px]; subst.
      * exact (V ws _ I J).
      * apply (proj1 (proj1 (IH vs x I' (or_introl J')) (V _ _ I' J'))). exists y, ws. auto.
      * apply (proj1 (proj1 (IH vs x I' (or_intror J')) (V _ _ I' J'))). exists y, ws. auto.
    + intros y ws Py I J. inversion Py as [x E|y' x id' fs' vs I' J' Px|y' x id' fs' vs I' J' Px]; subst.
      * discriminate (V ws _ I J).
      * exact (proj2 (proj1 (IH vs x I' (or_introl J')) (V _ _ I' J')) y ws Px I J).
      * exact (proj2 (proj1 (IH vs x I' (or_intror J')) (V _ _ I' J')) y ws Px I J).
  - intros [HP HA] vs I. apply first_err_none. intros v J. destruct v as [pid p|x|[x|]].
    + apply (HP pid p). exists (Sec id fs), vs. split; [constructor|]. auto.
    + change (fval_valid (FVSec x)) with (sec_valid x). apply (IH vs x I (or_introl J)). split.
      * intros pid p (y & ws & Py & Q). apply HP. exists y, ws. split; [eapply Part_sec; eauto|exact Q].
      * intros y ws Py. apply HA. eapply Part_sec; eauto.
    + change (fval_valid (FVAlarm (Some x))) with (sec_valid x). apply (IH vs x I (or_intror J)). split.
      * intros pid p (y & ws & Py & Q). apply HP. exists y, ws. split; [eapply Part_alarm; eauto|exact Q].
      * intros y ws Py. apply HA. eapply Part_alarm; eauto.
    + destruct (HA (Sec id fs) vs (Part_self _) I J).
Qed.

(** ** What Decode returns *)
Lemma holds_value_in : forall fd items vs, holds fd items vs -> forall v, In v vs -> exists i, In i items /\ item_means (fd_type fd) i v.
Proof. induction 1 as [fd|fd i items vs NB H IH|fd i items v vs B M H IH]; intros v0 I; [destruct I| |]. - destruct (IH _ I) as (j & J & K). eauto using in_cons. - destruct I as [<-|I]; [eauto using in_eq|]. destruct (IH _ I) as (j & J & K). eauto using in_cons. Qed.
Definition wf_items (items : list item) : Prop := Forall (fun l => cline_wf l = true) (flat_map ilines items).
Lemma means_value id items id' fs vs v : means id items (Sec id' fs) -> wf_items items -> In vs fs -> In v vs -> exists fd i, In i items /\ Forall (fun l => cline_wf l = true) (ilines i) /\ item_means (fd_type fd) i v.
Proof.
  intros M W I Iv. inversion M as [? ? ? F L H X]; subst. destruct (In_nth _ _ [] I) as (i & Li & E). rewrite L in Li.
  destruct (nth_error (fields_of id') i) as [fd|] eqn:N; [|apply nth_error_None in N; lia]. destruct (H i fd N) as [Ho _]. rewrite E in Ho. destruct (holds_value_in _ _ _ Ho v Iv) as (it & J & IM). exists fd, it. split; [exact J|]. split; [|exact IM].
  apply Forall_forall. intros l Il. unfold wf_items in W. rewrite Forall_forall in W. apply W. apply in_flat_map. eauto.
Qed.
Lemma part_means_wf y x : part_of y x -> forall id items, means id items x -> wf_items items -> exists id' items', means id' items' y /\ wf_items items'.
Proof.
  induction 1 as [x|y x id0 fs vs I Iv P IH|y x id0 fs vs I Iv P IH]; intros id items M W; [eauto| |].
  - destruct (means_value _ _ _ _ _ _ M W I Iv) as (fd & i & J & Wi & IM). inversion IM as [|sid b body e x' Mx Ee Ev|]; subst. apply (IH _ _ Mx). cbn [ilines] in Wi. inversion Wi as [|? ? _ Wb]; subst. apply Forall_app in Wb. apply Wb.
  - destruct (means_value _ _ _ _ _ _ M W I Iv) as (fd & i & J & Wi & IM). inversion IM as [| |b body e us w sid sub e' more x' Fb Ne A Fu Aw Q E' V' Mx]; subst. apply (IH _ _ Mx). cbn [ilines] in Wi. inversion Wi as [|? ? _ Wb]; subst. rewrite Q in Wb. apply Forall_app in Wb. apply Wb.
Qed.
Theorem decoded_props s cal : decode_bytes s = Ok cal ->
  (forall pid p, has_prop cal pid p -> exists l, cline_wf l = true /\ prop_decode pid (params_tokens (cl_params l)) (cl_value l) = Ok p) /\
  (forall x vs, part_of x cal -> In vs (sec_fields x) -> ~ In (FVAlarm None) vs).
Proof.
  intros D. apply decode_bytes_exact in D as (b & items & e & tail & _ & _ & M & _ & _ & W & _). inversion W as [|? ? _ W']; subst. apply Forall_app in W' as [W' _]. split.
  - intros pid p ([id fs] & vs & P & I & J). destruct (part_means_wf _ _ P _ _ M W') as (id' & items' & My & Wy). cbn [sec_fields] in I. destruct (means_value _ _ _ _ _ _ My Wy I J) as (fd & i & _ & Wi & IM). inversion IM as [pid' l p' PD| |]; subst. inversion Wi; subst. eauto.
  - intros [id fs] vs P I J. destruct (part_means_wf _ _ P _ _ M W') as (id' & items' & My & Wy). cbn [sec_fields] in I. destruct (means_value _ _ _ _ _ _ My Wy I J) as (fd & i & _ & Wi & IM). inversion IM.
Qed.
Theorem decoded_valid s cal : decode_bytes s = Ok cal -> (sec_valid cal = None <-> forall pid p v, has_prop cal pid p -> prop_value p v -> ~ refused v).
Proof.
  intros D. destruct (decoded_props _ _ D) as [HP HA]. rewrite sec_valid_exact. split.
  - intros [V _] pid p v H PV. destruct (HP _ _ H) as (l & W & PD). exact (proj1 (prop_refused _ _ _ W PD) (V _ _ H) v PV).
  - intros N. split; [|exact HA]. intros pid p H. destruct (HP _ _ H) as (l & W & PD). apply (prop_refused _ _ _ W PD). intros v PV. eauto.
Qed.
End E.
