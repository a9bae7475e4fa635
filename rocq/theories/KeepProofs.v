(** Calendars that are read, written and read again. *)
From Coq Require Import String Ascii ZArith Bool List Lia.
From Verif Require Import Base Lib Utf8 Utf8Proofs GoStrings Strtok Tokeniser SpecContent TokeniserProofs DecodeProofs GoTime Types Params ParamTable PropTable Props SecTable Sections Codec SpecText TextProofs SpecDuration SpecTime TimeProofs DateProofs SpecRecur RecurProofs ValueProofs SpecTree TreeProofs ExactProofs SpecRules SpecParams ParamProofs SpecProps PropProofs HangProofs GroupProofs SpecCal CalProofs EncodableProofs SpecOut DecodedProofs SpecKeep.
Import ListNotations.
Local Open Scope Z_scope.

(** ** UTF-8 *)
Lemma app_cut {A} (a b c d : list A) : a ++ b = c ++ d -> (length c <= length a)%nat -> exists e, a = c ++ e /\ d = e ++ b.
Proof.
  revert a. induction c as [|x c IH]; intros a E L; [exists a; auto|]. destruct a as [|y a]; [cbn in L; lia|].
  injection E as -> E. destruct (IH a E) as (e & -> & D); [cbn in L; lia|]. exists e. auto.
Qed.
Lemma utf8_split a c b : code c < 128 -> utf8 (a ++ c :: b) -> utf8 a /\ utf8 b.
Proof.
  intros C (rs & V & E). revert a E. induction V as [|r rs Vr V IH]; intros a E; cbn [map concat] in E; [destruct a; discriminate|].
  assert (R0 : 0 <= r) by (unfold valid_rune, in_range in Vr; lia).
  destruct (Z_lt_le_dec r 128) as [L|L].
  - rewrite (encode_rune_low r) in E by lia. destruct a as [|x a]; cbn [app] in E.
    + injection E as E1 E2. split; [apply utf8_nil|]. exists rs. auto.
    + injection E as E1 E2. destruct (IH a E2) as [A B]. split; [|exact B]. change (x :: a) with ([x] ++ a). apply utf8_app; [|exact A]. subst x. rewrite <- (encode_rune_low r) by lia. apply utf8_rune, Vr.
  - pose proof (encode_rune_high r L) as H. destruct (le_lt_dec (length (encode_rune r)) (length a)) as [K|K].
    + destruct (app_cut _ _ _ _ E K) as (e & -> & D). destruct (IH e (eq_sym D)) as [A B]. split; [|exact B]. apply utf8_app; [apply utf8_rune, Vr|exact A].
    + symmetry in E. destruct (app_cut _ _ _ _ E) as (e & D & F); [lia|]. destruct e as [|x e]; [rewrite app_nil_r in D; rewrite D in K; lia|]. injection F as -> _.
      rewrite D in H. apply Forall_app in H as [_ H]. inversion H; subst. lia.
Qed.
Lemma utf8_cons c s : code c < 128 -> utf8 s -> utf8 (c :: s).
Proof. intros C U. change (c :: s) with ([c] ++ s). apply utf8_app; [|exact U]. apply utf8_ascii. repeat constructor. exact C. Qed.
Lemma utf8_uncons c s : code c < 128 -> utf8 (c :: s) -> utf8 s.
Proof. intros C U. apply (utf8_split [] c s C U). Qed.
Lemma sep_ascii c : is_sep c = true \/ is_bsl c = true -> code c < 128.
Proof. unfold is_sep, is_bsl. rewrite orb_true_iff. intros [[H|H]|H]; apply beqc_eq in H; subst c; reflexivity. Qed.
Lemma rune_utf8 r : 0 <= r -> utf8 (encode_rune r).
Proof.
  intros H. destruct (valid_rune r) eqn:V; [apply utf8_rune, V|]. replace (encode_rune r) with (encode_rune RuneError); [apply utf8_rune; reflexivity|].
  unfold encode_rune. rewrite V. reflexivity.
Qed.
Lemma reads_utf8 s t rest : SpecText.reads s t rest -> forall u, utf8 (u ++ s) -> utf8 (u ++ t) /\ utf8 rest.
Proof.
  induction 1 as [|c s E|c s t rest E1 E2 R IH|e s t rest E R IH|e s t rest E R IH|c s t rest E1 E2 E3 E4 R IH|]; intros u U.
  - split; [exact U|apply utf8_nil].
  - apply utf8_split in U as [A B]; [|apply sep_ascii; auto]. rewrite app_nil_r. split; [exact A|]. apply utf8_cons; [apply sep_ascii; auto|exact B].
  - specialize (IH (u ++ [c])). rewrite <- !app_assoc in IH. exact (IH U).
  - apply utf8_split in U as [A B]; [|reflexivity]. apply utf8_uncons in B; [|apply sep_ascii, E]. destruct (IH [] B) as [D F]. split; [|exact F]. apply utf8_app; [exact A|]. apply utf8_cons; [apply sep_ascii, E|exact D].
  - apply utf8_split in U as [A B]; [|reflexivity]. apply utf8_uncons in B; [|destruct E; subst; reflexivity]. destruct (IH [] B) as [D F]. split; [|exact F]. apply utf8_app; [exact A|]. apply utf8_cons; [reflexivity|exact D].
  - apply utf8_split in U as [A B]; [|reflexivity]. destruct B as (rs & V & E). inversion V as [|r rs' Vr V' Q]; subst; cbn [map concat] in E; [discriminate|].
    rewrite E in IH |- *. rewrite decode_encode_rune in IH |- * by exact Vr. cbn [fst snd] in *. rewrite skipn_app, skipn_all, Nat.sub_diag in IH. cbn [skipn app] in IH.
    destruct (IH []) as [D F]; [exists rs'; auto|]. split; [|exact F]. apply utf8_app; [exact A|]. apply utf8_cons; [reflexivity|]. apply utf8_app; [apply utf8_rune, Vr|exact D].
  - apply utf8_split in U as [A _]; [|reflexivity]. split; [|apply utf8_nil]. apply utf8_app; [exact A|]. apply utf8_cons; [reflexivity|]. apply utf8_rune. reflexivity.
Qed.
Lemma text_utf8 s t : utf8 s -> text_decode s = Ok t -> utf8 t.
Proof. intros U D. apply text_decode_reads in D. exact (proj1 (reads_utf8 _ _ _ D [] U)). Qed.
Lemma mtext_loop_utf8 : forall f n acc s l, utf8 s -> (length s < n)%nat -> Forall utf8 acc -> mtext_loop f n acc (Tok [] s) = Ok l -> Forall utf8 l /\ l <> [].
Proof.
  induction f as [|f IH]; intros n acc s l V N A H; [discriminate|]. cbn [mtext_loop] in H. destruct (reads_total (length s) s (le_n _)) as (t & rest & R).
  rewrite (decode_text_reads s t rest R) in H by exact N. cbn [bind peek trest app] in H. destruct (reads_utf8 _ _ _ R [] V) as [T VR].
  assert (A' : Forall utf8 (acc ++ [t])) by (apply Forall_app; split; [exact A|repeat constructor; exact T]).
  destruct rest as [|c rest]; [apply Ok_inj in H; subst; split; [exact A'|destruct acc; discriminate]|]. cbn [peek trest] in H. destruct (beqc c ",") eqn:C; [|discriminate H]. apply beqc_eq in C. subst c.
  rewrite accept_hit in H by reflexivity. cbn [get trest] in H. apply TotalProofs.reads_length in R. cbn [length] in R. apply utf8_uncons in VR; [|reflexivity]. apply (IH n (acc ++ [t]) rest l VR); [lia|exact A'|exact H].
Qed.

(** ** Times *)
Lemma day_number_range y m d : real_date y m d -> 0 <= y <= 9999 -> -719528 <= day_number y m d <= 2932896.
Proof.
  intros R Y. apply real_date_spec in R as [M D]. unfold day_number.
  set (n := 365 * (y - 1) + (y - 1) / 4 - (y - 1) / 100 + (y - 1) / 400).
  assert (LP : is_leap y = (y mod 4 =? 0) && (negb (y mod 100 =? 0) || (y mod 400 =? 0))) by reflexivity.
  rewrite <- LP. assert (N : -366 <= n /\ n + 365 <= 3652059 /\ (is_leap y = true -> n + 366 <= 3652059)).
  { rewrite LP. unfold n. clear - Y. Z.to_euclidean_division_equations. lia. }
  clearbody n. clear LP. unfold days_in in D.
  assert (C : m = 1 \/ m = 2 \/ m = 3 \/ m = 4 \/ m = 5 \/ m = 6 \/ m = 7 \/ m = 8 \/ m = 9 \/ m = 10 \/ m = 11 \/ m = 12) by lia.
  destruct (is_leap y); destruct C as [C|[C|[C|[C|[C|[C|[C|[C|[C|[C|[C|C]]]]]]]]]]]; subst m;
    match goal with |- context [nth ?a ?b ?c] => let v := eval vm_compute in (nth a b c) in change (nth a b c) with v end; cbn in D |- *; lia.
Qed.

Section K.
Context {env : Env}.
Lemma utc_clock s t : reads_as s t -> t_loc t = LUTC -> in_years t.
Proof.
  intros (y & mo & d & h & mi & x & dt & rest & u & _ & _ & R & Y & H & M & X & T) L. pose proof (day_number_range _ _ _ R Y). unfold in_years, wall. rewrite L in T |- *. change (offset_at LUTC u) with 0 in T. change (offset_at LUTC (t_sec t)) with 0. lia.
Qed.
Lemma keeps_good id m s t : datetime_decode id m s = Ok t -> moment_keeps id t -> moment_good id t.
Proof.
  intros D [N [L|G]]; [|exact G]. apply datetime_decode_inv in D as [R _]. unfold moment_good. rewrite L. repeat split; auto; apply (utc_clock s t R L).
Qed.
Lemma date_good s t : date_decode s = Ok t -> utc_in_years t /\ t_sec t mod 86400 = 0.
Proof.
  intros D. destruct (date_decoded [] s (VDate t)) as (y & mo & d & _ & R & Y & E); [cbn [value_decode]; rewrite D; reflexivity|]. injection E as ->. pose proof (day_number_range _ _ _ R Y).
  split; [exists (86400 * day_number y mo d); split; [reflexivity|lia]|]. change (86400 * day_number y mo d mod 86400 = 0). rewrite Z.mul_comm. apply Z.mod_mul. discriminate.
Qed.

(** Where the UNTIL of a rule comes from. *)
Definition until_read (m : pmap) (r : recur) : Prop :=
  (r_until r = zero_time /\ r_untiltime r = false) \/ (r_untiltime r = true /\ exists s, datetime_decode 0 m s = Ok (r_until r)) \/
  (r_untiltime r = false /\ exists s, date_decode s = Ok (r_until r)).
Lemma rule_until m r fq k v r' fq' : until_read m r -> recur_rule m r fq k v = Ok (r', fq') -> until_read m r'.
Proof.
  intros K H. destruct r as [fr wk ut un co iv bse bmi bho bda bmd byd bwn bmo bsp]. unfold until_read in *. cbn [r_until r_untiltime] in K. unfold recur_rule in H.
  repeat match type of H with context [if ?b then _ else _] => destruct b; try discriminate H end;
    try (apply bind_ok in H as (l & _ & H); apply Ok_inj in H; injection H as <- <-; exact K).
  - destruct (index_of _ _); [|discriminate]. apply Ok_inj in H. injection H as <- <-. exact K.
  - destruct (datetime_decode 0 m v) eqn:Q; try discriminate. apply Ok_inj in H. injection H as <- <-. right. left. split; [reflexivity|]. exists v. exact Q.
  - destruct (date_decode v) eqn:Q; try discriminate. apply Ok_inj in H. injection H as <- <-. right. right. split; [reflexivity|]. exists v. exact Q.
  - destruct (parse_uint _ _); [|discriminate]. apply Ok_inj in H. injection H as <- <-. exact K.
  - destruct (parse_uint _ _); [|discriminate]. apply Ok_inj in H. injection H as <- <-. exact K.
  - destruct (day_of_word v); [|discriminate]. apply Ok_inj in H. injection H as <- <-. exact K.
Qed.
Lemma recur_until m s r : recur_decode m s = Ok r -> until_read m r.
Proof.
  unfold recur_decode. intros H. apply bind_ok in H as ([r1 f1] & E & H). destruct f1; [|discriminate]. apply Ok_inj in H. subst.
  assert (L : forall rules r fq r' fq', until_read m r -> recur_rules m r fq rules = Ok (r', fq') -> until_read m r').
  { clear. induction rules as [|w rules IH]; intros r fq r' fq' R H; cbn [recur_rules] in H.
    - apply Ok_inj in H. injection H as <- <-. exact R.
    - destruct (cut "="%char w) as [[k v]|]; [|discriminate]. apply bind_ok in H as ([r1 f1] & E & H). apply (IH r1 f1 r' fq'); [|exact H]. exact (rule_until m r fq k v r1 f1 R E). }
  apply (L _ zero_recur _ _ _ (or_introl (conj eq_refl eq_refl)) E).
Qed.
Lemma until_keeps m s r : recur_decode m s = Ok r -> value_keeps (VRecur r) -> until_good r.
Proof.
  intros D [_ [K1 K2]]. apply recur_until in D. unfold until_good. destruct (is_zero (r_until r)) eqn:Z; [left; apply K2, is_zero_spec, Z|].
  destruct D as [[E _]|[[U (t & D)]|[U (t & D)]]]; [rewrite E in Z; discriminate| |]; right; (split; [reflexivity|]); [left|right]; (split; [exact U|]).
  - eapply keeps_good; [exact D|auto].
  - eapply date_good, D.
Qed.

(** ** Values *)
Lemma float_keeps f : ~ finite f -> float_good f.
Proof. destruct f as [|[]|x]; intros N; [| | |destruct N; exact Logic.I]; (split; [reflexivity|split; [reflexivity|cbn; intuition discriminate]]). Qed.
Lemma value_kept k m d v : value_decode k m d = Ok v -> forallb value_char d = true -> utf8 d -> value_keeps v -> value_good v.
Proof.
  intros D V U K. pose proof (proj2 (value_refused _ _ _ _ D V) (proj1 K)) as VV. destruct K as [NR K].
  destruct k; pose proof D as D'; cbn [value_decode] in D; unfold rmap in D; apply bind_ok in D as (x & D & E); apply Ok_inj in E; subst v; cbn [value_good]; auto.
  - apply (date_good d), D.
  - eapply keeps_good; eauto.
  - destruct (v_duration_decoded _ _ _ D') as (y & E & F). injection E as <-. exact F.
  - apply float_keeps, NR.
  - destruct x as [a b]. cbn [refused] in NR. split; apply float_keeps; tauto.
  - destruct (v_integer_range _ _ _ D') as (y & E & F). injection E as <-. exact F.
  - destruct K as (K1 & K2 & K3). apply period_decoded in D as (a & b & _ & D1 & D2). split; [eapply keeps_good; eauto|].
    cbn [refused] in NR. destruct D2 as [[D2 Z]|(D2 & Z & NG)].
    + pose proof (keeps_good _ _ _ _ D2 K2) as G. destruct (is_zero (p_end x)) eqn:ZE.
      * right. rewrite Z. split; [apply K3, is_zero_spec, ZE|]. split; [reflexivity|]. unfold dur_fits, dur_plain. cbn. repeat split; lia.
      * left. split; [exact G|]. split; [reflexivity|]. split; [|exact Z]. assert (SC : same_clock (p_start x) (p_end x)).
        { destruct (t_loc (p_start x)) eqn:A, (t_loc (p_end x)) eqn:B; unfold same_clock; rewrite A, B; auto; exfalso; apply NR; right;
            (split; [intros Q; apply is_zero_spec in Q; congruence|]); right; unfold same_clock; rewrite A, B; intros [[? ?]|[? ?]]; congruence. }
        unfold zone_params. destruct SC as [[A B]|[A B]]; rewrite A, B; reflexivity.
    + right. split; [exact Z|]. split; [exact NG|]. destruct (v_duration_decoded [] b (VDuration (p_dur x))) as (y & E & F); [cbn [value_decode]; rewrite D2; reflexivity|]. injection E as <-. exact F.
  - pose proof (until_keeps _ _ _ D (conj NR K)) as G. destruct (v_recur_decoded _ _ _ D') as (y & E & R & _). injection E as <-.
    assert (T : recur_typed x /\ recur_sensible x); [|tauto]. clear - R. unfold recur_in_range in R. unfold recur_typed, recur_sensible, within, within_signed in *.
    destruct R as (R1 & R2 & R3 & R4 & R5 & R6 & R7 & R8 & R9 & R10 & R11 & R12 & R13 & R14). repeat split; try lia; auto;
      (eapply Forall_impl; [|eassumption]); cbv beta; intros; lia.
  - split; [eapply text_utf8; eauto|exact VV].
  - unfold mtext_decode in D. destruct (mtext_loop_utf8 _ _ _ _ _ U (Nat.lt_succ_diag_r _) (Forall_nil _) D) as [A B]. auto.
  - destruct (v_offset_range _ _ _ D') as (y & E & F). injection E as <-. exact F.
Qed.

(** ** Parameters *)
Lemma tame_good s : Forall tame s -> (forall c, In c s -> ~ special68 c) -> text_good s.
Proof.
  intros T N. split; [|exact N]. apply forallb_forall. intros c I. rewrite Forall_forall in T. destruct (T c I) as [V|V]; [exact V|]. destruct (N c I). left. exact V.
Qed.
Lemma param_kept k x v : cparam_wf x = true -> param_decode k (param_values x) = Ok v -> param_keeps k v -> (forall s c, text_of k v s -> In c s -> ~ special68 c) -> param_good k v.
Proof.
  intros W H K N. assert (NE : param_values x <> []) by discriminate. pose proof (fun t => values_chars x t W) as C. revert C H NE. generalize (param_values x). intros vs C H NE.
  assert (G : forall t s, In t vs -> s = decode6868 (t_data t) -> text_of k v s -> text_good s).
  { intros t s I -> T. apply tame_good; [|intros c; apply N, T]. eapply code_reads_tame; [apply decode6868_reads|auto]. }
  destruct k as [|qu| | |free ws|w| |]; cbn [param_decode] in H; cbn [param_keeps] in K; try contradiction.
  - apply bind_ok in H as (t & T & H). apply bind_ok in H as (d & D & H). apply Ok_inj in H. subst v. cbn [param_good param_keeps] in *. split; [exact K|]. apply one_value_in in T.
    apply (G t); [exact T| |constructor]. assert (d = t_data t) as ->; [|reflexivity]. destruct qu; [apply quoted_data_eq, D|apply Ok_inj in D; auto].
  - apply bind_ok in H as (l & L & H). apply Ok_inj in H. subst v. cbn [param_good]. split.
    + destruct vs as [|t vs]; [contradiction|]. cbn [mapM] in L. apply bind_ok in L as (a & A & L). apply bind_ok in L as (l' & L' & L). apply Ok_inj in L. subst l. discriminate.
    + apply Forall_forall. intros s I. assert (X : exists t, In t vs /\ s = decode6868 (t_data t)).
      { clear - L I. revert l L I. induction vs as [|t vs IH]; intros l L I; cbn [mapM] in L; [apply Ok_inj in L; subst; destruct I|]. apply bind_ok in L as (a & A & L). apply bind_ok in L as (l' & L' & L). apply Ok_inj in L. subst l.
        apply bind_ok in A as (d & D & A). apply Ok_inj in A. subst a. apply quoted_data_eq in D. subst d. destruct I as [<-|I]; [exists t; split; [left|]; reflexivity|]. destruct (IH _ L' I) as (t' & J & E). exists t'. split; [right|]; assumption. }
      destruct X as (t & J & E). apply (G t); [exact J|exact E|]. constructor. exact I.
  - apply bind_ok in H as (t & _ & H). destruct (index_of _ ws) as [n|] eqn:IX.
    + apply Ok_inj in H. subst v. apply index_small in IX. destruct free; cbn [param_good enum_base]; lia.
    + destruct free; [|discriminate]. apply Ok_inj in H. subst v. cbn [param_good]. lia.
  - apply bind_ok in H as (t & _ & H). destruct (beq _ _); [|discriminate]. apply Ok_inj in H. subst v. exact Logic.I.
  - apply bind_ok in H as (t & TV & H). destruct (regex_match _) eqn:R; [|discriminate]. apply Ok_inj in H. subst v. cbn [param_good]. split; [exact R|]. split; [apply C, one_value_in, TV|]. intros c. apply N. constructor.
  - apply bind_ok in H as (t & _ & H). apply bind_ok in H as (b & _ & H). apply Ok_inj in H. subst v. exact K.
Qed.

(** ** Properties *)
Lemma prop_kept pid l p : cline_wf l = true -> utf8 (cl_value l) -> prop_decode pid (params_tokens (cl_params l)) (cl_value l) = Ok p -> prop_keeps pid p -> prop_good pid p.
Proof.
  intros W U D (_ & NE & KV & KP). unfold cline_wf in W. rewrite !andb_true_iff in W. destruct W as [[_ WP] WV]. unfold prop_good. destruct (snd (prop_spec pid)) as [ps vs|ws|k] eqn:E.
  - destruct (struct_read _ _ _ _ _ _ E D) as (lp & a & w & k & b & v & -> & F2 & (EV & _) & K & m & DV). split.
    + assert (KP' : forall q v, In (q, Some v) (combine ps lp) -> param_keeps (snd (param_spec q)) v) by (intros; eapply KP; eauto).
      assert (NE' : forall q v, In (q, Some v) (combine ps lp) -> forall s c, text_of (snd (param_spec q)) v s -> In c s -> ~ special68 c).
      { intros q v0 I s c T J S'. apply NE. unfold needs_escape. do 8 eexists. repeat split; eauto. }
      clear - F2 KP' NE' WP. induction F2 as [|q o ps lp R _ IH]; constructor.
      * intros v ->. destruct R as [[_ Q]|(x & v0 & G & PD & Q)]; [discriminate|]. injection Q as <-. apply (param_kept _ x); [|exact PD|apply KP'; left; reflexivity|apply NE'; left; reflexivity].
        rewrite forallb_forall in WP. apply WP. assert (I : In x (given (fst (param_spec q)) (cl_params l))) by (rewrite G; left; reflexivity). unfold given in I. apply filter_In in I. apply I.
      * apply IH; intros q' v' I; [apply KP'|apply NE']; right; exact I.
    + exists a, b, w, v. subst k. split; [exact EV|]. split; [reflexivity|]. eapply value_kept; eauto. apply KV. cbn [prop_value]. apply in_app_iff. right. left. reflexivity.
  - unfold prop_decode in D. rewrite E in D. destruct (index_of _ ws) as [n|] eqn:IX; [|discriminate]. apply Ok_inj in D. subst p. apply index_small in IX. lia.
  - unfold prop_decode in D. rewrite E in D. apply bind_ok in D as (v & DV & D). apply Ok_inj in D. subst p. split; [exact (value_kind _ _ _ _ DV)|]. eapply value_kept; eauto. apply KV. reflexivity.
Qed.

(** ** Components *)
Lemma typed_good cal : cal_typed cal -> (forall x vs, part_of x cal -> In vs (sec_fields x) -> ~ In (FVAlarm None) vs) -> (forall pid p, has_prop cal pid p -> prop_good pid p) -> cal_good cal.
Proof.
  induction cal as [id fs IH] using sec_induct. intros T A G. inversion T as [? ? L F]; subst. constructor; [exact L|]. intros i fd vs N V. destruct (F i fd vs N V) as [C FT]. split; [exact C|].
  apply Forall_forall. intros v I. rewrite Forall_forall in FT. specialize (FT v I). apply nth_error_In in V. inversion FT as [pid p PT Q|sid fs' CT Q|w sid fs' W CT Q|Q]; subst.
  - constructor. apply G. apply has_prop_eq. left. eauto.
  - constructor. apply (IH vs _ V); [left; exact I|exact CT| |]; [intros x ws P; apply A; eapply Part_sec; eauto|]. intros pid p P. apply G. apply has_prop_eq. right. exists vs, (Sec sid fs'). auto.
  - econstructor; [exact W|]. apply (IH vs _ V); [right; exact I|exact CT| |]; [intros x ws P; apply A; eapply Part_alarm; eauto|]. intros pid p P. apply G. apply has_prop_eq. right. exists vs, (Sec sid fs'). auto.
  - destruct (A (Sec id fs) vs); [constructor|exact V|exact I].
Qed.
Lemma typed_part x y : part_of x y -> cal_typed y -> cal_typed x.
Proof.
  induction 1 as [x|x y id fs vs I J P IH|x y id fs vs I J P IH]; intros T; [exact T| |]; apply IH; inversion T as [? ? L F]; subst;
    destruct (In_nth_error _ _ I) as (i & N); destruct (nth_error (fields_of id) i) as [fd|] eqn:NF; try (apply nth_error_None in NF; assert (nth_error fs i <> None) as Q by congruence; apply nth_error_Some in Q; lia);
    destruct (F i fd vs NF N) as [_ FT]; rewrite Forall_forall in FT; specialize (FT _ J); inversion FT; subst; assumption.
Qed.
Lemma decoded_rules s cal : decode_bytes s = Ok cal -> rules_met cal.
Proof.
  intros D. pose proof (decoded_typed _ _ D) as T. apply decode_bytes_exact in D as (b & items & e & tail & _ & _ & M & _). destruct (means_s _ _ _ M) as [_ X]. intros x P. apply obeys_extras; [|apply X, P].
  pose proof (typed_part _ _ P T) as Tx. inversion Tx; subst. assumption.
Qed.

(** ** The lines of a text *)
Lemma line_value A l B : utf8 (A ++ (cline_render l ++ CRLF) ++ B) -> utf8 (cl_value l).
Proof.
  intros U. unfold cline_render in U. rewrite <- !app_assoc in U. rewrite !(app_assoc A) in U. rewrite !(app_assoc (A ++ _)) in U.
  change (bs ":" ++ cl_value l ++ CRLF ++ B) with (":"%char :: cl_value l ++ CRLF ++ B) in U. apply utf8_split in U as [_ U]; [|reflexivity]. change (CRLF ++ B) with (CR :: LF :: B) in U. apply utf8_split in U as [U _]; [exact U|reflexivity].
Qed.
Lemma lines_values ls : forall A B, utf8 (A ++ lines_text ls ++ B) -> Forall (fun l => utf8 (cl_value l)) ls.
Proof.
  induction ls as [|l ls IH]; intros A B U; [constructor|]. unfold lines_text in *. cbn [map concat] in U. constructor.
  - rewrite <- app_assoc in U. apply line_value in U. exact U.
  - apply (IH (A ++ cline_render l ++ CRLF) B). rewrite <- !app_assoc in *. exact U.
Qed.
Definition lines_all (Q : cline -> Prop) (items : list item) : Prop := Forall Q (flat_map ilines items).
Lemma value_line Q id items id' fs vs v : means id items (Sec id' fs) -> lines_all Q items -> In vs fs -> In v vs -> exists fd i, Forall Q (ilines i) /\ item_means (fd_type fd) i v.
Proof.
  intros M W I J. inversion M as [? ? ? F L H X]; subst. destruct (In_nth _ _ [] I) as (n & Ln & E). rewrite L in Ln. destruct (nth_error (fields_of id') n) as [fd|] eqn:N; [|apply nth_error_None in N; lia].
  destruct (H n fd N) as [Ho _]. rewrite E in Ho. destruct (holds_value_in _ _ _ Ho v J) as (i & Ii & IM). exists fd, i. split; [|exact IM].
  unfold lines_all in W. rewrite Forall_forall in *. intros l Il. apply W. apply in_flat_map. eauto.
Qed.
Lemma part_lines Q y x : part_of y x -> forall id items, means id items x -> lines_all Q items -> exists id' items', means id' items' y /\ lines_all Q items'.
Proof.
  induction 1 as [x|y x id fs vs I Iv P IH|y x id fs vs I Iv P IH]; intros id0 items M W; [eauto| |].
  - destruct (value_line _ _ _ _ _ _ _ M W I Iv) as (fd & i & Wi & IM). inversion IM as [|sid b body e x' Mx E V|]; subst. apply (IH _ _ Mx). cbn [ilines] in Wi. inversion Wi as [|? ? _ Wb]; subst. apply Forall_app in Wb. apply Wb.
  - destruct (value_line _ _ _ _ _ _ _ M W I Iv) as (fd & i & Wi & IM). inversion IM as [| |b body e us w sid sub e' more x' Fb Ne A Fu Aw Q' E' V' Mx]; subst. apply (IH _ _ Mx). cbn [ilines] in Wi. inversion Wi as [|? ? _ Wb]; subst. rewrite Q' in Wb. apply Forall_app in Wb. apply Wb.
Qed.
Lemma prop_line Q id items cal pid p : means id items cal -> lines_all Q items -> has_prop cal pid p -> exists l, Q l /\ prop_decode pid (params_tokens (cl_params l)) (cl_value l) = Ok p.
Proof.
  intros M W ([id' fs] & vs & P & I & J). destruct (part_lines _ _ _ P _ _ M W) as (id1 & items1 & My & Wy). cbn [sec_fields] in I. destruct (value_line _ _ _ _ _ _ _ My Wy I J) as (fd & i & Wi & IM). inversion IM as [pid' l p' PD| |]; subst. inversion Wi; subst. eauto.
Qed.
Theorem decoded_kept s cal : decode_bytes s = Ok cal -> utf8 s -> cal_keeps cal -> sec_id cal = SCalendar /\ cal_good cal /\ rules_met cal /\ (forall p, ~ has_prop cal PrLastModified p) /\ sec_valid cal = None.
Proof.
  intros D U K. split; [eapply decoded_calendar, D|]. split; [|split; [eapply decoded_rules, D|split]].
  - apply typed_good; [eapply decoded_typed, D|apply (decoded_props _ _ D)|]. intros pid p P. apply decode_bytes_exact in D as (b & items & e & tail & _ & _ & M & _ & _ & W & -> & _).
    pose proof (lines_values _ [] _ U) as L. inversion L as [|? ? _ L']; subst. inversion W as [|? ? _ W']; subst. apply Forall_app in W' as [W' _].
    destruct (prop_line (fun l => cline_wf l = true /\ utf8 (cl_value l)) _ _ _ pid p M) as (l & [Wl Ul] & PD); [|exact P|].
    + unfold lines_all. rewrite Forall_forall in *. auto.
    + eapply prop_kept; eauto.
  - intros p P. destruct (K _ _ P) as [NL _]. apply NL. reflexivity.
  - apply (decoded_valid _ _ D). intros pid p v P PV. destruct (K _ _ P) as (_ & _ & KV & _). apply (KV v PV).
Qed.
End K.
