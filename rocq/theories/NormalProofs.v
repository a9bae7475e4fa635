(** What becomes of a calendar that is read, written and read again. *)
From Coq Require Import String Ascii ZArith Bool List Lia ZifyBool.
From Verif Require Import Base Lib Utf8 Utf8Proofs GoStrings Strtok Tokeniser SpecContent TokeniserProofs DecodeProofs GoTime Types Params ParamTable PropTable Props SecTable Sections Codec SpecText TextProofs SpecDuration DurationProofs SpecTime TimeProofs DateProofs SpecRecur RecurProofs ValueProofs SpecTree TreeProofs ExactProofs SpecRules SpecParams ParamProofs SpecProps PropProofs HangProofs GroupProofs SpecCal CalProofs EncodableProofs SpecValid ValidProofs SpecOut DecodedProofs SpecKeep KeepProofs SpecNormal.
Import ListNotations.
Local Open Scope Z_scope.

(** ** Texts *)
Lemma decode_rune_valid c l : valid_rune (fst (decode_rune (c :: l))) = true.
Proof.
  pose proof (code_range c) as C. unfold decode_rune. cbv zeta.
  destruct (code c <? 128) eqn:E0; [cbn [fst]; unfold valid_rune, in_range; lia|].
  destruct (in_range 194 223 (code c)) eqn:E1.
  { destruct l as [|c1 l]; [reflexivity|]. destruct (in_range 128 191 (code c1)) eqn:R; [|reflexivity]. cbn [fst]. unfold valid_rune, in_range in *. lia. }
  destruct (in_range 224 239 (code c)) eqn:E2.
  { destruct l as [|c1 [|c2 l]]; [reflexivity|reflexivity|]. destruct (_ && _) eqn:R; [|reflexivity]. cbn [fst]. unfold valid_rune, in_range in *.
    destruct (code c =? 224) eqn:Q1, (code c =? 237) eqn:Q2; lia. }
  destruct (in_range 240 244 (code c)) eqn:E3; [|reflexivity].
  destruct l as [|c1 [|c2 [|c3 l]]]; try reflexivity. destruct (_ && _) eqn:R; [|reflexivity]. cbn [fst]. unfold valid_rune, in_range in *.
  destruct (code c =? 240) eqn:Q1, (code c =? 244) eqn:Q2; lia.
Qed.
Lemma runes_valid s : Forall (fun r => valid_rune r = true) (runes s).
Proof.
  remember (length s) as n eqn:E. assert (L : (length s <= n)%nat) by lia. clear E. revert s L.
  induction n as [|n IH]; intros s L; (destruct s as [|c s]; [constructor|]); [cbn [length] in L; lia|].
  rewrite runes_cons. pose proof (decode_rune_width c s) as W. pose proof (decode_rune_valid c s) as V. destruct (decode_rune (c :: s)) as [r w]. constructor; [exact V|].
  apply IH. rewrite skipn_length. cbn [length] in *. lia.
Qed.
Lemma mend_utf8 s : utf8 (mend s).
Proof. exists (runes s). split; [apply runes_valid|reflexivity]. Qed.
Lemma mend_runes s : runes (mend s) = runes s.
Proof. unfold mend. rewrite <- (app_nil_r (concat _)), runes_concat by apply runes_valid. apply app_nil_r. Qed.
Lemma mend_same s : utf8 s -> mend s = s.
Proof. intros U. apply utf8_runes in U as [U _]. exact U. Qed.
Lemma mend_control s : no_control s -> no_control (mend s).
Proof.
  unfold no_control. rewrite !Forall_forall. intros H c I. unfold mend in I. apply in_concat in I as (e & I & J). apply in_map_iff in I as (r & <- & I).
  destruct (Z.lt_ge_cases r 128) as [L|G].
  - destruct (runes_low s r I L) as (d & Id & ->). rewrite encode_rune_low in J by (pose proof (code_range d); lia). destruct J as [<-|[]]. rewrite chr_code. apply H, Id.
  - left. pose proof (encode_rune_high r G) as K. rewrite Forall_forall in K. apply high_value, K, J.
Qed.
Lemma mend_bytes s : text_bytes (mend s) = text_bytes s.
Proof. unfold text_bytes. rewrite mend_runes. reflexivity. Qed.

Section N.
Context {env : Env}.
(** ** Values are written the same *)
Lemma whole_datetime t : datetime_encode (whole t) = datetime_encode t.
Proof. reflexivity. Qed.
Lemma whole_zero t : (year_one (whole t) -> t = zero_time) -> is_zero (whole t) = is_zero t.
Proof.
  intros H. destruct (is_zero (whole t)) eqn:A; [apply is_zero_spec in A; rewrite (H A); reflexivity|].
  destruct (is_zero t) eqn:B; [|reflexivity]. apply is_zero_spec in B as [B1 B2]. assert (Y : year_one (whole t)) by (split; [exact B1|reflexivity]). apply is_zero_spec in Y. congruence.
Qed.
Lemma texts_mend l : forall first, comma_writes text_encode first (map mend l) = comma_writes text_encode first l.
Proof. induction l as [|t l IH]; intros first; [reflexivity|]. cbn [map comma_writes]. unfold text_encode at 1 3. rewrite mend_bytes, IH. reflexivity. Qed.
Lemma normal_encode v : value_settles v -> value_encode (value_normal v) = value_encode v.
Proof.
  intros [_ H]. destruct v; cbn [value_normal value_encode]; try reflexivity.
  - unfold url_encode. rewrite H. reflexivity.
  - unfold period_encode. cbn [p_start p_end p_dur]. rewrite (whole_zero _ H). reflexivity.
  - destruct r as [fr wk ut un co iv bse bmi bho bda bmd byd bwn bmo bsp]. cbn [r_until] in H. unfold value_encode, recur_encode. cbn [r_freq r_wkst r_untiltime r_until r_count r_interval r_bysecond r_byminute r_byhour r_byday r_bymonthday r_byyearday r_byweekno r_bymonth r_bysetpos]. rewrite (whole_zero _ H). reflexivity.
  - unfold text_encode. rewrite mend_bytes. reflexivity.
  - apply texts_mend.
  - unfold url_encode. rewrite H. reflexivity.
Qed.
Lemma normal_aencode v : value_settles v -> value_aencode (value_normal v) = value_aencode v.
Proof.
  intros H. unfold value_aencode. rewrite (normal_encode v H). f_equal. destruct v; try reflexivity. destruct r. reflexivity.
Qed.

(** ** Values are good *)
Lemma whole_good id m s t : datetime_decode id m s = Ok t -> moment_keeps id (whole t) -> moment_good id (whole t).
Proof.
  intros D [_ [L|G]]; [|exact G]. cbn [t_loc whole] in L. apply datetime_decode_inv in D as [R _]. unfold moment_good. cbn [t_loc whole t_nsec]. rewrite L. repeat split; auto; apply (utc_clock s t R L).
Qed.
Lemma whole_date s t : date_decode s = Ok t -> whole t = t.
Proof. intros D. destruct (date_good _ _ D) as [(x & -> & X) _]. reflexivity. Qed.
Lemma mtext_some fuel : forall n acc t l, mtext_loop fuel n acc t = Ok l -> l <> [].
Proof using env.
  induction fuel as [|fuel IH]; intros n acc t l H; [discriminate|]. cbn [mtext_loop] in H. apply bind_ok in H as ([d t1] & _ & H). destruct (peek t1) as [c|]; [|apply Ok_inj in H; subst l; destruct acc; discriminate].
  destruct (beqc c ","); [|discriminate]. destruct (accept _ _) as [? t2]. destruct (get t2) as [? t3]. apply (IH _ _ _ _ H).
Qed.
Lemma value_settled k m d v : value_decode k m d = Ok v -> forallb value_char d = true -> value_settles v -> value_valid v = None /\ value_ok (value_normal v) /\ value_good (value_normal v).
Proof.
  intros D V [K H]. assert (NR : ~ refused v).
  { destruct K as [NR _]. intros R. apply NR. destruct v; cbn [refused value_normal] in *; try exact R.
    - split; [apply R|reflexivity].
    - destruct R as [[R1 R2]|[R1 R2]]; [left; split; [exact R1|reflexivity]|]. right. cbn [p_start p_end]. split; [intros Y; apply R1; rewrite (H Y); split; reflexivity|].
      destruct R2 as [R2|R2]; [left|right; exact R2]. intros [L|[L L']]; apply R2; [left; exact L|]. cbn in L'. lia.
    - destruct r; exact R.
    - split; [apply R|reflexivity]. }
  pose proof (proj2 (value_refused _ _ _ _ D V) NR) as VV. pose proof VV as VO. apply value_valid_iff in VO. split; [exact VV|]. destruct K as [NN K].
  destruct k; pose proof D as D'; cbn [value_decode] in D; unfold rmap in D; apply bind_ok in D as (x & D & E); apply Ok_inj in E; subst v; cbn [value_normal value_ok value_good] in *.
  - auto.
  - auto.
  - auto.
  - split; [exact VO|]. apply (date_good d), D.
  - split; [exact NN|]. eapply whole_good; eauto.
  - split; [exact VO|]. destruct (v_duration_decoded _ _ _ D') as (y & E & F). injection E as <-. exact F.
  - split; [exact VO|]. apply float_keeps, NN.
  - split; [exact VO|]. destruct x as [a b]. cbn [refused] in NN. split; apply float_keeps; tauto.
  - split; [exact VO|]. destruct (v_integer_range _ _ _ D') as (y & E & F). injection E as <-. exact F.
  - cbn [refused p_start p_end p_dur] in *. destruct K as (K1 & K2 & K3). assert (SC : ~ year_one (whole (p_end x)) -> later (whole (p_end x)) (whole (p_start x)) /\ same_clock (whole (p_start x)) (whole (p_end x))).
    { intros Y. split.
      - destruct (Z_lt_ge_dec (t_sec (p_start x)) (t_sec (p_end x))) as [L|L]; [left; exact L|]. exfalso. apply NN. right. split; [exact Y|]. left. unfold later. cbn [whole t_sec t_nsec]. lia.
      - destruct (t_loc (p_start x)) eqn:A, (t_loc (p_end x)) eqn:B; unfold same_clock; cbn [whole t_loc]; rewrite A, B; auto; exfalso; apply NN; right; (split; [exact Y|]); right;
          unfold same_clock; cbn [whole t_loc]; rewrite A, B; intros [[? ?]|[? ?]]; congruence. }
    assert (YE : year_one (whole (p_end x)) \/ ~ year_one (whole (p_end x))) by (destruct (is_zero (whole (p_end x))) eqn:Z; [left; apply is_zero_spec, Z|right; intros Y; apply is_zero_spec in Y; congruence]).
    split.
    + split; [tauto|]. destruct YE as [Y|Y].
      * left. split; [exact Y|]. destruct VO as [_ [[_ V1]|[V1 _]]]; [exact V1|]. destruct V1. rewrite (H Y). split; reflexivity.
      * right. destruct (SC Y) as [S1 S2]. split; [exact Y|]. split; [exact S1|]. unfold same_place. destruct S2 as [[A B]|[A B]]; rewrite A, B; exact Logic.I.
    + apply period_decoded in D as (a & b & _ & D1 & D2). split; [eapply whole_good; eauto|]. destruct D2 as [[D2 Z]|(D2 & Z & NG)].
      * pose proof (whole_good _ _ _ _ D2 K2) as G. rewrite Z. destruct YE as [Y|Y].
        -- right. rewrite (H Y). split; [reflexivity|]. split; [reflexivity|]. unfold dur_fits, dur_plain. cbn. repeat split; lia.
        -- left. split; [exact G|]. split; [destruct (is_zero (whole (p_end x))) eqn:Q; [destruct Y; apply is_zero_spec, Q|reflexivity]|]. split; [|reflexivity].
           unfold zone_params. destruct (SC Y) as [_ [[A B]|[A B]]]; rewrite A, B; reflexivity.
      * right. rewrite Z. split; [reflexivity|]. split; [exact NG|]. destruct (v_duration_decoded [] b (VDuration (p_dur x))) as (y & E & F); [cbn [value_decode]; rewrite D2; reflexivity|]. injection E as <-. exact F.
  - apply recur_until in D. destruct (v_recur_decoded _ _ _ D') as (y & E & R & _). injection E as <-. destruct x as [fr wk ut un co iv bse bmi bho bda bmd byd bwn bmo bsp]. cbn [r_until r_untiltime value_ok value_normal] in *.
    split; [exact VO|]. split; [|split; [apply value_valid_iff; exact VO|split]].
    + clear - R. unfold recur_in_range in R. unfold recur_typed, within, within_signed in *. cbn in *.
      destruct R as (R1 & R2 & R3 & R4 & R5 & R6 & R7 & R8 & R9 & R10 & R11 & R12 & R13 & R14). repeat split; try lia; auto; (eapply Forall_impl; [|eassumption]); cbv beta; intros; lia.
    + unfold until_good. cbn [r_until r_untiltime]. destruct K as [K1 K2]. destruct (is_zero (whole un)) eqn:Z; [left; apply K2, is_zero_spec, Z|].
      unfold until_read in D. cbn [r_until r_untiltime] in D. destruct D as [[E _]|[[U (t & D)]|[U (t & D)]]]; [rewrite E in Z; discriminate| |]; right; (split; [reflexivity|]); [left|right]; (split; [exact U|]).
      * eapply whole_good; [exact D|auto].
      * rewrite (whole_date _ _ D). eapply date_good, D.
    + pose proof (whole_zero un H) as WZ. clear - R WZ. unfold recur_in_range in R. unfold recur_sensible, within, within_signed in *. cbn [r_count r_until r_freq r_wkst r_interval r_bysecond r_byminute r_byhour r_byday r_bymonthday r_byyearday r_byweekno r_bymonth r_bysetpos] in *.
      rewrite WZ. destruct R as (R1 & R2 & R3 & R4 & R5 & R6 & R7 & R8 & R9 & R10 & R11 & R12 & R13 & R14). repeat split; try lia; auto; (eapply Forall_impl; [|eassumption]); cbv beta; intros; lia.
  - assert (VO' : value_ok (VText (mend x))) by (apply mend_control, VO). split; [exact VO'|]. split; [apply mend_utf8|apply value_valid_iff; exact VO'].
  - assert (VO' : value_ok (VMText (map mend x))) by (cbn [value_ok]; rewrite Forall_map; eapply Forall_impl; [|exact VO]; apply mend_control). split; [exact VO'|].
    split; [|split; [|apply value_valid_iff; exact VO']].
    + intros Q. apply map_eq_nil in Q. subst x. apply (mtext_some _ _ _ _ _ D). reflexivity.
    + rewrite Forall_map. apply Forall_forall. intros; apply mend_utf8.
  - split; [exact NN|exact K].
  - auto.
  - split; [exact VO|]. destruct (v_offset_range _ _ _ D') as (y & E & F). injection E as <-. exact F.
Qed.

(** ** Parameters *)
Lemma param_same v v' : param_normal v = Some v' -> v' = v.
Proof. destruct v as [u|[|c t]|l|[|a l]|n| |[|]]; cbn [param_normal]; try destruct (isnil _); congruence. Qed.
Lemma param_settled k v : wt_param k v = true -> match v with PVUri u => url_string u = [] | PVAddrs l => l = [] | _ => True end -> param_normal v <> None -> param_keeps k v.
Proof.
  intros T A N. destruct k as [|q| | |free ws|w| |], v as [u|t|l|l|n| |b]; try discriminate T; cbn [param_keeps param_normal] in *; auto.
  - destruct N. rewrite A. reflexivity.
  - intros ->. apply N. reflexivity.
  - destruct N. rewrite A. reflexivity.
  - destruct b; [reflexivity|]. destruct N. reflexivity.
Qed.
Lemma param_gone key k v : wt_param k v = true -> param_normal v = None -> param_encode key k v = [].
Proof.
  intros T N. destruct k as [|q| | |free ws|w| |], v as [u|t|l|l|n| |b]; try discriminate T; cbn [param_encode param_normal] in *; try discriminate N.
  - destruct (isnil (url_string u)); [reflexivity|discriminate].
  - destruct t; [reflexivity|discriminate].
  - destruct l; [reflexivity|discriminate].
  - destruct t; [reflexivity|discriminate].
  - destruct b; [discriminate|reflexivity].
Qed.
Definition pnorm (o : option pval) : option pval := match o with Some v => param_normal v | None => None end.
Lemma params_same : forall ps l, Forall2 (fun q o => forall v, o = Some v -> wt_param (snd (param_spec q)) v = true) ps l -> params_encode ps (map pnorm l) = params_encode ps l.
Proof.
  induction 1 as [|q o ps l T _ IH]; [reflexivity|]. destruct o as [v|]; [|exact IH]. cbn [map pnorm params_encode]. specialize (T v eq_refl). unfold pkind_of. destruct (param_normal v) as [v'|] eqn:N.
  - rewrite (param_same _ _ N), IH. reflexivity.
  - rewrite (param_gone (keyword q) _ _ T N). exact IH.
Qed.


Lemma values_same : forall vs vl first, (forall v, In (Some v) vl -> value_settles v) -> values_encode first vs (map (option_map value_normal) vl) = values_encode first vs vl.
Proof.
  induction vs as [|[w k] vs IH]; intros vl first H; [reflexivity|]. destruct vl as [|[v|] vl]; [reflexivity| |]; cbn [map option_map values_encode].
  - rewrite (normal_aencode v) by (apply H; left; reflexivity). rewrite IH by (intros; apply H; right; assumption). reflexivity.
  - rewrite IH by (intros; apply H; right; assumption). reflexivity.
Qed.

(** ** Properties *)
Lemma normal_kind v : kind_of (value_normal v) = kind_of v.
Proof. destruct v; try reflexivity. destruct r; reflexivity. Qed.
Lemma one_value {A B C} (a : list A) (b : list B) (v v' : C) : In (Some v') (map (fun _ => None) a ++ Some v :: map (fun _ => None) b) -> v' = v.
Proof.
  intros I. apply in_app_iff in I as [I|[I|I]]; [apply in_map_iff in I as (? & I & _); discriminate|congruence|apply in_map_iff in I as (? & I & _); discriminate].
Qed.
Lemma prop_settled pid l p : cline_wf l = true -> prop_decode pid (params_tokens (cl_params l)) (cl_value l) = Ok p -> prop_typed pid p -> prop_settles pid p ->
  prop_valid pid p = None /\ prop_valid pid (prop_normal p) = None /\ prop_good pid (prop_normal p) /\ prop_encode pid (prop_normal p) = prop_encode pid p.
Proof.
  intros W D T (NE & KV & KP). pose proof W as WL. unfold cline_wf in W. rewrite !andb_true_iff in W. destruct W as [[_ WP] WV]. unfold prop_encode, prop_good. unfold prop_typed in T. destruct (prop_spec pid) as [key pk] eqn:E'. assert (E : snd (prop_spec pid) = pk) by (rewrite E'; reflexivity). cbn [snd] in *. destruct pk as [ps vs|ws|k].
  - destruct (struct_read _ _ _ _ _ _ E D) as (lp & a & w & k & b & v & -> & F2 & (EV & _) & K & m & DV). cbn [prop_value] in KV. destruct T as [TP _]. cbn [prop_normal].
    destruct (value_settled _ _ _ _ DV WV) as (V1 & V2 & V3); [apply KV; apply in_app_iff; right; left; reflexivity|].
    assert (VP : prop_valid pid (PStruct lp (map (fun _ => None) a ++ Some v :: map (fun _ => None) b)) = None).
    { apply (prop_refused pid l _ WL D). intros v' I. cbn [prop_value] in I. apply one_value in I. subst v'. apply (value_refused _ _ _ _ DV WV), V1. }
    assert (VL : map (option_map value_normal) (map (fun _ => None) a ++ Some v :: map (fun _ => None) b) = map (fun _ => None) a ++ Some (value_normal v) :: map (fun _ => None) b) by (rewrite map_app; cbn [map option_map]; rewrite !map_map; reflexivity).
    split; [exact VP|]. split; [|split; [split|]].
    + apply prop_valid_iff in VP. apply prop_valid_iff. unfold prop_ok in *. rewrite E in *. destruct VP as (P1 & _ & _). rewrite VL. split; [|split].
      * intros q v' I. apply P1. clear - I. revert lp I. induction ps as [|q' ps IH]; intros lp I; [destruct I|]. destruct lp as [|o lp]; [destruct I|]. cbn [map combine In] in *. destruct I as [I|I]; [left|right; apply IH, I].
        apply pair_equal_spec in I as [-> I]. destruct o as [v0|]; [|discriminate]. rewrite (param_same _ _ I). reflexivity.
      * intros v' I. apply one_value in I. subst v'. exact V2.
      * intros _. exists (map (fun _ => None) a), (value_normal v), (map (fun _ => None) b). split; [reflexivity|]. split; apply Forall_forall; intros o I; apply in_map_iff in I as (? & <- & _); reflexivity.
    + change (fun o => match o with Some v => param_normal v | None => None end) with pnorm. assert (NE' : forall q v, In (q, Some v) (combine ps lp) -> forall s c, text_of (snd (param_spec q)) v s -> In c s -> ~ special68 c).
      { intros q v0 I s c Tx J S'. apply NE. unfold needs_escape. do 8 eexists. repeat split; eauto. }
      clear - F2 KP NE' WP TP. induction F2 as [|q o ps lp R _ IH]; constructor.
      * intros v N. destruct o as [v1|]; [|discriminate]. cbn [pnorm] in N. pose proof (param_same _ _ N) as ->. destruct R as [[_ Q]|(x & v0 & G & PD & Q)]; [discriminate|]. injection Q as <-.
        apply (param_kept _ x); [|exact PD|apply param_settled; [|apply KP; left; reflexivity|congruence]|apply NE'; left; reflexivity].
        -- rewrite forallb_forall in WP. apply WP. assert (I : In x (given (fst (param_spec q)) (cl_params l))) by (rewrite G; left; reflexivity). unfold given in I. apply filter_In in I. apply I.
        -- inversion TP as [|? ? ? ? T0 _]; subst. apply T0. reflexivity.
      * apply IH; [intros v I; apply KP; right; exact I|inversion TP as [|? ? ? ? _ T1]; subst; exact T1|intros q' v' I; apply NE'; right; exact I].
    + exists a, b, w, (value_normal v). split; [|split; [exact VL|exact V3]]. rewrite EV, normal_kind, K. reflexivity.
    + f_equal. change (fun o => match o with Some v => param_normal v | None => None end) with pnorm. rewrite (params_same _ _ TP), values_same by exact KV. reflexivity.
  - unfold prop_decode in D. rewrite E in D. destruct (index_of _ ws) as [n|] eqn:IX; [|discriminate]. apply Ok_inj in D. subst p. apply index_small in IX. cbn [prop_normal].
    assert (V : prop_valid pid (PEnum (Z.of_nat n)) = None) by (apply prop_valid_iff; unfold prop_ok; rewrite E; lia). split; [exact V|]. split; [exact V|]. split; [lia|reflexivity].
  - unfold prop_decode in D. rewrite E in D. apply bind_ok in D as (v & DV & D). apply Ok_inj in D. subst p. cbn [prop_normal].
    destruct (value_settled _ _ _ _ DV WV) as (V1 & V2 & V3); [apply KV; reflexivity|]. split; [apply prop_valid_iff; unfold prop_ok; rewrite E; apply value_valid_iff, V1|].
    split; [apply prop_valid_iff; unfold prop_ok; rewrite E; exact V2|]. split; [split; [|exact V3]|].
    + rewrite normal_kind. exact (value_kind _ _ _ _ DV).
    + rewrite normal_aencode by (apply KV; reflexivity). reflexivity.
Qed.

(** ** Components *)
Lemma normal_eq id fs : normal (Sec id fs) = Sec id (map (map val_normal) fs).
Proof. reflexivity. Qed.
Lemma part_normal y x : part_of y (normal x) -> exists z, part_of z x /\ y = normal z.
Proof.
  induction x as [id fs IH] using sec_induct. rewrite normal_eq. intros P. inversion P as [x E|y' x id' fs' vs I J Px E1 E2|y' x id' fs' vs I J Px E1 E2]; subst; [exists (Sec id fs); split; [constructor|reflexivity]| |].
  - apply in_map_iff in I as (ws & <- & I). apply in_map_iff in J as (v & V & J). destruct v as [pid p|z|[z|]]; try discriminate V. injection V as <-. destruct (IH ws z I (or_introl J) Px) as (t & T & ->). exists t. split; [eapply Part_sec; eauto|reflexivity].
  - apply in_map_iff in I as (ws & <- & I). apply in_map_iff in J as (v & V & J). destruct v as [pid p|z|[z|]]; try discriminate V. injection V as <-. destruct (IH ws z I (or_intror J) Px) as (t & T & ->). exists t. split; [eapply Part_alarm; eauto|reflexivity].
Qed.
Lemma normal_fields z : sec_fields (normal z) = map (map val_normal) (sec_fields z).
Proof. destruct z. reflexivity. Qed.
Lemma normal_id z : sec_id (normal z) = sec_id z.
Proof. destruct z. reflexivity. Qed.
Lemma prop_of_normal x pid p : has_prop (normal x) pid p -> exists q, has_prop x pid q /\ p = prop_normal q.
Proof.
  intros (y & vs & P & I & J). apply part_normal in P as (z & P & ->). rewrite normal_fields in I. apply in_map_iff in I as (ws & <- & I). apply in_map_iff in J as (v & V & J).
  destruct v as [pid' q|?|[?|]]; try discriminate V. injection V as <- <-. exists q. split; [|reflexivity]. exists z, ws. auto.
Qed.
Lemma alarms_normal x : (forall y vs, part_of y x -> In vs (sec_fields y) -> ~ In (FVAlarm None) vs) -> forall y vs, part_of y (normal x) -> In vs (sec_fields y) -> ~ In (FVAlarm None) vs.
Proof.
  intros A y vs P I J. apply part_normal in P as (z & P & ->). rewrite normal_fields in I. apply in_map_iff in I as (ws & <- & I). apply in_map_iff in J as (v & V & J).
  destruct v as [pid' q|?|[?|]]; try discriminate V. exact (A z ws P I J).
Qed.
Lemma held_normal n z : held n (normal z) = map val_normal (held n z).
Proof.
  destruct z as [id fs]. unfold held. rewrite normal_eq. cbn [sec_id sec_fields]. generalize (fields_of id). intros fds. revert fs. induction fds as [|fd fds IH]; intros fs; [reflexivity|].
  destruct fs as [|vs fs]; [reflexivity|]. cbn [map combine flat_map fst snd]. rewrite IH, map_app. destruct (beq (fd_key fd) n); reflexivity.
Qed.
Lemma has_normal n z : has_field n (normal z) <-> has_field n z.
Proof. unfold has_field. rewrite held_normal. destruct (held (bs n) z); cbn; split; congruence. Qed.
Lemma rules_normal x : rules_met x -> rules_met (normal x).
Proof.
  intros R y P. apply part_normal in P as (z & P & ->). specialize (R z P). unfold obeys in *. rewrite normal_id. destruct (sec_id z); rewrite ?has_normal; exact R.
Qed.
Lemma encode_normal x : (forall pid p, has_prop x pid p -> prop_encode pid (prop_normal p) = prop_encode pid p) -> sec_encode (normal x) = sec_encode x.
Proof.
  induction x as [id fs IH] using sec_induct. intros H. rewrite normal_eq.
  change (sec_encode (Sec id (map (map val_normal) fs))) with ((if sp_own (sec_spec id) then [Wr (begin_line (sp_name (sec_spec id)))] else []) ++ flat_map (flat_map fval_encode) (map (map val_normal) fs) ++ (if sp_own (sec_spec id) then [Wr (end_line (sp_name (sec_spec id)))] else [])).
  change (sec_encode (Sec id fs)) with ((if sp_own (sec_spec id) then [Wr (begin_line (sp_name (sec_spec id)))] else []) ++ flat_map (flat_map fval_encode) fs ++ (if sp_own (sec_spec id) then [Wr (end_line (sp_name (sec_spec id)))] else [])).
  f_equal. f_equal. rewrite !flat_map_concat_map. f_equal. rewrite map_map. apply map_ext_in. intros vs I. rewrite !flat_map_concat_map. f_equal. rewrite map_map. apply map_ext_in. intros v J. destruct v as [pid p|z|[z|]].
  - apply H. apply has_prop_eq. left. eauto.
  - apply (IH vs z I (or_introl J)). intros pid p P. apply H. apply has_prop_eq. right. eauto 6.
  - change (fval_encode (val_normal (FVAlarm (Some z)))) with ([Wr (begin_line (bs "VALARM")); Wr (bs "ACTION:" ++ alarm_word (sec_id (normal z)) ++ CRLF)] ++ sec_encode (normal z) ++ [Wr (end_line (bs "VALARM"))]).
    change (fval_encode (FVAlarm (Some z))) with ([Wr (begin_line (bs "VALARM")); Wr (bs "ACTION:" ++ alarm_word (sec_id z) ++ CRLF)] ++ sec_encode z ++ [Wr (end_line (bs "VALARM"))]).
    rewrite normal_id, (IH vs z I (or_intror J)); [reflexivity|]. intros pid p P. apply H. apply has_prop_eq. right. eauto 6.
  - reflexivity.
Qed.
Lemma good_normal x : cal_typed x -> (forall y vs, part_of y x -> In vs (sec_fields y) -> ~ In (FVAlarm None) vs) -> (forall pid p, has_prop x pid p -> prop_good pid (prop_normal p)) -> cal_good (normal x).
Proof.
  induction x as [id fs IH] using sec_induct. intros T A G. inversion T as [? ? L F]; subst. rewrite normal_eq. constructor; [rewrite map_length; exact L|]. intros i fd vs' N V'. rewrite nth_error_map in V'. destruct (nth_error fs i) as [vs|] eqn:V; [|discriminate]. injection V' as <-. destruct (F i fd vs N V) as [C FT]. split; [rewrite map_length; exact C|].
  rewrite Forall_map. apply Forall_forall. intros v I. rewrite Forall_forall in FT. specialize (FT v I). apply nth_error_In in V. inversion FT as [pid p PT Q|sid fs' CT Q|w sid fs' W CT Q|Q]; subst.
  - constructor. apply G. apply has_prop_eq. left. eauto.
  - cbn [val_normal]. change (fval_good (FTSec sid) (FVSec (Sec sid (map (map val_normal) fs')))). constructor. rewrite <- normal_eq; apply (IH vs (Sec sid fs') V); [left; exact I|exact CT| |]; [intros x ws P; apply A; eapply Part_sec; eauto|]. intros pid p P. apply G. apply has_prop_eq. right. exists vs, (Sec sid fs'). auto.
  - change (fval_good FTAlarm (FVAlarm (Some (Sec sid (map (map val_normal) fs'))))). econstructor; [exact W|]. rewrite <- normal_eq; apply (IH vs (Sec sid fs') V); [right; exact I|exact CT| |]; [intros x ws P; apply A; eapply Part_alarm; eauto|]. intros pid p P. apply G. apply has_prop_eq. right. exists vs, (Sec sid fs'). auto.
  - destruct (A (Sec id fs) vs); [constructor|exact V|exact I].
Qed.

Lemma prop_typed_in x pid p : cal_typed x -> has_prop x pid p -> prop_typed pid p.
Proof.
  intros T ([id fs] & vs & P & I & J). pose proof (typed_part _ _ P T) as Ty. inversion Ty as [? ? L F]; subst. cbn [sec_fields] in I. destruct (In_nth_error _ _ I) as (i & N). destruct (nth_error (fields_of id) i) as [fd|] eqn:NF.
  - destruct (F i fd vs NF N) as [_ FT]. rewrite Forall_forall in FT. specialize (FT _ J). inversion FT; subst; assumption.
  - apply nth_error_None in NF. assert (Q : nth_error fs i <> None) by congruence. apply nth_error_Some in Q. lia.
Qed.
Theorem decoded_settled s cal : decode_bytes s = Ok cal -> cal_settles cal ->
  sec_id (normal cal) = SCalendar /\ cal_good (normal cal) /\ rules_met (normal cal) /\ sec_valid (normal cal) = None /\ forall W E (wr : W -> bytes -> W * option E) w, Encode wr w (normal cal) = Encode wr w cal.
Proof.
  intros D K. destruct (decoded_props _ _ D) as [HP HA]. pose proof (decoded_typed _ _ D) as T.
  assert (P : forall pid p, has_prop cal pid p -> prop_valid pid p = None /\ prop_valid pid (prop_normal p) = None /\ prop_good pid (prop_normal p) /\ prop_encode pid (prop_normal p) = prop_encode pid p).
  { intros pid p H. destruct (HP _ _ H) as (l & W & PD). apply (prop_settled pid l p W PD); [|apply K, H]. eapply prop_typed_in; eauto. }
  assert (V1 : sec_valid cal = None) by (apply sec_valid_exact; split; [intros; apply P; assumption|exact HA]).
  assert (V2 : sec_valid (normal cal) = None) by (apply sec_valid_exact; split; [intros pid p H; apply prop_of_normal in H as (q & H & ->); apply P, H|apply alarms_normal, HA]).
  split; [rewrite normal_id; eapply decoded_calendar, D|]. split; [apply good_normal; [exact T|exact HA|intros; apply P; assumption]|]. split; [apply rules_normal; eapply decoded_rules, D|]. split; [exact V2|].
  intros W E wr w. unfold Encode. rewrite V1, V2, (encode_normal cal) by (intros; apply P; assumption). reflexivity.
Qed.
End N.
