(** What is read of calendars that a program has put together. *)
From Coq Require Import String Ascii ZArith Bool List Lia.
From Verif Require Import DateProofs PropProofs GoStrings Base Lib SpecLines Unfolder Tokeniser SpecContent GoTime Types Params ParamTable PropTable Props SecTable Sections Folder Codec UnfolderProofs DecodeProofs FolderProofs SpecTree TreeProofs ExactProofs SpecRules SpecEdits SpecTime TimeProofs SpecParams SpecRecur SpecProps SpecRfc ShapeProofs EncodeProofs PrefixProofs HangProofs GroupProofs SpecCal CalProofs RoundProofs LastModProofs SpecNormal NormalProofs SpecAbroad SpecBuilt.
From Verif Require MachineProofs.
Import ListNotations.
Local Open Scope Z_scope.

Section B.
Context {env : Env}.

Lemma second_zone id t : write_timezone (second_of id t) = write_timezone t.
Proof. unfold write_timezone, second_of. cbn [t_loc]. destruct (t_loc t); reflexivity. Qed.
Lemma second_text id t : datetime_encode (second_of id t) = datetime_encode t.
Proof.
  assert (W : wall (second_of id t) = wall t) by (unfold wall, second_of; cbn [t_loc t_sec]; destruct (t_loc t); reflexivity).
  unfold datetime_encode, format_datetime, format_date, format_clock. rewrite W. unfold second_of. cbn [t_loc]. destruct (t_loc t); reflexivity.
Qed.
Lemma day_text t : date_encode (day_of t) = date_encode t.
Proof.
  unfold date_encode, format_date. replace (wall (day_of t) / 86400) with (wall t / 86400); [reflexivity|].
  unfold day_of, wall at 2. cbn [t_sec t_loc]. change (offset_at LUTC ?x) with 0. rewrite Z.add_0_r, Z.mul_comm, Z.div_mul by lia. reflexivity.
Qed.
Lemma clock_text t : clock_encode (clock_of t) = clock_encode t.
Proof.
  unfold clock_of. destruct (t_loc t) eqn:L; try reflexivity. unfold clock_encode, format_clock. rewrite L. cbn [t_loc].
  replace (wall (Time (t_sec t mod 86400 - 62167219200) 0 LUTC) mod 86400) with (wall t mod 86400); [reflexivity|].
  unfold wall. rewrite L. cbn [t_sec t_loc]. change (offset_at LUTC ?x) with 0. rewrite !Z.add_0_r. change 62167219200 with (719528 * 86400).
  rewrite <- (Zminus_mod_idemp_r _ (719528 * 86400)), Z_mod_mult, Z.sub_0_r, Z.mod_mod by lia. reflexivity.
Qed.
Lemma clock_zone t : write_timezone (clock_of t) = write_timezone t.
Proof. unfold clock_of, write_timezone. destruct (t_loc t) eqn:L; [reflexivity|rewrite L; reflexivity|rewrite L; reflexivity]. Qed.
Lemma unless_false t t' : is_zero t = false -> is_zero (unless_zero t t') = false.
Proof. intros Z. unfold unless_zero. destruct (is_zero t') eqn:Z'; assumption. Qed.
Lemma unless_datetime t t' : datetime_encode t' = datetime_encode t -> datetime_encode (unless_zero t t') = datetime_encode t.
Proof. unfold unless_zero. destruct (is_zero t'); auto. Qed.
Lemma unless_date t t' : date_encode t' = date_encode t -> date_encode (unless_zero t t') = date_encode t.
Proof. unfold unless_zero. destruct (is_zero t'); auto. Qed.
Lemma unless_zone t t' : write_timezone t' = write_timezone t -> write_timezone (unless_zero t t') = write_timezone t.
Proof. unfold unless_zero. destruct (is_zero t'); auto. Qed.
Lemma period_text p : period_encode (period_said p) = period_encode p /\ write_timezone (p_start (period_said p)) = write_timezone (p_start p).
Proof.
  unfold period_said, period_encode. destruct (is_zero (p_end p)) eqn:Z; cbn [p_start p_end p_dur]; (split; [|apply second_zone]); rewrite second_text.
  - reflexivity.
  - rewrite (unless_false _ _ Z), unless_datetime by apply second_text. reflexivity.
Qed.
Lemma until_text r : let u := snd (until_said r) in let k := fst (until_said r) in
  write_timezone u = write_timezone (r_until r) /\
  (if negb (r_count r =? 0) then [bs ";COUNT="; fmt_uint (r_count r)] else if negb (is_zero u) then [bs ";UNTIL="] ++ (if k then datetime_encode u else date_encode u) else []) =
  (if negb (r_count r =? 0) then [bs ";COUNT="; fmt_uint (r_count r)] else if negb (is_zero (r_until r)) then [bs ";UNTIL="] ++ (if r_untiltime r then datetime_encode (r_until r) else date_encode (r_until r)) else []).
Proof.
  cbv zeta. unfold until_said. set (t := r_until r). set (k := r_untiltime r).
  assert (ZS : is_zero t = true -> is_zero (unless_zero t (second_of 0 t)) = true).
  { intros H. unfold unless_zero. destruct (is_zero (second_of 0 t)) eqn:Q; [exact H|]. unfold is_zero in *. apply andb_true_iff in H as [H _]. unfold second_of in Q. cbn [t_sec t_nsec] in Q. rewrite H in Q. discriminate Q. }
  assert (ZE : is_zero (unless_zero t (second_of 0 t)) = is_zero t) by (destruct (is_zero t) eqn:Q; [apply ZS; reflexivity|apply unless_false, Q]).
  assert (M : write_timezone (unless_zero t (second_of 0 t)) = write_timezone t) by apply unless_zone, second_zone.
  assert (X : datetime_encode (unless_zero t (second_of 0 t)) = datetime_encode t) by apply unless_datetime, second_text.
  destruct (t_loc t) as [| |z i] eqn:L.
  3: { cbn [fst snd]. destruct k; [|split; reflexivity]. rewrite ZE, M, X. split; reflexivity. }
  1, 2: assert (N : write_timezone t = []) by (unfold write_timezone; rewrite L; reflexivity).
  1, 2: destruct (r_count r =? 0) eqn:C; cbn [negb orb]; [|rewrite N; split; reflexivity].
  1, 2: destruct (is_zero t) eqn:Z; cbn [fst snd negb]; [rewrite N; split; reflexivity|].
  1, 2: destruct k; [rewrite ZE, M, X; split; reflexivity|].
  1, 2: split; [apply unless_zone; rewrite N; reflexivity|]; rewrite (unless_false _ _ Z), unless_date by apply day_text; reflexivity.
Qed.
Lemma recur_text r : recur_encode (recur_said r) = recur_encode r /\ write_timezone (r_until (recur_said r)) = write_timezone (r_until r).
Proof.
  pose proof (until_text r) as U. cbv zeta in U. destruct U as [U1 U2]. split; [|exact U1]. unfold recur_encode, recur_said.
  cbn [r_freq r_wkst r_untiltime r_until r_count r_interval r_bysecond r_byminute r_byhour r_byday r_bymonthday r_byyearday r_byweekno r_bymonth r_bysetpos]. rewrite U2. reflexivity.
Qed.
Lemma value_text v : value_aencode (value_said v) = value_aencode v.
Proof.
  destruct v as [| | |t|t| | | | |p|r|s|l|t| |]; cbn [value_said]; try reflexivity; unfold value_aencode; cbn [value_encode].
  - rewrite day_text. reflexivity.
  - rewrite second_text, second_zone. reflexivity.
  - destruct (period_text p) as [-> ->]. reflexivity.
  - destruct (recur_text r) as [-> ->]. reflexivity.
  - unfold text_encode. rewrite mend_bytes. reflexivity.
  - unfold mtext_encode. rewrite texts_mend. reflexivity.
  - rewrite clock_text, clock_zone. reflexivity.
Qed.
Lemma values_text : forall vs vl first, values_encode first vs (map (option_map value_said) vl) = values_encode first vs vl.
Proof.
  induction vs as [|[w k] vs IH]; intros vl first; [reflexivity|]. destruct vl as [|[v|] vl]; [reflexivity| |]; cbn [map option_map values_encode]; rewrite IH; [rewrite value_text|]; reflexivity.
Qed.
Lemma enum_text ws n : enum_word true ws (if (1 <=? n) && (n <=? Z.of_nat (length ws)) then n else 0) = enum_word true ws n.
Proof.
  destruct ((1 <=? n) && (n <=? Z.of_nat (length ws))) eqn:Q; [reflexivity|]. unfold enum_word, enum_base. change (1 <=? 0) with false. cbv iota. destruct (1 <=? n) eqn:B; [|reflexivity].
  destruct (nth_error ws (Z.to_nat (n - 1))) eqn:N; [|reflexivity]. assert (H : nth_error ws (Z.to_nat (n - 1)) <> None) by congruence. apply nth_error_Some in H. lia.
Qed.
Lemma param_text key k v : match param_said k v with Some v' => param_encode key k v' | None => [] end = param_encode key k v.
Proof.
  destruct k as [|qq| | |[|] ws|w| |], v as [u|[|c t]|[|s ss]|[|a aa]|n| |[|]]; try reflexivity; unfold param_said.
  - cbn [param_encode]. destruct (isnil (url_string u)) eqn:N; [reflexivity|]. cbn [param_encode]. rewrite N. reflexivity.
  - cbn [param_encode]. rewrite enum_text. reflexivity.
Qed.
Lemma params_text : forall ps l, params_encode ps (params_said ps l) = params_encode ps l.
Proof.
  induction ps as [|q ps IH]; intros l; [destruct l; reflexivity|]. destruct l as [|[v|] l]; [reflexivity| |]; cbn [params_said params_encode]; [|apply IH].
  rewrite <- (param_text (keyword q) (pkind_of q) v). unfold pkind_of. destruct (param_said (snd (param_spec q)) v); rewrite IH; reflexivity.
Qed.
Lemma prop_text pid p : prop_encode pid (prop_said pid p) = prop_encode pid p.
Proof.
  unfold prop_encode, prop_said. destruct (prop_spec pid) as [key pk]. cbn [snd]. destruct pk as [ps vs|ws|k], p as [l vl|n|v]; try reflexivity.
  - rewrite params_text, values_text. reflexivity.
  - rewrite value_text. reflexivity.
Qed.
Lemma said_eq id fs : said (Sec id fs) = Sec id (map (map val_said) fs).
Proof. reflexivity. Qed.
Lemma flat_map_map {A B C} (f : B -> list C) (g : A -> B) l : flat_map f (map g l) = flat_map (fun x => f (g x)) l.
Proof. induction l as [|a l IH]; [reflexivity|]. cbn [map flat_map]. rewrite IH. reflexivity. Qed.
Lemma flat_map_in {A B} (f g : A -> list B) l : (forall x, In x l -> f x = g x) -> flat_map f l = flat_map g l.
Proof. intros H. induction l as [|a l IH]; [reflexivity|]. cbn [flat_map]. rewrite (H a (or_introl eq_refl)), IH; [reflexivity|]. intros x I. apply H. right. exact I. Qed.
Lemma sec_text x : sec_encode (said x) = sec_encode x /\ sec_id (said x) = sec_id x.
Proof.
  induction x as [id fs IH] using sec_induct. split; [|reflexivity]. rewrite said_eq, !CalProofs.sec_encode_eq. f_equal. f_equal. rewrite flat_map_map. apply flat_map_in. intros vs I. rewrite flat_map_map. apply flat_map_in. intros v J.
  destruct v as [pid p|x|[x|]]; cbn [val_said].
  - apply prop_text.
  - apply (IH vs x I (or_introl J)).
  - destruct (IH vs x I (or_intror J)) as [E1 E2]. change (fval_encode (FVAlarm (Some (said x))) = fval_encode (FVAlarm (Some x))). rewrite (MachineProofs.alarm_encode (said x)), (MachineProofs.alarm_encode x), E1, E2. reflexivity.
  - reflexivity.
Qed.

(** ** The same rules are kept *)
Lemma part_said y x : part_of y (said x) -> exists z, part_of z x /\ y = said z.
Proof.
  induction x as [id fs IH] using sec_induct. rewrite said_eq. intros P. inversion P as [x E|y' x id' fs' vs I J Px E1 E2|y' x id' fs' vs I J Px E1 E2]; subst; [exists (Sec id fs); split; [constructor|reflexivity]| |].
  - apply in_map_iff in I as (ws & <- & I). apply in_map_iff in J as (v & V & J). destruct v as [pid p|z|[z|]]; try discriminate V. injection V as <-. destruct (IH ws z I (or_introl J) Px) as (t & T & ->). exists t. split; [eapply Part_sec; eauto|reflexivity].
  - apply in_map_iff in I as (ws & <- & I). apply in_map_iff in J as (v & V & J). destruct v as [pid p|z|[z|]]; try discriminate V. injection V as <-. destruct (IH ws z I (or_intror J) Px) as (t & T & ->). exists t. split; [eapply Part_alarm; eauto|reflexivity].
Qed.
Lemma held_said n z : held n (said z) = map val_said (held n z).
Proof.
  destruct z as [id fs]. unfold held. rewrite said_eq. cbn [sec_id sec_fields]. generalize (fields_of id). intros fds. revert fs. induction fds as [|fd fds IH]; intros fs; [reflexivity|].
  destruct fs as [|vs fs]; [reflexivity|]. cbn [map combine flat_map fst snd]. rewrite IH, map_app. destruct (beq (fd_key fd) n); reflexivity.
Qed.
Lemma has_said n z : has_field n (said z) <-> has_field n z.
Proof. unfold has_field. rewrite held_said. destruct (held (bs n) z); cbn [map]; split; intros H; (exact H || discriminate). Qed.
Lemma obeys_said z : obeys z -> obeys (said z).
Proof.
  unfold obeys. rewrite (proj2 (sec_text z)). pose proof (fun n => has_said n z) as H. destruct (sec_id z); try (intros _; exact Logic.I); rewrite ?H; auto.
Qed.
Lemma rules_said x : rules_met x -> rules_met (said x).
Proof. intros R y P. apply part_said in P as (z & P & ->). apply obeys_said, R, P. Qed.

(** ** Through Encode and Decode *)
Lemma same_writes cal cal' : sec_valid cal = None -> sec_encode cal = sec_encode cal' -> sec_id cal' = SCalendar -> cal_good cal' -> rules_met cal' -> read_again cal (Ok (forget cal')).
Proof.
  intros V EE I G R. destruct (cal_text cal' I G) as (qs & items & EN' & W & C & M). assert (EN : sec_encode cal = wrs (qs ++ [last_piece])) by (rewrite EE; exact EN'). clear EN'.
  assert (E : exists out, Encode ok_writer [] cal = EncDone None out).
  { unfold Encode. rewrite V, run_trace_spec. cbv zeta. rewrite EN.
    replace (hangs (wrs (qs ++ [last_piece]))) with false; [|symmetry; clear; generalize (qs ++ [last_piece]); induction l; [reflexivity|exact IHl]].
    unfold new_folder. destruct (folder_writes_ok (pieces (wrs (qs ++ [last_piece]))) 0 []) as (new & -> & _). eexists. reflexivity. }
  destruct E as (out & E). exists out. split; [exact E|]. intros w sizes S1 S2.
  pose proof (encode_ok_out _ _ _ E) as [_ O]. rewrite EN, pieces_wrs, folds_app in O. pose proof (folds_line qs C0 0 ltac:(discriminate)) as FL. rewrite C in FL.
  assert (NN : begin_of (bs "VCALENDAR") :: flat_map ilines items <> []) by discriminate. specialize (FL (lines_runc _ C0 NN)). destruct (folds 0 qs) as [o l]. cbn [snd] in FL. subst l.
  assert (O' : concat out = o ++ last_piece) by (rewrite O; reflexivity).
  destruct (decode_one_read (concat out) w sizes) as (n & N); [|exact S1|exact S2|].
  { intros _. rewrite O'. apply last_piece_tail. }
  exists n. intros fuel F. rewrite (N fuel F), (encode_unfold _ _ _ E). unfold content. rewrite EN, pieces_wrs, concat_app, C. cbn [concat]. rewrite app_nil_r.
  assert (Q : lines_text (begin_of (bs "VCALENDAR") :: flat_map ilines items) ++ last_piece = lines_text (begin_of (bs "VCALENDAR") :: flat_map ilines items ++ [end_of (bs "VCALENDAR")])).
  { rewrite app_comm_cons, lines_text_app. reflexivity. }
  rewrite Q, (lines_unfold _ W), <- Q. apply (cal_decodes items (forget cal') _ W M). split; [|reflexivity]. apply (extras_rules cal' G). exact R.
Qed.
Theorem built_read cal : sec_id cal = SCalendar -> sec_valid cal = None -> cal_good (said cal) -> rules_met cal -> read_again cal (Ok (forget (said cal))).
Proof. intros I V G R. destruct (sec_text cal) as [E Q]. apply same_writes; [exact V|symmetry; exact E|rewrite Q; exact I|exact G|apply rules_said, R]. Qed.

(** ** Values that survive are left as they are *)
Lemma second_same id t : moment_good id t -> second_of id t = t.
Proof.
  intros (N & _ & L). destruct t as [s n l]. unfold second_of. cbn [t_sec t_nsec t_loc] in *. subst n. destruct l as [| |z i]; [reflexivity|reflexivity|]. destruct L as [-> _]. reflexivity.
Qed.
Lemma day_same t : utc_in_years t -> t_sec t mod 86400 = 0 -> day_of t = t.
Proof.
  intros (s & -> & _) M. cbn [t_sec] in M. unfold day_of. cbn [t_sec t_loc]. change (offset_at LUTC s) with 0. rewrite Z.add_0_r. f_equal. pose proof (Z_div_mod_eq_full s 86400). lia.
Qed.
Lemma unless_same t : unless_zero t t = t.
Proof. unfold unless_zero. destruct (is_zero t); reflexivity. Qed.
Lemma zero_time_zero : is_zero zero_time = true.
Proof. reflexivity. Qed.
Lemma until_same r : until_good r -> recur_sensible r -> until_said r = (r_untiltime r, r_until r).
Proof.
  intros U (_ & C). unfold until_said. destruct U as [[U K]|(Z & [(K & G)|(K & Y & M)])].
  - rewrite U, K. cbn [t_loc zero_time]. rewrite zero_time_zero, orb_true_r. reflexivity.
  - rewrite K. destruct C as [C|C]; [|congruence]. rewrite C, Z. cbn [Z.eqb negb orb]. rewrite (second_same _ _ G), unless_same. destruct (t_loc (r_until r)); reflexivity.
  - rewrite K. destruct C as [C|C]; [|congruence]. rewrite C, Z. cbn [Z.eqb negb orb]. rewrite (day_same _ Y M), unless_same. destruct (t_loc (r_until r)); reflexivity.
Qed.
Lemma value_same v : value_good v -> value_said v = v.
Proof.
  destruct v as [| | |t|t| | | | |p|r|s|l|t| |]; cbn [value_good value_said]; try reflexivity.
  - intros [Y M]. rewrite (day_same t Y M). reflexivity.
  - intros G. rewrite (second_same _ _ G). reflexivity.
  - intros (GS & G). f_equal. unfold period_said. destruct p as [a b d]. cbn [p_start p_end p_dur] in *. rewrite (second_same _ _ GS). destruct G as [(GE & Z & _ & ->)|(-> & _)].
    + rewrite Z, (second_same _ _ GE), unless_same. reflexivity.
    + rewrite zero_time_zero. reflexivity.
  - intros (_ & _ & U & SE). f_equal. unfold recur_said. rewrite (until_same r U SE). destruct r. reflexivity.
  - intros [U _]. rewrite (mend_same s U). reflexivity.
  - intros (_ & U & _). f_equal. induction U as [|x l U _ IH]; [reflexivity|]. cbn [map]. rewrite (mend_same x U), IH. reflexivity.
  - intros (s & -> & B). f_equal. unfold clock_of. cbn [t_loc t_sec]. f_equal. rewrite <- (Z_mod_plus_full s 719528), Z.mod_small by lia. lia.
Qed.
Lemma param_same_said k v : param_good k v -> param_said k v = Some v.
Proof.
  destruct k as [|qq| | |[|] ws|w| |], v as [u|[|c t]|[|s ss]|[|a aa]|n| |[|]]; cbn [param_good param_said]; try contradiction; try reflexivity; try (intros [H _]; congruence); try discriminate.
  intros B. destruct ((1 <=? n) && (n <=? Z.of_nat (length ws))) eqn:Q; [reflexivity|]. replace n with 0 by lia. reflexivity.
Qed.
Lemma params_same_said ps l : Forall2 (fun q o => forall v, o = Some v -> param_good (snd (param_spec q)) v) ps l -> params_said ps l = l.
Proof. induction 1 as [|q o ps l G _ IH]; [reflexivity|]. destruct o as [v|]; cbn [params_said]; rewrite IH; [rewrite (param_same_said _ _ (G v eq_refl))|]; reflexivity. Qed.
Lemma prop_same pid p : prop_good pid p -> prop_said pid p = p.
Proof.
  unfold prop_good, prop_said. destruct (snd (prop_spec pid)) as [ps vs|ws|k], p as [l vl|n|v]; try contradiction; try reflexivity.
  - intros (P & a & b & w & v & -> & -> & G). rewrite (params_same_said _ _ P). f_equal. rewrite map_app. cbn [map option_map]. rewrite (value_same v G), !map_map. reflexivity.
  - intros [_ G]. rewrite (value_same v G). reflexivity.
Qed.
Theorem good_said x : cal_good x -> said x = x.
Proof.
  induction x as [id fs IH] using sec_induct. intros G. inversion G as [? ? L F]; subst. rewrite said_eq. f_equal.
  transitivity (map (fun vs : list fval => vs) fs); [|apply map_id]. apply map_ext_in. intros vs I. transitivity (map (fun v : fval => v) vs); [|apply map_id]. apply map_ext_in. intros v J.
  destruct (In_nth_error _ _ I) as (k & K). assert (exists fd, nth_error (fields_of id) k = Some fd) as (fd & FD).
  { destruct (nth_error (fields_of id) k) eqn:Q; [eauto|]. apply nth_error_None in Q. assert (H : nth_error fs k <> None) by congruence. apply nth_error_Some in H. lia. }
  destruct (F k fd vs FD K) as [_ A]. rewrite Forall_forall in A. specialize (A v J). inversion A as [pid p PG|sid fs' CG|w sid fs' AC CG]; subst; cbn [val_said].
  - rewrite (prop_same pid p PG). reflexivity.
  - f_equal. apply (IH vs _ I (or_introl J) CG).
  - f_equal. f_equal. apply (IH vs _ I (or_intror J) CG).
Qed.

(** ** Written alike *)
Lemma content_said cal : content (said cal) = content cal.
Proof. unfold content. rewrite (proj1 (sec_text cal)). reflexivity. Qed.
Theorem built_alike cal cal' e e' out out' : sec_id cal = SCalendar -> sec_id cal' = SCalendar -> cal_good (said cal) -> cal_good (said cal') ->
  Encode ok_writer [] cal = EncDone e out -> Encode ok_writer [] cal' = EncDone e' out' -> (concat out = concat out' <-> said cal = said cal').
Proof.
  intros I I' G G' E E'. destruct (sec_text cal) as [S1 D]. destruct (sec_text cal') as [S2 D']. split; intros Q.
  - rewrite <- D in I. rewrite <- D' in I'. destruct (cal_says (said cal) I G) as (ls & items & CT & W & R & M). destruct (cal_says (said cal') I' G') as (ls' & items' & CT' & W' & R' & M').
    pose proof (encode_unfold cal e out E) as U. pose proof (encode_unfold cal' e' out' E') as U'. rewrite <- content_said in U, U'. rewrite Q, U', CT, CT' in U.
    rewrite (lines_unfold _ W), (lines_unfold _ W') in U. apply lines_text_inj in U; [|assumption|assumption]. subst ls'. rewrite R in R'. apply ren_wf in W. rewrite R in W.
    pose proof W as W2. rewrite R' in W2. assert (T : rest_ok CRLF) by (right; exists []; reflexivity).
    assert (U : frame_text (begin_of (bs "VCALENDAR")) items (end_of (bs "VCALENDAR")) ++ CRLF = frame_text (begin_of (bs "VCALENDAR")) items' (end_of (bs "VCALENDAR")) ++ CRLF).
    { injection R' as R'. apply app_inj_tail in R' as [R' _]. unfold frame_text. rewrite R'. reflexivity. }
    destruct (frames_same _ _ _ _ _ _ _ _ (cal_framed _ _ W M) (cal_framed _ _ W2 M') T T U) as (_ & QI & _). subst items'. exact (proj1 smeans_fun _ _ _ M _ M').
  - apply encode_ok_out in E as [_ ->]. apply encode_ok_out in E' as [_ ->]. rewrite <- S1, <- S2, Q. reflexivity.
Qed.
End B.
