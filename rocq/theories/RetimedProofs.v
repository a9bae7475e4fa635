(** Calendars with the same readings of clocks are written alike. *)
From Coq Require Import String Ascii ZArith Bool List Lia.
From Verif Require Import Base Lib GoTime Types Params ParamTable PropTable Props SecTable Sections Folder Codec SpecTree SpecRules SpecEdits SpecRfc ShapeProofs EncodeProofs PrefixProofs HangProofs GroupProofs SpecCal CalProofs SpecClock SpecAbroad SpecBuilt BuiltProofs SpecRetimed.
From Verif Require MachineProofs.
Import ListNotations.
Local Open Scope Z_scope.

Section R.
Context {env : Env}.
Context (f : time -> time) (F : forall t, same_clock t (f t)).

Lemma re_wall t : wall (f t) = wall t.
Proof. destruct (F t) as (_ & C & _). unfold clock_shows in C. unfold wall. exact C. Qed.
Lemma re_zero t : is_zero (f t) = is_zero t.
Proof. apply F. Qed.
Lemma re_zone t : write_timezone (f t) = write_timezone t.
Proof. destruct (F t) as (L & _). unfold write_timezone. destruct (t_loc t), (t_loc (f t)); try reflexivity; try discriminate L. rewrite L. reflexivity. Qed.
Lemma re_text t : datetime_encode (f t) = datetime_encode t.
Proof.
  unfold datetime_encode, format_datetime, format_date, format_clock. rewrite re_wall. destruct (F t) as (L & _). destruct (t_loc t), (t_loc (f t)); try reflexivity; discriminate L.
Qed.
Lemma re_day t : date_encode (f t) = date_encode t.
Proof. unfold date_encode, format_date. rewrite re_wall. reflexivity. Qed.
Lemma re_clock t : clock_encode (f t) = clock_encode t.
Proof. unfold clock_encode, format_clock. rewrite re_wall. destruct (F t) as (L & _). destruct (t_loc t), (t_loc (f t)); try reflexivity; discriminate L. Qed.
Lemma re_value v : value_aencode (value_retimed f v) = value_aencode v.
Proof.
  destruct v as [| | |t|t| | | | |p|r|s|l|t| |]; cbn [value_retimed]; try reflexivity; unfold value_aencode; cbn [value_encode].
  - rewrite re_day. reflexivity.
  - rewrite re_text, re_zone. reflexivity.
  - unfold period_encode. cbn [p_start p_end p_dur]. rewrite !re_text, re_zone, re_zero. reflexivity.
  - cbn [r_until]. rewrite re_zone. unfold recur_encode. cbn [r_freq r_wkst r_untiltime r_until r_count r_interval r_bysecond r_byminute r_byhour r_byday r_bymonthday r_byyearday r_byweekno r_bymonth r_bysetpos].
    rewrite re_zero, re_text, re_day. reflexivity.
  - rewrite re_clock, re_zone. reflexivity.
Qed.
Lemma re_values : forall vs vl first, values_encode first vs (map (option_map (value_retimed f)) vl) = values_encode first vs vl.
Proof.
  induction vs as [|[w k] vs IH]; intros vl first; [reflexivity|]. destruct vl as [|[v|] vl]; [reflexivity| |]; cbn [map option_map values_encode]; rewrite IH; [rewrite re_value|]; reflexivity.
Qed.
Lemma re_prop pid p : prop_encode pid (prop_retimed f p) = prop_encode pid p.
Proof.
  unfold prop_encode. destruct (prop_spec pid) as [key pk]. destruct pk as [ps vs|ws|k], p as [l vl|n|v]; cbn [prop_retimed]; try reflexivity.
  - rewrite re_values. reflexivity.
  - rewrite re_value. reflexivity.
Qed.
Lemma re_eq id fs : retimed f (Sec id fs) = Sec id (map (map (val_retimed f)) fs).
Proof. reflexivity. Qed.
Lemma re_sec x : sec_encode (retimed f x) = sec_encode x /\ sec_id (retimed f x) = sec_id x.
Proof.
  induction x as [id fs IH] using sec_induct. split; [|reflexivity]. rewrite re_eq, !CalProofs.sec_encode_eq. f_equal. f_equal. rewrite flat_map_map. apply flat_map_in. intros vs I. rewrite flat_map_map. apply flat_map_in. intros v J.
  destruct v as [pid p|x|[x|]]; cbn [val_retimed].
  - apply re_prop.
  - apply (IH vs x I (or_introl J)).
  - destruct (IH vs x I (or_intror J)) as [E1 E2]. change (fval_encode (FVAlarm (Some (retimed f x))) = fval_encode (FVAlarm (Some x))). rewrite (MachineProofs.alarm_encode (retimed f x)), (MachineProofs.alarm_encode x), E1, E2. reflexivity.
  - reflexivity.
Qed.
Lemma re_part y x : part_of y (retimed f x) -> exists z, part_of z x /\ y = retimed f z.
Proof.
  induction x as [id fs IH] using sec_induct. rewrite re_eq. intros P. inversion P as [x E|y' x id' fs' vs I J Px E1 E2|y' x id' fs' vs I J Px E1 E2]; subst; [exists (Sec id fs); split; [constructor|reflexivity]| |].
  - apply in_map_iff in I as (ws & <- & I). apply in_map_iff in J as (v & V & J). destruct v as [pid p|z|[z|]]; try discriminate V. injection V as <-. destruct (IH ws z I (or_introl J) Px) as (t & T & ->). exists t. split; [eapply Part_sec; eauto|reflexivity].
  - apply in_map_iff in I as (ws & <- & I). apply in_map_iff in J as (v & V & J). destruct v as [pid p|z|[z|]]; try discriminate V. injection V as <-. destruct (IH ws z I (or_intror J) Px) as (t & T & ->). exists t. split; [eapply Part_alarm; eauto|reflexivity].
Qed.
Lemma re_held n z : held n (retimed f z) = map (val_retimed f) (held n z).
Proof.
  destruct z as [id fs]. unfold held. rewrite re_eq. cbn [sec_id sec_fields]. generalize (fields_of id). intros fds. revert fs. induction fds as [|fd fds IH]; intros fs; [reflexivity|].
  destruct fs as [|vs fs]; [reflexivity|]. cbn [map combine flat_map fst snd]. rewrite IH, map_app. destruct (beq (fd_key fd) n); reflexivity.
Qed.
Lemma re_has n z : has_field n (retimed f z) <-> has_field n z.
Proof. unfold has_field. rewrite re_held. destruct (held (bs n) z); cbn [map]; split; intros H; (exact H || discriminate). Qed.
Lemma re_obeys z : obeys z -> obeys (retimed f z).
Proof.
  unfold obeys. rewrite (proj2 (re_sec z)). pose proof (fun n => re_has n z) as H. destruct (sec_id z); try (intros _; exact Logic.I); rewrite ?H; auto.
Qed.
Lemma re_rules x : rules_met x -> rules_met (retimed f x).
Proof. intros R y P. apply re_part in P as (z & P & ->). apply re_obeys, R, P. Qed.

Theorem retimed_read cal : sec_id cal = SCalendar -> sec_valid cal = None -> cal_good (said (retimed f cal)) -> rules_met cal -> read_again cal (Ok (forget (said (retimed f cal)))).
Proof.
  intros I V G R. destruct (sec_text (retimed f cal)) as [E Q]. destruct (re_sec cal) as [E' Q']. apply same_writes; [exact V|rewrite E, E'; reflexivity|rewrite Q, Q'; exact I|exact G|apply rules_said, re_rules, R].
Qed.
End R.
