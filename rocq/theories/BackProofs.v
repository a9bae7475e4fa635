(** Which calendars come back from being written and read. *)
From Coq Require Import String Ascii ZArith Bool List Lia.
From Verif Require Import Base Lib SpecLines Unfolder Tokeniser SpecContent GoTime Types Params ParamTable PropTable Props SecTable Sections Folder Codec UnfolderProofs DecodeProofs FolderProofs SpecTree TreeProofs ExactProofs SpecRules SpecEdits SpecProps ShapeProofs EncodeProofs PrefixProofs HangProofs GroupProofs SpecCal CalProofs RoundProofs LastModProofs SpecAbroad SpecBuilt BuiltProofs.
Import ListNotations.

Section B.
Context {env : Env}.
Lemma said_part y x : part_of y x -> part_of (said y) (said x).
Proof.
  induction 1 as [x|y x id fs vs I J P IH|y x id fs vs I J P IH]; [constructor| |].
  - rewrite (said_eq id fs). eapply Part_sec; [apply in_map; exact I|apply (in_map val_said) in J; exact J|exact IH].
  - rewrite (said_eq id fs). eapply Part_alarm; [apply in_map; exact I|apply (in_map val_said) in J; exact J|exact IH].
Qed.
Lemma said_obeys z : obeys (said z) -> obeys z.
Proof.
  unfold obeys. rewrite (proj2 (sec_text z)). pose proof (fun n => has_said n z) as H. destruct (sec_id z); try (intros _; exact Logic.I); rewrite ?H; auto.
Qed.
Lemma said_rules x : rules_met (said x) <-> rules_met x.
Proof. split; [|apply rules_said]. intros R y P. apply said_obeys, R, said_part, P. Qed.

Lemma same_reads cal cal' c : sec_valid cal = None -> sec_encode cal = sec_encode cal' -> sec_id cal' = SCalendar -> cal_good cal' -> (read_again cal (Ok c) <-> rules_met cal' /\ c = forget cal').
Proof.
  intros V EE I G. split; [|intros [R ->]; apply same_writes; assumption].
  intros (out & E & D). destruct (cal_text cal' I G) as (qs & items & EN' & W & C & M). assert (EN : sec_encode cal = wrs (qs ++ [last_piece])) by (rewrite EE; exact EN'). clear EN'.
  pose proof (encode_ok_out _ _ _ E) as [_ O]. rewrite EN, pieces_wrs, folds_app in O. pose proof (folds_line qs C0 0 ltac:(discriminate)) as FL. rewrite C in FL.
  assert (NN : begin_of (bs "VCALENDAR") :: flat_map ilines items <> []) by discriminate. specialize (FL (lines_runc _ C0 NN)). destruct (folds 0 qs) as [o l]. cbn [snd] in FL. subst l.
  assert (O' : concat out = o ++ last_piece) by (rewrite O; reflexivity).
  set (sizes := fun _ : nat => S (length (concat out))).
  assert (S1 : forall i, 1 <= sizes i) by (intros i; unfold sizes; lia). assert (S2 : length (concat out) <= sizes 0) by (unfold sizes; lia).
  destruct (decode_one_read (concat out) false sizes) as (n & N); [|exact S1|exact S2|].
  { intros _. rewrite O'. apply last_piece_tail. }
  destruct (D false sizes S1 S2) as (m & DM). specialize (DM (n + m) ltac:(lia)). rewrite (N (n + m) ltac:(lia)), (encode_unfold _ _ _ E) in DM. unfold content in DM. rewrite EN, pieces_wrs, concat_app, C in DM. cbn [concat] in DM. rewrite app_nil_r in DM.
  assert (Q : lines_text (begin_of (bs "VCALENDAR") :: flat_map ilines items) ++ last_piece = lines_text (begin_of (bs "VCALENDAR") :: flat_map ilines items ++ [end_of (bs "VCALENDAR")])).
  { rewrite app_comm_cons, lines_text_app. reflexivity. }
  rewrite Q, (lines_unfold _ W), <- Q in DM. apply (cal_decodes items (forget cal') _ W M) in DM as [X ->]. split; [|reflexivity]. apply (extras_rules cal' G). exact X.
Qed.
Theorem built_exactly cal c : sec_id cal = SCalendar -> sec_valid cal = None -> cal_good (said cal) -> (read_again cal (Ok c) <-> rules_met cal /\ c = forget (said cal)).
Proof.
  intros I V G. destruct (sec_text cal) as [E Q]. rewrite (same_reads cal (said cal) c V (eq_sym E) ltac:(rewrite Q; exact I) G), said_rules. reflexivity.
Qed.

Lemma blank_len : forall fds fs, length fs = length fds -> length (blank fds fs) = length fds.
Proof. induction fds as [|fd fds IH]; intros [|vs fs] L; try discriminate L; [reflexivity|]. cbn [blank length] in *. rewrite IH; [reflexivity|lia]. Qed.
Lemma blank_nth : forall fds fs i fd ws, nth_error fds i = Some fd -> nth_error (blank fds fs) i = Some ws -> exists vs, nth_error fs i = Some vs /\ ws = if is_last_modified fd then [] else vs.
Proof.
  induction fds as [|g fds IH]; intros [|us fs] [|i] fd ws A B; try discriminate; cbn [nth_error blank] in *.
  - injection A as ->. injection B as <-. eauto.
  - eapply IH; eauto.
Qed.
Lemma modified_optional id i fd : nth_error (fields_of id) i = Some fd -> is_last_modified fd = true -> count_ok (fd_mode fd) 0.
Proof.
  intros N Q. apply nth_error_In in N. assert (B : forallb (fun g => negb (is_last_modified g) || match fd_mode g with FReq => false | _ => true end) (fields_of id) = true) by (destruct id; vm_compute; reflexivity).
  rewrite forallb_forall in B. specialize (B fd N). rewrite Q in B. cbn [negb orb] in B. destruct (fd_mode fd); [discriminate B|cbn; auto|cbn; auto].
Qed.
Lemma forget_good x : cal_good x -> cal_good (forget x).
Proof.
  induction x as [id fs IH] using sec_induct. intros G. inversion G as [? ? L F]; subst. assert (E : forget (Sec id fs) = Sec id (blank (fields_of id) (map (map forget_val) fs))) by reflexivity. rewrite E.
  constructor; [apply blank_len; rewrite map_length; exact L|]. intros i fd ws N B. destruct (blank_nth _ _ _ _ _ N B) as (vs' & B' & ->). rewrite nth_error_map in B'. destruct (nth_error fs i) as [vs|] eqn:Nv; [|discriminate B']. injection B' as <-.
  destruct (is_last_modified fd) eqn:Q; [split; [exact (modified_optional _ _ _ N Q)|constructor]|].
  destruct (F i fd vs N Nv) as [C A]. split; [rewrite map_length; exact C|]. apply Forall_forall. intros v' J. apply in_map_iff in J as (v & <- & J). rewrite Forall_forall in A. pose proof (A v J) as X.
  apply nth_error_In in Nv. inversion X as [pid p P E1 E2|sid gs H E1 E2|w sid gs AI H E1 E2]; subst; cbn [forget_val]; [constructor; exact P| |].
  - specialize (IH vs (Sec sid gs) Nv (or_introl J) H). exact (VG_sec _ _ IH).
  - specialize (IH vs (Sec sid gs) Nv (or_intror J) H). exact (VG_alarm _ _ _ AI IH).
Qed.
Theorem back_exactly cal : sec_id cal = SCalendar -> sec_valid cal = None -> cal_good (said cal) ->
  (read_again cal (Ok cal) <-> rules_met cal /\ cal_good cal /\ forall p, ~ has_prop cal PrLastModified p).
Proof.
  intros I V G. rewrite (built_exactly cal cal I V G). split.
  - intros [R Q]. split; [exact R|]. split; [rewrite Q; apply forget_good, G|]. intros p H. rewrite Q in H. apply (forget_props _ _ _ G) in H as [_ H]. apply H. reflexivity.
  - intros (R & GC & N). split; [exact R|]. rewrite (good_said cal GC). symmetry. apply forget_id; assumption.
Qed.
End B.
