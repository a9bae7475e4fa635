(** Concrete calendars for the theorems of PropertiesCal.v, and those theorems put together. *)
From Coq Require Import String Ascii ZArith Bool List Lia.
From Verif Require Import Base Lib Utf8 Utf8Proofs GoStrings Strtok Tokeniser SpecContent GoTime Types Params ParamTable PropTable Props SecTable Sections Folder Unfolder Codec SpecLines SpecTree SpecRules SpecEdits ShapeProofs AddProofs EncodeProofs DecodeProofs SpecTime SpecDuration SpecText SpecParams SpecProps PropProofs HangProofs SpecCal CalProofs RoundProofs EncodableProofs Sample SampleTree SampleProps.
Import ListNotations.

Section S.
Context {env : Env}.

(** ** Theorems *)
Theorem calendar_round_trip cal : sec_id cal = SCalendar -> cal_good cal -> rules_met cal -> (forall p, ~ has_prop cal PrLastModified p) -> sec_valid cal = None ->
  exists out, Encode ok_writer [] cal = EncDone None out /\
  (forall w sizes, (forall i, 1 <= sizes i) -> length (concat out) <= sizes 0 -> exists n, forall fuel, n <= fuel -> Decode fuel sizes [concat out] w = Ok cal) /\
  (~ has_fold (concat out) -> forall chunks sizes, concat chunks = concat out -> (forall i, 2 <= sizes i) -> exists n, forall fuel, n <= fuel -> Decode fuel sizes chunks false = Ok cal).
Proof.
  intros I G R N V. destruct (encode_decode cal I G V) as (out & E & A & B). rewrite (forget_id cal G N) in *. exists out. split; [exact E|]. split.
  - intros w sizes S1 S2. destruct (A w sizes S1 S2) as (n & H). exists n. intros fuel F. apply H; auto.
  - intros NF chunks sizes C S2. destruct (B NF chunks sizes C S2) as (n & H). exists n. intros fuel F. apply H; auto.
Qed.
Theorem last_modified_lost cal p : sec_id cal = SCalendar -> cal_good cal -> rules_met cal -> sec_valid cal = None -> has_prop cal PrLastModified p ->
  exists out c, Encode ok_writer [] cal = EncDone None out /\
  (forall w sizes, (forall i, 1 <= sizes i) -> length (concat out) <= sizes 0 -> exists n, forall fuel, n <= fuel -> Decode fuel sizes [concat out] w = Ok c) /\
  forall pid q, has_prop c pid q <-> has_prop cal pid q /\ pid <> PrLastModified.
Proof.
  intros I G R V _. destruct (encode_decode cal I G V) as (out & E & A & _). exists out, (forget cal). split; [exact E|]. split.
  - intros w sizes S1 S2. destruct (A w sizes S1 S2) as (n & H). exists n. intros fuel F. apply H; auto.
  - intros pid q. apply forget_props, G.
Qed.
Theorem rules_decide cal : sec_id cal = SCalendar -> cal_good cal -> sec_valid cal = None ->
  exists out, Encode ok_writer [] cal = EncDone None out /\
  forall w sizes, (forall i, 1 <= sizes i) -> length (concat out) <= sizes 0 -> exists n, forall fuel, n <= fuel -> ((exists c, Decode fuel sizes [concat out] w = Ok c) <-> rules_met cal).
Proof.
  intros I G V. destruct (encode_decode cal I G V) as (out & E & A & _). exists out. split; [exact E|]. intros w sizes S1 S2. destruct (A w sizes S1 S2) as (n & H). exists n. intros fuel F. split.
  - intros (c & D). apply (H fuel c F) in D. apply D.
  - intros R. exists (forget cal). apply H; auto.
Qed.
Lemma no_name_known : forallb (fun id => negb (existsb (beq (bs "LAST-MODIFIED")) (known id))) all_secs = true.
Proof. vm_compute. reflexivity. Qed.
Lemma last_modified_unknown id : ~ In (bs "LAST-MODIFIED") (known id).
Proof.
  pose proof no_name_known as T. rewrite forallb_forall in T. specialize (T id (TreeProofs.all_secs_in id)). cbv beta in T. apply negb_true_iff in T. intros I.
  assert (existsb (beq (bs "LAST-MODIFIED")) (known id) = true) by (apply existsb_exists; eauto using beq_refl). congruence.
Qed.
Lemma added_mono (ok ok' : secid -> item -> Prop) (okl okl' : list cline -> cline -> Prop) id a b : (forall id i, ok id i -> ok' id i) -> (forall ls l, okl ls l -> okl' ls l) -> added ok okl id a b -> added ok' okl' id a b.
Proof. intros H1 H2. induction 1; [apply Ad_here; auto|eapply Ad_comp; eauto|apply Ad_alarm; auto]. Qed.
Theorem last_modified_ignored b items items' e tail : framed b items e -> framed b items' e -> rest_ok tail ->
  added (fun _ => last_modified_line) no_line SCalendar items items' ->
  forall cal, decode_bytes (frame_text b items e ++ tail) = Ok cal <-> decode_bytes (frame_text b items' e ++ tail) = Ok cal.
Proof.
  intros F F' T A. apply decode_unknown_line; try assumption. eapply added_mono; [| |exact A]; [|intros ls l []].
  intros id i (l & -> & U). exists l. split; [reflexivity|]. split; [split; unfold is_begin, is_end, line_is; rewrite U; discriminate|]. rewrite U. apply last_modified_unknown.
Qed.

Theorem decode_then_valid {W E} (wr : W -> bytes -> W * option E) w fuel sizes chunks weof cal : Decode fuel sizes chunks weof = Ok cal ->
  ((exists e, Encode wr w cal = EncInvalid e w) <-> ~ forall pid p v, has_prop cal pid p -> prop_value p v -> ~ refused v).
Proof.
  intros D. unfold Decode in D. apply bind_ok in D as ([d x] & _ & D). rewrite <- (decoded_valid _ _ D). unfold Encode. destruct (sec_valid cal) as [e|].
  - split; [discriminate|]. intros _. exists e. reflexivity.
  - split; [|intros H; destruct H; reflexivity]. intros (e & H). rewrite run_trace_spec in H. cbv zeta in H. destruct (hangs _); discriminate.
Qed.
Theorem decode_then_encode {W E} (wr : W -> bytes -> W * option E) w fuel sizes chunks weof cal : Decode fuel sizes chunks weof = Ok cal ->
  (forall pid p v, has_prop cal pid p -> prop_value p v -> ~ refused v) -> (forall pid p, has_prop cal pid p -> ~ needs_escape pid p) -> exists e w', Encode wr w cal = EncDone e w'.
Proof.
  intros D R N. unfold Decode in D. apply bind_ok in D as ([d x] & _ & D). apply (decoded_valid _ _ D) in R. pose proof (encode_hang_exact wr w cal) as H. unfold Encode in *. rewrite R in *. rewrite run_trace_spec in *. cbv zeta in *. destruct (hangs _); [|eauto].
  exfalso. destruct (proj1 H) as [_ (pid & p & P & Q)]; [eauto|]. exact (N _ _ P Q).
Qed.

(** ** Calendars *)
Lemma cal_good_by id fs : Forall2 (fun fd vs => count_ok (fd_mode fd) (length vs) /\ Forall (fval_good (fd_type fd)) vs) (fields_of id) fs -> cal_good (Sec id fs).
Proof.
  intros F. constructor; [apply GroupProofs.Forall2_len in F; auto|]. induction F as [|fd vs fds fs H _ IH]; intros [|i] fd' vs' A B; try discriminate; cbn [nth_error] in *.
  - injection A as <-. injection B as <-. exact H.
  - eauto.
Qed.
Definition nowZ : value := VDateTime (Time 1709201700 0 LUTC).
Definition fs_event (modified : list fval) (ending : list fval) : list (list fval) :=
  [[FVProp PrDateTimeStamp (PNew nowZ)]; [FVProp PrUID (PNew (VText (bs "1@town")))]; []; []; []; []; []; modified; []; []; []; []; [];
   [FVProp PrSummary (PStruct [None; Some (PVText (bs "en"))] [Some (VText (bs "Meeting, with a rather long summary; it will have to be folded into two lines"))])];
   []; []; []; []; ending; [FVProp PrDuration (PNew (VDuration (Duration false 0 0 1 30 0)))];
   []; []; [FVProp PrCategories (PStruct [None] [Some (VMText [bs "WORK"; bs "TOWN,HALL"])])]; []; []; []; []; []; []; [];
   [FVAlarm (Some (Sec SAlarmAudio ([FVProp PrTrigger (PStruct [] [Some (VDuration (Duration true 0 0 0 15 0)); None])] :: repeat [] 12)))]].
Definition cal_of (modified ending : list fval) : sec :=
  Sec SCalendar [[FVProp PrVersion (PNew (VText (bs "2.0")))]; [FVProp PrProductID (PNew (VText (bs "-//Town//Agenda 1.0//EN")))]; [FVSec (Sec SEvent (fs_event modified ending))]; []; []; []; []].
(** Without and with a last-modified time, and with an end and a duration. *)
Definition cal_plain : sec := cal_of [] [].
Definition cal_modified : sec := cal_of [FVProp PrLastModified (PNew nowZ)] [].
Definition cal_ended : sec := cal_of [] [FVProp PrDateTimeEnd (PStruct [] [Some nowZ; None])].

Lemma text_ok s : forallb (fun c => (code c <? 128)%Z) s = true -> text_valid s = None -> value_good (VText s).
Proof. intros A V. split; [|exact V]. apply utf8_ascii. rewrite forallb_forall in A. apply Forall_forall. intros c I. apply Z.ltb_lt. auto. Qed.
Lemma now_good : value_good nowZ.
Proof. cbn. split; [reflexivity|]. split; [|exact Logic.I]. vm_compute. split; [discriminate|reflexivity]. Qed.
Lemma summary_good : prop_good PrSummary (PStruct [None; Some (PVText (bs "en"))] [Some (VText (bs "Meeting, with a rather long summary; it will have to be folded into two lines"))]).
Proof.
  split.
  - constructor; [discriminate|]. constructor; [|constructor]. intros v Q. injection Q as <-. split; [discriminate|]. apply text_good_dec. reflexivity.
  - exists [], [], (bs "Text"), (VText (bs "Meeting, with a rather long summary; it will have to be folded into two lines")). split; [reflexivity|]. split; [reflexivity|]. apply text_ok; reflexivity.
Qed.
Lemma categories_good : prop_good PrCategories (PStruct [None] [Some (VMText [bs "WORK"; bs "TOWN,HALL"])]).
Proof.
  split; [constructor; [discriminate|constructor]|]. exists [], [], (bs "MText"), (VMText [bs "WORK"; bs "TOWN,HALL"]). split; [reflexivity|]. split; [reflexivity|]. split; [discriminate|]. split; [|reflexivity].
  repeat constructor; apply text_ok; reflexivity.
Qed.
Lemma trigger_good : prop_good PrTrigger (PStruct [] [Some (VDuration (Duration true 0 0 0 15 0)); None]).
Proof. split; [constructor|]. exists [], [(bs "DATE-TIME", KDateTime)], (bs "DURATION"), (VDuration (Duration true 0 0 0 15 0)). split; [reflexivity|]. split; [reflexivity|]. split; vm_compute; intuition discriminate. Qed.
Lemma sample_good modified ending : length modified <= 1 -> length ending <= 1 -> Forall (fval_good (FTProp PrLastModified)) modified -> Forall (fval_good (FTProp PrDateTimeEnd)) ending -> cal_good (cal_of modified ending).
Proof.
  intros L1 L2 F1 F2.
  assert (AL : cal_good (Sec SAlarmAudio ([FVProp PrTrigger (PStruct [] [Some (VDuration (Duration true 0 0 0 15 0)); None])] :: repeat [] 12))).
  { apply cal_good_by. constructor; [split; [reflexivity|constructor; [apply VG_prop, trigger_good|constructor]]|]. repeat (constructor; [split; [cbn; auto|constructor]|]). constructor. }
  assert (EV : cal_good (Sec SEvent (fs_event modified ending))).
  { apply cal_good_by. unfold fs_event. cbn [fields_of sec_spec sp_fields].
    constructor; [split; [reflexivity|repeat constructor; apply now_good]|].
    constructor; [split; [reflexivity|constructor; [|constructor]; constructor; split; [reflexivity|apply text_ok; reflexivity]]|].
    do 5 (constructor; [split; [cbn; auto|constructor]|]). constructor; [split; assumption|]. do 5 (constructor; [split; [cbn; auto|constructor]|]).
    constructor; [split; [cbn; auto|constructor; [apply VG_prop, summary_good|constructor]]|]. do 4 (constructor; [split; [cbn; auto|constructor]|]). constructor; [split; assumption|].
    constructor; [split; [cbn; auto|constructor; [|constructor]; constructor; split; [reflexivity|split; vm_compute; intuition discriminate]]|].
    do 2 (constructor; [split; [cbn; auto|constructor]|]). constructor; [split; [exact Logic.I|constructor; [|constructor]; apply VG_prop, categories_good]|]. do 7 (constructor; [split; [cbn; auto|constructor]|]).
    constructor; [|constructor]. split; [exact Logic.I|]. constructor; [|constructor]. apply (VG_alarm (bs "AUDIO")); [left; reflexivity|exact AL]. }
  apply cal_good_by. constructor; [split; [reflexivity|constructor; [|constructor]; constructor; split; [reflexivity|apply text_ok; reflexivity]]|].
  constructor; [split; [reflexivity|constructor; [|constructor]; constructor; split; [reflexivity|apply text_ok; reflexivity]]|].
  constructor; [split; [exact Logic.I|constructor; [|constructor]; constructor; exact EV]|]. do 4 (constructor; [split; [cbn; auto|constructor]|]). constructor.
Qed.
Lemma sample_rules modified : rules_met (cal_of (map (fun v => FVProp PrLastModified v) modified) []).
Proof.
  intros x P. inversion P as [|y z id fs vs I J Q|y z id fs vs I J Q]; subst; [exact Logic.I| |].
  - repeat (destruct I as [<-|I]; [repeat (destruct J as [J|J]; [try discriminate J; try (injection J as <-)|]); try contradiction|]); try contradiction.
    inversion Q as [|y' z' id' fs' vs' I' J' Q'|y' z' id' fs' vs' I' J' Q']; subst.
    + cbn [obeys sec_id]. intros [H _]. apply H. reflexivity.
    + exfalso. repeat (destruct I' as [<-|I']; [try (apply in_map_iff in J' as (q & J' & _); discriminate J'); repeat (destruct J' as [J'|J']; [discriminate J'|]); contradiction|]). contradiction.
    + repeat (destruct I' as [<-|I']; [try (apply in_map_iff in J' as (q & J' & _); discriminate J'); repeat (destruct J' as [J'|J']; [try discriminate J'; try (injection J' as <-)|]); try contradiction|]); try contradiction.
      inversion Q' as [|y2 z2 id2 fs2 vs2 I2 J2 Q2|y2 z2 id2 fs2 vs2 I2 J2 Q2]; subst.
      * cbn [obeys sec_id]. intros H. exfalso. apply H. reflexivity.
      * exfalso. repeat (destruct I2 as [<-|I2]; [repeat (destruct J2 as [J2|J2]; [discriminate J2|]); contradiction|]). contradiction.
      * exfalso. repeat (destruct I2 as [<-|I2]; [repeat (destruct J2 as [J2|J2]; [discriminate J2|]); contradiction|]). contradiction.
  - exfalso. repeat (destruct I as [<-|I]; [repeat (destruct J as [J|J]; [discriminate J|]); contradiction|]). contradiction.
Qed.

Lemma plain_case : sec_id cal_plain = SCalendar /\ cal_good cal_plain /\ rules_met cal_plain /\ (forall p, ~ has_prop cal_plain PrLastModified p) /\ sec_valid cal_plain = None.
Proof.
  assert (G : cal_good cal_plain) by (apply sample_good; auto; constructor).
  split; [reflexivity|]. split; [exact G|]. split; [apply (sample_rules [])|]. split; [|vm_compute; reflexivity].
  intros p H. assert (F : forget cal_plain = cal_plain) by reflexivity. rewrite <- F in H. apply (forget_props _ _ _ G) in H as [_ H]. apply H. reflexivity.
Qed.
Lemma modified_case : sec_id cal_modified = SCalendar /\ cal_good cal_modified /\ rules_met cal_modified /\ sec_valid cal_modified = None /\ has_prop cal_modified PrLastModified (PNew nowZ).
Proof.
  split; [reflexivity|]. split; [apply sample_good; [auto|auto|constructor; [apply VG_prop; split; [reflexivity|apply now_good]|constructor]|constructor]|]. split; [apply (sample_rules [PNew nowZ])|]. split; [vm_compute; reflexivity|].
  exists (Sec SEvent (fs_event [FVProp PrLastModified (PNew nowZ)] [])), [FVProp PrLastModified (PNew nowZ)]. split; [|split; [do 7 right; left; reflexivity|left; reflexivity]].
  eapply Part_sec; [right; right; left; reflexivity|left; reflexivity|apply Part_self].
Qed.
Lemma end_good : prop_good PrDateTimeEnd (PStruct [] [Some nowZ; None]).
Proof. split; [constructor|]. exists [], [(bs "DATE", KDate)], (bs "DATE-TIME"), nowZ. split; [reflexivity|]. split; [reflexivity|]. apply now_good. Qed.
Lemma ended_case : sec_id cal_ended = SCalendar /\ cal_good cal_ended /\ sec_valid cal_ended = None /\ ~ rules_met cal_ended.
Proof.
  split; [reflexivity|]. split; [apply sample_good; [auto|auto|constructor|constructor; [apply VG_prop, end_good|constructor]]|]. split; [vm_compute; reflexivity|].
  intros R. refine (R (Sec SEvent (fs_event [] [FVProp PrDateTimeEnd (PStruct [] [Some nowZ; None])])) _ _).
  - eapply Part_sec; [right; right; left; reflexivity|left; reflexivity|apply Part_self].
  - split; unfold has_field; vm_compute; discriminate.
Qed.
Theorem ended_refused : exists out, Encode ok_writer [] cal_ended = EncDone None out /\
  forall w sizes, (forall i, 1 <= sizes i) -> length (concat out) <= sizes 0 -> exists n, forall fuel c, n <= fuel -> Decode fuel sizes [concat out] w <> Ok c.
Proof.
  destruct ended_case as (I & G & V & N). destruct (rules_decide _ I G V) as (out & E & A). exists out. split; [exact E|]. intros w sizes S1 S2. destruct (A w sizes S1 S2) as (n & H).
  exists n. intros fuel c F D. apply N, (H fuel F). exists c. exact D.
Qed.

(** A text whose calendar can be written, and one whose calendar cannot. *)
Definition text_small : bytes := lines ["BEGIN:VCALENDAR"; "VERSION:2.0"; "PRODID:-//Town"; "BEGIN:VEVENT"; "DTSTAMP:20240229T101500Z"; "UID:1@town"; "CATEGORIES;LANGUAGE=en:WORK"; "END:VEVENT"; "END:VCALENDAR"]%string.
Definition cal_small : sec := match decode_bytes text_small with Ok c => c | _ => cal_plain end.
Lemma small_case : decode_bytes text_small = Ok cal_small /\ (forall pid p v, has_prop cal_small pid p -> prop_value p v -> ~ refused v) /\ (forall pid p, has_prop cal_small pid p -> ~ needs_escape pid p).
Proof.
  assert (D : decode_bytes text_small = Ok cal_small) by (vm_compute; reflexivity). split; [exact D|]. split; [apply (decoded_valid _ _ D); vm_compute; reflexivity|].
  intros pid p H N. assert (X : exists w, Encode ok_writer [] cal_small = EncHang w) by (apply encode_hang_exact; split; [vm_compute; reflexivity|eauto]). destruct X as (w & X). vm_compute in X. discriminate.
Qed.

Lemma short_case : content cal_small = text_small /\ no_bare text_small /\ forallb (fun l => Nat.leb (length l) 75) (phys_lines text_small) = true.
Proof.
  split; [vm_compute; reflexivity|]. split; [|vm_compute; reflexivity].
  assert (T : forallb (fun l => negb (existsb (beqc CR) l) && negb (existsb (beqc LF) l)) (phys_lines text_small) = true) by (vm_compute; reflexivity).
  rewrite forallb_forall in T. apply Forall_forall. intros l I. specialize (T l I). cbv beta in T. apply andb_true_iff in T as [A B]. apply negb_true_iff in A, B.
  split; intros J; [assert (X : existsb (beqc CR) l = true) by (apply existsb_exists; exists CR; auto)|assert (X : existsb (beqc LF) l = true) by (apply existsb_exists; exists LF; auto)]; congruence.
Qed.
Definition text_year1 : bytes := lines ["BEGIN:VCALENDAR"; "VERSION:2.0"; "PRODID:-//Town"; "BEGIN:VEVENT"; "DTSTAMP:00010101T000000Z"; "UID:1@town"; "END:VEVENT"; "END:VCALENDAR"]%string.
Definition cal_year1 : sec := match decode_bytes text_year1 with Ok c => c | _ => cal_plain end.
Lemma year1_decodes : decode_bytes text_year1 = Ok cal_year1.
Proof. vm_compute. reflexivity. Qed.
Theorem year1_refused : (forall chunks sizes, concat chunks = text_year1 -> (forall i, 2 <= sizes i) -> exists n, forall fuel, n <= fuel -> Decode fuel sizes chunks false = Ok cal_year1) /\
  forall W E (wr : W -> bytes -> W * option E) w, exists e, Encode wr w cal_year1 = EncInvalid e w.
Proof.
  split.
  - intros chunks sizes C S2. destruct (decode_fold_free chunks sizes S2) as (n & H); [rewrite C; apply no_fold_by; vm_compute; reflexivity|].
    exists n. intros fuel F. rewrite (H fuel F), C. apply year1_decodes.
  - intros W E wr w. unfold Encode. destruct (sec_valid cal_year1) as [e|] eqn:V; [eauto|]. exfalso. vm_compute in V. discriminate.
Qed.
End S.

(** A place, which Encode refuses, and a calendar that is written after it was read. *)
Definition text_geo : bytes := lines ["BEGIN:VCALENDAR"; "VERSION:2.0"; "PRODID:-//Town"; "BEGIN:VEVENT"; "DTSTAMP:20240229T101500Z"; "UID:1@town"; "GEO:51.5;-0.12"; "END:VEVENT"; "END:VCALENDAR"]%string.
Definition geo1 : @prop env0 := PNew (VTFloat (FFin (bs "51.5" : @fin env0), FFin (bs "-0.12" : @fin env0))).
Definition event_geo : @sec env0 := Sec SEvent
  ([[FVProp PrDateTimeStamp (PNew nowZ)]; [FVProp PrUID (PNew (VText (bs "1@town")))]; []; []; []; []; [FVProp PrGeo geo1]] ++ repeat [] 24).
Definition cal_geo : @sec env0 := Sec SCalendar
  [[FVProp PrVersion (PNew (VText (bs "2.0")))]; [FVProp PrProductID (PNew (VText (bs "-//Town")))]; [FVSec event_geo]; []; []; []; []].
Lemma geo_case : @decode_bytes env0 text_geo = Ok cal_geo /\ has_prop cal_geo PrGeo geo1 /\ exists v, prop_value geo1 v /\ refused v.
Proof.
  split; [exact (@eq_refl (res sec) (Ok cal_geo) <: @decode_bytes env0 text_geo = Ok cal_geo)|].
  split; [|exists (VTFloat (FFin (bs "51.5" : @fin env0), FFin (bs "-0.12" : @fin env0))); split; [reflexivity|left; exact Logic.I]].
  exists event_geo, [FVProp PrGeo geo1]. split; [|split; [do 6 right; left; reflexivity|left; reflexivity]].
  eapply Part_sec; [right; right; left; reflexivity|left; reflexivity|apply Part_self].
Qed.
