(** Concrete calendars for the theorems of PropertiesOut.v. *)
From Coq Require Import String Ascii ZArith Bool List Lia.
From Verif Require Import Base Lib GoStrings Tokeniser SpecContent GoTime Types Params ParamTable PropTable Props SecTable Sections Folder Unfolder Codec SpecLines SpecTree SpecRules DecodeProofs EncodeProofs SpecProps PropProofs HangProofs SpecCal CalProofs RoundProofs SpecRfc SpecOut OutProofs DecodedProofs Sample SampleTree SampleProps SampleCal.
Import ListNotations.

Ltac typed_struct := split; [repeat (constructor; [intros ? Q; try discriminate Q; injection Q as <-; reflexivity|]); constructor|split; [repeat (constructor; [intros ? Q; try discriminate Q; injection Q as <-; reflexivity|]); constructor|cbn; intros Q J; repeat destruct J as [J|J]; solve [discriminate|contradiction]]].
Ltac field := match goal with
  | |- count_ok _ _ /\ Forall _ [] => split; [cbn; auto|constructor]
  | |- count_ok _ _ /\ Forall _ [FVProp _ (PNew _)] => split; [cbn; auto|constructor; [apply VT_prop; reflexivity|constructor]]
  | |- count_ok _ _ /\ Forall _ [FVProp _ (PStruct _ _)] => split; [cbn; auto|constructor; [apply VT_prop; typed_struct|constructor]]
  end.
Ltac clean_struct := split; [cbn; intros q v J; repeat destruct J as [J|J]; try discriminate J; try contradiction; injection J as <- <-; exact Logic.I|intros v J; repeat destruct J as [J|J]; try discriminate J; try contradiction; injection J as <-; exact Logic.I].


Section S.
Context {env : Env}.
Lemma cal_typed_by id fs : Forall2 (fun fd vs => count_ok (fd_mode fd) (length vs) /\ Forall (fval_typed (fd_type fd)) vs) (fields_of id) fs -> cal_typed (Sec id fs).
Proof.
  intros F. constructor; [apply GroupProofs.Forall2_len in F; auto|]. induction F as [|fd vs fds fs H _ IH]; intros [|i] fd' vs' A B; try discriminate; cbn [nth_error] in *.
  - injection A as <-. injection B as <-. exact H.
  - eauto.
Qed.
Definition val_clean (v : fval) : Prop := match v with FVProp pid p => prop_clean pid p | FVSec x | FVAlarm (Some x) => cal_clean x | FVAlarm None => True end.
Lemma cal_clean_by id fs : Forall val_clean (concat fs) -> cal_clean (Sec id fs).
Proof.
  rewrite Forall_forall. intros F pid p H. apply has_prop_eq in H as [(vs & I & J)|(vs & x & I & J & P)].
  - apply (F (FVProp pid p)). apply in_concat. eauto.
  - destruct J as [J|J]; [apply (F (FVSec x)); [apply in_concat; eauto|exact P]|apply (F (FVAlarm (Some x))); [apply in_concat; eauto|exact P]].
Qed.
Lemma plain_typed : cal_typed cal_plain /\ cal_clean cal_plain.
Proof.
  assert (AT : cal_typed (Sec SAlarmAudio ([FVProp PrTrigger (PStruct [] [Some (VDuration (Duration true 0 0 0 15 0)); None])] :: repeat [] 12))).
  { apply cal_typed_by. repeat (constructor; [field|]). constructor. }
  assert (AC : cal_clean (Sec SAlarmAudio ([FVProp PrTrigger (PStruct [] [Some (VDuration (Duration true 0 0 0 15 0)); None])] :: repeat [] 12))).
  { apply cal_clean_by. cbn [concat app repeat]. constructor; [clean_struct|constructor]. }
  split.
  - apply cal_typed_by. do 2 (constructor; [field|]). constructor; [split; [exact Logic.I|constructor; [|constructor]]|repeat (constructor; [field|]); constructor].
    apply VT_sec. apply cal_typed_by. unfold fs_event. do 30 (constructor; [field|]). constructor; [|constructor]. split; [exact Logic.I|constructor; [|constructor]]. apply (VT_alarm (bs "AUDIO")); [left; reflexivity|exact AT].
  - apply cal_clean_by. cbn [concat app]. do 2 (constructor; [exact Logic.I|]). constructor; [|constructor]. cbn [val_clean]. apply cal_clean_by. unfold fs_event. cbn [concat app].
    do 2 (constructor; [exact Logic.I|]). constructor; [clean_struct|]. constructor; [exact Logic.I|]. constructor; [clean_struct|]. constructor; [exact AC|constructor].
Qed.

(** A media type with a carriage return. *)
Definition event_with (before : list (list fval)) (n : nat) : sec := Sec SEvent
  ([[FVProp PrDateTimeStamp (PNew nowZ)]; [FVProp PrUID (PNew (VText (bs "1@town")))]] ++ before ++ repeat [] n).
Definition cal_with (ev : sec) : sec := Sec SCalendar
  [[FVProp PrVersion (PNew (VText (bs "2.0")))]; [FVProp PrProductID (PNew (VText (bs "-//Town")))]; [FVSec ev]; []; []; []; []].
Definition media : prop := PStruct [Some (PVText (bs "a/b" ++ CR :: bs "c"))] [None; Some (VBinary (bs "abc"))].
Definition cal_media : sec := cal_with (event_with (repeat [] 18 ++ [[FVProp PrAttachment media]]) 10).
Lemma media_typed : cal_typed cal_media.
Proof.
  apply cal_typed_by. do 2 (constructor; [field|]). constructor; [split; [exact Logic.I|constructor; [|constructor]]|repeat (constructor; [field|]); constructor].
  apply VT_sec. apply cal_typed_by. cbn [app repeat]. unfold media. repeat (constructor; [field|]). constructor.
Qed.
Theorem media_written : exists out a b, cal_typed cal_media /\ Encode ok_writer [] cal_media = EncDone None out /\ concat out = a ++ CR :: "c"%char :: b /\
  forall chunks sizes, concat chunks = concat out -> (forall i, 2 <= sizes i) -> exists n, forall fuel c, n <= fuel -> Decode fuel sizes chunks false <> Ok c.
Proof.
  pose (ob := match Encode ok_writer [] cal_media with EncDone _ out => out | _ => [] end).
  assert (E : Encode ok_writer [] cal_media = EncDone None ob) by (vm_compute; reflexivity).
  exists ob. eexists (lines ["BEGIN:VCALENDAR"; "VERSION:2.0"; "PRODID:-//Town"; "BEGIN:VEVENT"; "DTSTAMP:20240229T101500Z"; "UID:1@town"]%string ++ bs "ATTACH;FMTTYPE=a/b"). eexists. split; [exact media_typed|]. split; [exact E|]. split; [vm_compute; reflexivity|].
  intros chunks sizes C S2. destruct (decode_fold_free chunks sizes S2) as (n & H); [rewrite C; apply no_fold_by; vm_compute; reflexivity|].
  exists n. intros fuel c F. rewrite (H fuel F), C. assert (D : forall r : res sec, match r with Err _ => True | _ => False end -> r <> Ok c) by (intros [] X; try contradiction; discriminate).
  apply D. vm_compute. exact Logic.I.
Qed.
End S.

(** An address with a line in it. *)
Definition trick : bytes := bs "http://t" ++ CRLF ++ bs "SUMMARY:Other".
Definition cal_trick : @sec env0 := cal_with (event_with (repeat [] 13 ++ [[FVProp PrURL (PNew (VURI (trick : @url env0)))]]) 15).
Definition cal_tricked : @sec env0 := cal_with (event_with (repeat [] 11 ++ [[FVProp PrSummary (PStruct [None; None] [Some (VText (bs "Other"))])]; []; [FVProp PrURL (PNew (VURI (bs "http://t" : @url env0)))]]) 15).
Lemma trick_typed : cal_typed cal_trick.
Proof.
  apply cal_typed_by. do 2 (constructor; [field|]). constructor; [split; [exact Logic.I|constructor; [|constructor]]|repeat (constructor; [field|]); constructor].
  apply VT_sec. apply cal_typed_by. cbn [app repeat]. unfold media. repeat (constructor; [field|]). constructor.
Qed.
Definition out_trick : list bytes := match @Encode env0 _ _ ok_writer [] cal_trick with EncDone _ out => out | _ => [] end.
Theorem trick_works : cal_typed cal_trick /\ (forall p, ~ has_prop cal_trick PrSummary p) /\ @Encode env0 _ _ ok_writer [] cal_trick = EncDone None out_trick /\
  (forall chunks sizes, concat chunks = concat out_trick -> (forall i, 2 <= sizes i) -> exists n, forall fuel, n <= fuel -> @Decode env0 fuel sizes chunks false = Ok cal_tricked) /\
  has_prop cal_tricked PrSummary (PStruct [None; None] [Some (VText (bs "Other"))]).
Proof.
  split; [exact trick_typed|]. split; [|split; [|split]].
  - intros p H. apply has_prop_eq in H as [(vs & I & J)|(vs & x & I & J & P)].
    + cbn in I. repeat destruct I as [<-|I]; cbn in J; repeat destruct J as [J|J]; try discriminate J; contradiction.
    + cbn in I. repeat destruct I as [<-|I]; cbn in J; try contradiction; repeat destruct J as [J|J]; try discriminate J; try contradiction. injection J as <-.
      apply has_prop_eq in P as [(vs & I & J')|(vs & x & I & J' & P)]; cbn in I; repeat destruct I as [<-|I]; cbn in J'; repeat destruct J' as [J'|J']; try discriminate J'; contradiction.
  - vm_compute. reflexivity.
  - intros chunks sizes C S2. destruct (@decode_fold_free env0 chunks sizes S2) as (n & H); [rewrite C; apply no_fold_by; vm_compute; reflexivity|].
    exists n. intros fuel F. rewrite (H fuel F), C. exact (@eq_refl (res sec) (Ok cal_tricked) <: @decode_bytes env0 (concat out_trick) = Ok cal_tricked).
  - apply has_prop_eq. right. eexists. eexists. split; [right; right; left; reflexivity|]. split; [left; left; reflexivity|]. apply has_prop_eq. left. eexists. split; [do 13 right; left; reflexivity|left; reflexivity].
Qed.

(** ** What Decode returned *)
Lemma env0_clean : @urls_clean env0 /\ @zones_clean env0.
Proof.
  split.
  - intros s u W H. cbn in H. injection H as <-. exact W.
  - intros n z H. cbn [load_zone env0] in H. destruct (beq n (bs "Europe/Town")) eqn:B; [|discriminate]. apply beq_eq in B. injection H as <-. subst n. reflexivity.
Qed.
Section R.
Context {env : Env}.
Theorem decode_one_line_each fuel sizes chunks weof cal e out : urls_clean -> zones_clean -> Decode fuel sizes chunks weof = Ok cal -> Encode ok_writer [] cal = EncDone e out ->
  exists ls, comp_lines named cal ls /\ unfold (concat out) = text_of_lines (bs "BEGIN:VCALENDAR" :: ls ++ [bs "END:VCALENDAR"]) /\ Forall (fun l => Z.of_nat (length l) <= 75)%Z (phys_lines (concat out)).
Proof.
  intros U Z D H. unfold Decode in D. apply bind_ok in D as ([d x] & _ & D).
  exact (encode_one_line_each cal e out (decoded_calendar _ _ D) (decoded_typed _ _ D) (decoded_clean _ _ U Z D) H).
Qed.
End R.
