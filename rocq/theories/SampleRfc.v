(** Concrete texts for the theorems of PropertiesRfc.v. *)
From Coq Require Import String Ascii ZArith Bool List Lia.
From Verif Require Import Base Lib GoStrings Tokeniser SpecContent NumProofs GoTime Types Params ParamTable PropTable Props SecTable Sections Codec SpecTree SpecRules SpecEdits SpecProps ValueProofs SpecRfc SpecLine LineProofs SpecComp CompProofs RfcProofs Sample SampleTree.
Import ListNotations.

Section S.
Context {env : Env}.
(** An event with an email alarm; what is lost is added to both. *)
Definition r_alarm : list cline := [ln "ACTION" "EMAIL"; ln "TRIGGER" "-PT15M"; ln "DESCRIPTION" "d"; ln "SUMMARY" "s"; ln "REPEAT" "1"].
Definition r_alarm' : list cline := ln "ACTION" "EMAIL" :: ln "ATTACH" "http://town/a" :: skipn 1 r_alarm.
Definition r_items (more : list item) (alarm : list cline) : list item :=
  ILine (ln "VERSION" "2.0") :: more ++ [ILine (ln "PRODID" "x");
   IComp (ln "BEGIN" "VEVENT") [ILine (ln "DTSTAMP" "20240229T101500Z"); ILine (ln "UID" "1"); IAlarm (ln "BEGIN" "VALARM") alarm (ln "END" "VALARM")] (ln "END" "VEVENT")].
Lemma r_framed : framed t_begin (r_items [] r_alarm) t_end /\ framed t_begin (r_items [ILine (ln "METHOD" "CANCEL")] r_alarm) t_end /\ framed t_begin (r_items [] r_alarm') t_end.
Proof. split; [|split]; apply framed_b; vm_compute; reflexivity. Qed.
Lemma r_added : added lost_line lost_alarm_line SCalendar (r_items [] r_alarm) (r_items [ILine (ln "METHOD" "CANCEL")] r_alarm) /\
  added lost_line lost_alarm_line SCalendar (r_items [] r_alarm) (r_items [] r_alarm').
Proof.
  split.
  - apply (Ad_here lost_line lost_alarm_line SCalendar [ILine (ln "VERSION" "2.0")] (ILine (ln "METHOD" "CANCEL"))). eexists. split; [reflexivity|]. cbn. tauto.
  - apply (Ad_comp lost_line lost_alarm_line SCalendar (firstn 2 (r_items [] r_alarm)) (ln "BEGIN" "VEVENT") _ _ (ln "END" "VEVENT") [] SEvent); [cbn; tauto|].
    apply (Ad_alarm lost_line lost_alarm_line SEvent [ILine (ln "DTSTAMP" "20240229T101500Z"); ILine (ln "UID" "1")] (ln "BEGIN" "VALARM") [ln "ACTION" "EMAIL"] (ln "ATTACH" "http://town/a") (skipn 1 r_alarm) (ln "END" "VALARM") []).
    split.
    + intros w id I A. cbn in I. destruct I as [<-|[]]. unfold action_is in A. cbn [In] in A. repeat destruct A as [A|A]; try contradiction; injection A as A; try discriminate A. subst id. cbn. tauto.
    + exists SAlarmEmail. cbn. tauto.
Qed.
Lemma r_decodes : exists cal, decode_bytes (frame_text t_begin (r_items [] r_alarm) t_end ++ []) = Ok cal.
Proof. eexists. vm_compute. reflexivity. Qed.

(** Lists. *)
Definition x_items (l : cline) : list item :=
  [ILine (ln "VERSION" "2.0"); ILine (ln "PRODID" "x");
   IComp (ln "BEGIN" "VEVENT") [ILine (ln "DTSTAMP" "20240229T101500Z"); ILine (ln "UID" "1"); ILine l] (ln "END" "VEVENT")].
Definition x_dates : cline := ln "EXDATE" "20240301T090000Z,20240302T090000Z".
Definition x_status : cline := ln "REQUEST-STATUS" "2.0;Success".
Lemma x_inside l : inside SCalendar (x_items l) SEvent [ILine (ln "DTSTAMP" "20240229T101500Z"); ILine (ln "UID" "1"); ILine l].
Proof. eapply In_comp with (sid := SEvent); [right; right; left; reflexivity|cbn; tauto|constructor]. Qed.
Lemma x_lists : framed t_begin (x_items x_dates) t_end /\ inside SCalendar (x_items x_dates) SEvent [ILine (ln "DTSTAMP" "20240229T101500Z"); ILine (ln "UID" "1"); ILine x_dates] /\
  rfc_list rfc_date_time (cl_value x_dates) /\ framed t_begin (x_items x_status) t_end /\ exists cal, decode_bytes (frame_text t_begin (x_items (ln "EXDATE" "20240301T090000Z")) t_end) = Ok cal.
Proof.
  split; [apply framed_b; vm_compute; reflexivity|]. split; [apply x_inside|]. split; [|split; [apply framed_b; vm_compute; reflexivity|eexists; vm_compute; reflexivity]].
  exists (bs "20240301T090000Z"), (bs "20240302T090000Z"), []. split; [reflexivity|]. split; [|split; [|left; reflexivity]].
  - exists (bs "20240301"), (bs "090000"), (bs "Z"). repeat split; try reflexivity. right. reflexivity.
  - exists (bs "20240302"), (bs "090000"), (bs "Z"). repeat split; try reflexivity. right. reflexivity.
Qed.

(** Values that RFC 5545 does not allow. *)
Definition odd_text : bytes := lines [
  "BEGIN:VCALENDAR"; "VERSION:3.0"; "PRODID:x";
  "BEGIN:VEVENT"; "DTSTAMP:20240229T101500Z"; "UID:1"; "DTSTART:20240301T090000Z"; "PRIORITY:77"; "SEQUENCE:-1"; "STATUS:DRAFT"; "DTEND:20240201T090000Z"; "END:VEVENT";
  "BEGIN:VTODO"; "DTSTAMP:20240229T101500Z"; "UID:2"; "PERCENT-COMPLETE:200"; "STATUS:CONFIRMED"; "END:VTODO"; "END:VCALENDAR"]%string.
Lemma odd_read : exists cal ev td, decode_bytes odd_text = Ok cal /\ sec_valid cal = None /\ part_of ev cal /\ part_of td cal /\ sec_id ev = SEvent /\ sec_id td = STodo /\
  has_prop cal PrVersion (PNew (VText (bs "3.0"))) /\ has_prop ev PrPriority (PNew (VInteger 77)) /\ has_prop ev PrSequence (PNew (VInteger (-1))) /\ has_prop ev PrStatus (PEnum 6) /\
  has_prop td PrPercentComplete (PNew (VInteger 200)) /\ has_prop td PrStatus (PEnum 1) /\
  exists t t', has_prop ev PrDateTimeStart (PStruct [] [Some (VDateTime t); None]) /\ has_prop ev PrDateTimeEnd (PStruct [] [Some (VDateTime t'); None]) /\ (t_sec t' < t_sec t)%Z.
Proof.
  remember (decode_bytes odd_text) as r eqn:E. vm_compute in E. subst r. eexists. eexists. eexists. split; [reflexivity|]. split; [vm_compute; reflexivity|].
  split; [eapply Part_sec; [cbn [In]; right; right; left; reflexivity|left; reflexivity|apply Part_self]|].
  split; [eapply Part_sec; [cbn [In]; right; right; right; left; reflexivity|left; reflexivity|apply Part_self]|].
  split; [reflexivity|]. split; [reflexivity|]. unfold has_prop.
  assert (HERE : forall (x : sec) vs v, In vs (sec_fields x) -> In v vs -> exists y ws, part_of y x /\ In ws (sec_fields y) /\ In v ws) by (intros x vs v I J; exists x, vs; split; [apply Part_self|auto]).
  repeat (split; [eapply HERE; [|apply in_eq]; cbn [sec_fields In]; repeat (first [left; reflexivity|right])|]).
  do 2 eexists. repeat (split; [eapply HERE; [|apply in_eq]; cbn [sec_fields In]; repeat (first [left; reflexivity|right])|]). vm_compute. reflexivity.
Qed.
Theorem numbers_read pid cps n : In pid [PrPriority; PrPercentComplete; PrSequence; PrRepeat] -> (- 2 ^ 31 <= n < 2 ^ 31)%Z -> line_means pid cps (fmt_int n) (PNew (VInteger n)).
Proof.
  intros I B. assert (V : value_decode KInteger (value_params cps) (fmt_int n) = Ok (VInteger n)) by (pose proof (v_integer (value_params cps) n B) as V; cbn [value_encode integer_encode concat] in V; rewrite app_nil_r in V; exact V).
  cbn [In] in I. repeat destruct I as [<-|I]; try contradiction; unfold line_means; cbn [rfc_words map api_struct]; exists (bs "INTEGER"), KInteger, (VInteger n); (split; [reflexivity|split; [exact V|reflexivity]]).
Qed.
End S.

(** A line with parameters. *)
Definition a_params : list cparam := [CParam (bs "CN") (Plain (bs "Jo")) []; CParam (bs "CUTYPE") (Plain (bs "group")) []; CParam (bs "X-A") (Plain (bs "1")) []].
Lemma a_line : @line_means env0 PrAttendee a_params (bs "mailto:j@town")
  (PStruct [Some (PVEnum 2); None; None; None; None; None; None; None; Some (PVText (bs "Jo")); None; None] [Some (VCalendarAddress (bs "mailto:j@town" : @url env0))]).
Proof. apply line_exact. vm_compute. reflexivity. Qed.
