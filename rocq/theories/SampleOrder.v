(** Concrete texts and calendars for the theorems of PropertiesOrder.v, and those theorems put together. *)
From Coq Require Import String Ascii ZArith Bool List Lia.
From Verif Require Import Base Lib SpecLines Unfolder Tokeniser SpecContent GoTime Types Params ParamTable PropTable Props SecTable Sections Folder Codec SpecTree SpecRules SpecEdits SpecTime SpecProps SpecRfc SpecLine LineProofs SpecComp CompProofs RfcProofs SpecLang ShapeProofs EncodeProofs SpecCal CalProofs RoundProofs Sample SampleTree SampleProps SampleCal SampleRfc SampleLang ExactProofs DateProofs SpecOrder OrderProofs SpecAlone AloneProofs.
Import ListNotations.

Section S.
Context {env : Env}.
(** ** Order *)
(** The lines of the calendar, of its event and of the alarm in another order. *)
Definition o_event (alarm : list cline) : list item :=
  [ILine (ln "UID" "1"); ILine (ln "CATEGORIES" "A"); IAlarm (ln "BEGIN" "VALARM") alarm (ln "END" "VALARM"); ILine (ln "CATEGORIES" "B"); ILine (ln "DTSTAMP" "20240229T101500Z")].
Definition o_event' (alarm : list cline) : list item :=
  [ILine (ln "DTSTAMP" "20240229T101500Z"); IAlarm (ln "BEGIN" "VALARM") alarm (ln "END" "VALARM"); ILine (ln "CATEGORIES" "A"); ILine (ln "UID" "1"); ILine (ln "CATEGORIES" "B")].
Definition o_items (ev : list item) : list item := [IComp (ln "BEGIN" "VEVENT") ev (ln "END" "VEVENT"); ILine (ln "PRODID" "x"); ILine (ln "VERSION" "2.0")].
Definition o_items' (ev : list item) : list item := [ILine (ln "VERSION" "2.0"); ILine (ln "PRODID" "x"); IComp (ln "BEGIN" "VEVENT") ev (ln "END" "VEVENT")].
Definition o_alarm : list cline := [ln "TRIGGER" "-PT15M"; ln "ACTION" "AUDIO"].
Definition o_alarm' : list cline := [ln "ACTION" "AUDIO"; ln "TRIGGER" "-PT15M"].
Ltac by_name n := intros n; split; cbn [filter line_named comp_named o_event o_event' o_items o_items']; repeat match goal with |- context [beq ?a n] => let E := fresh in destruct (beq a n) eqn:E; [apply beq_eq in E; subst n; cbn; try reflexivity|] end; try reflexivity.
Lemma o_reordered : framed t_begin (o_items (o_event o_alarm)) t_end /\ reordered (o_items (o_event o_alarm)) (o_items' (o_event' o_alarm')) /\
  exists cal, decode_bytes (frame_text t_begin (o_items (o_event o_alarm)) t_end ++ []) = Ok cal.
Proof.
  split; [apply framed_b; vm_compute; reflexivity|]. split; [|eexists; vm_compute; reflexivity].
  eapply Re_step; [apply Mv_here with (items' := o_items' (o_event o_alarm)); by_name n|].
  eapply Re_step; [apply (Mv_comp [ILine (ln "VERSION" "2.0"); ILine (ln "PRODID" "x")] (ln "BEGIN" "VEVENT") (o_event o_alarm) (o_event' o_alarm) (ln "END" "VEVENT") []); apply Mv_here; by_name n|].
  eapply Re_step; [|apply Re_same].
  apply (Mv_comp [ILine (ln "VERSION" "2.0"); ILine (ln "PRODID" "x")] (ln "BEGIN" "VEVENT") (o_event' o_alarm) (o_event' o_alarm') (ln "END" "VEVENT") []).
  apply (Mv_alarm [ILine (ln "DTSTAMP" "20240229T101500Z")] (ln "BEGIN" "VALARM") [] (ln "TRIGGER" "-PT15M") (ln "ACTION" "AUDIO") [] (ln "END" "VALARM")); [split; discriminate|split; discriminate|discriminate].
Qed.

(** ** Zones *)
(** An event in a zone that the calendar defines. *)
Definition z_start : cline := CLine (bs "DTSTART") [CParam (bs "TZID") (Plain (bs "/town/Town")) []] (bs "20240301T090000").
Definition z_zone (offset : string) : list item :=
  [ILine (ln "TZID" "/town/Town"); IComp (ln "BEGIN" "STANDARD") [ILine (ln "DTSTART" "19700101T000000"); ILine (ln "TZOFFSETTO" offset); ILine (ln "TZOFFSETFROM" offset)] (ln "END" "STANDARD")].
Definition z_event (l : cline) : list item := [ILine (ln "DTSTAMP" "20240229T101500Z"); ILine (ln "UID" "1"); ILine l].
Definition z_items (offset : string) (l : cline) : list item :=
  [ILine (ln "VERSION" "2.0"); ILine (ln "PRODID" "x"); IComp (ln "BEGIN" "VTIMEZONE") (z_zone offset) (ln "END" "VTIMEZONE"); IComp (ln "BEGIN" "VEVENT") (z_event l) (ln "END" "VEVENT")].
Lemma z_unknown : framed t_begin (z_items "+0100" z_start) t_end /\ inside SCalendar (z_items "+0100" z_start) SEvent (z_event z_start) /\ In (FTProp PrDateTimeStart) (api_fields SEvent) /\ In PrDateTimeStart moments /\
  In z_start (own_lines (prop_name PrDateTimeStart) (z_event z_start)) /\ given (bs "VALUE") (cl_params z_start) = [] /\ last_given (bs "TZID") (cl_params z_start) = Some (bs "/town/Town") /\ load_location 0 (bs "/town/Town") = None.
Proof.
  split; [apply framed_b; vm_compute; reflexivity|]. split; [eapply In_comp with (sid := SEvent); [right; right; right; left; reflexivity|cbn; tauto|constructor]|].
  split; [cbn; tauto|]. split; [cbn; tauto|]. split; [left; reflexivity|]. split; [reflexivity|]. split; [reflexivity|]. apply slash_zone.
Qed.
End S.
(** The same calendar with two definitions of a zone that is known. *)
Definition z_town : cline := CLine (bs "DTSTART") [CParam (bs "TZID") (Plain (bs "Europe/Town")) []] (bs "20240301T090000").
Lemma ok_some {A} (r : res A) : match r with Ok _ => true | _ => false end = true -> exists x, r = Ok x.
Proof. destruct r; try discriminate. eauto. Qed.
Lemma z_rules : @framed env0 t_begin (z_items "+0100" z_town) t_end /\ @framed env0 t_begin (z_items "-0700" z_town) t_end /\
  (exists cal, @decode_bytes env0 (frame_text t_begin (z_items "+0100" z_town) t_end ++ []) = Ok cal) /\ exists cal, @decode_bytes env0 (frame_text t_begin (z_items "-0700" z_town) t_end ++ []) = Ok cal.
Proof. split; [apply framed_b; vm_compute; reflexivity|]. split; [apply framed_b; vm_compute; reflexivity|]. split; apply ok_some; vm_cast_no_check (eq_refl true). Qed.

Section S2.
Context {env : Env}.
(** A calendar with one event that starts at [t]. *)
Definition cal_at (t : time) : sec :=
  Sec SCalendar [[FVProp PrVersion (PNew (VText (bs "2.0")))]; [FVProp PrProductID (PNew (VText (bs "x")))];
    [FVSec (Sec SEvent ([[FVProp PrDateTimeStamp (PNew nowZ)]; [FVProp PrUID (PNew (VText (bs "1")))]; [FVProp PrDateTimeStart (PStruct [] [Some (VDateTime t); None])]] ++ repeat [] 28))]; []; []; []; []].
Lemma at_good t : moment_good 0 t -> cal_good (cal_at t).
Proof.
  intros G. assert (EV : cal_good (Sec SEvent ([[FVProp PrDateTimeStamp (PNew nowZ)]; [FVProp PrUID (PNew (VText (bs "1")))]; [FVProp PrDateTimeStart (PStruct [] [Some (VDateTime t); None])]] ++ repeat [] 28))).
  { apply cal_good_by. cbn [app repeat fields_of sec_spec sp_fields].
    constructor; [split; [reflexivity|repeat constructor; apply now_good]|].
    constructor; [split; [reflexivity|constructor; [|constructor]; constructor; split; [reflexivity|apply text_ok; reflexivity]]|].
    constructor; [split; [cbn; auto|constructor; [|constructor]; apply VG_prop; split; [constructor|]; exists [], [(bs "DATE", KDate)], (bs "DATE-TIME"), (VDateTime t); split; [reflexivity|split; [reflexivity|exact G]]]|].
    do 28 (constructor; [split; [cbn; auto|constructor]|]). constructor. }
  apply cal_good_by. constructor; [split; [reflexivity|constructor; [|constructor]; constructor; split; [reflexivity|apply text_ok; reflexivity]]|].
  constructor; [split; [reflexivity|constructor; [|constructor]; constructor; split; [reflexivity|apply text_ok; reflexivity]]|].
  constructor; [split; [exact Logic.I|constructor; [|constructor]; constructor; exact EV]|]. do 4 (constructor; [split; [cbn; auto|constructor]|]). constructor.
Qed.
Lemma at_rules t : rules_met (cal_at t).
Proof.
  intros x P. inversion P as [|y z id fs vs I J Q|y z id fs vs I J Q]; subst; [exact Logic.I| |].
  - repeat (destruct I as [<-|I]; [repeat (destruct J as [J|J]; [try discriminate J; try (injection J as <-)|]); try contradiction|]); try contradiction.
    inversion Q as [|y' z' id' fs' vs' I' J' Q'|y' z' id' fs' vs' I' J' Q']; subst.
    + cbn [obeys sec_id]. intros [H _]. apply H. reflexivity.
    + exfalso. repeat (destruct I' as [<-|I']; [repeat (destruct J' as [J'|J']; [discriminate J'|]); contradiction|]). contradiction.
    + exfalso. repeat (destruct I' as [<-|I']; [repeat (destruct J' as [J'|J']; [discriminate J'|]); contradiction|]). contradiction.
  - exfalso. repeat (destruct I as [<-|I]; [repeat (destruct J as [J|J]; [discriminate J|]); contradiction|]). contradiction.
Qed.
Lemma at_case t : moment_good 0 t -> is_zero t = false ->
  sec_id (cal_at t) = SCalendar /\ cal_good (cal_at t) /\ rules_met (cal_at t) /\ (forall p, ~ has_prop (cal_at t) PrLastModified p) /\ sec_valid (cal_at t) = None.
Proof.
  intros G Z. pose proof (at_good t G) as GC. split; [reflexivity|]. split; [exact GC|]. split; [apply at_rules|]. split.
  - intros p H. assert (F : forget (cal_at t) = cal_at t) by reflexivity. rewrite <- F in H. apply (forget_props _ _ _ GC) in H as [_ H]. apply H. reflexivity.
  - cbv -[is_zero]. rewrite Z. reflexivity.
Qed.
Theorem zone_undefined t z : moment_good 0 t -> is_zero t = false -> t_loc t = LZone z 0 -> exists cal out, Encode ok_writer [] cal = EncDone None out /\
  (forall w sizes, (forall i, 1 <= sizes i) -> length (concat out) <= sizes 0 -> exists n, forall fuel, n <= fuel -> Decode fuel sizes [concat out] w = Ok cal) /\
  has_prop cal PrDateTimeStart (PStruct [] [Some (VDateTime t); None]) /\ forall y, part_of y cal -> sec_id y <> STimezone.
Proof.
  intros G Z L. destruct (at_case t G Z) as (I & GC & R & N & V). destruct (calendar_round_trip _ I GC R N V) as (out & E & D & _). exists (cal_at t), out. split; [exact E|]. split; [exact D|]. split.
  - eexists. eexists. split; [eapply Part_sec; [right; right; left; reflexivity|left; reflexivity|apply Part_self]|]. split; [right; right; left; reflexivity|left; reflexivity].
  - intros y P. inversion P as [|y' x id fs vs I1 J Q|y' x id fs vs I1 J Q]; subst; [discriminate| |].
    + repeat (destruct I1 as [<-|I1]; [repeat (destruct J as [J|J]; [try discriminate J; try (injection J as <-)|]); try contradiction|]); try contradiction.
      inversion Q as [|y2 z' id' fs' vs' I' J' Q'|y2 z' id' fs' vs' I' J' Q']; subst; [discriminate| |];
        exfalso; repeat (destruct I' as [<-|I']; [repeat (destruct J' as [J'|J']; [discriminate J'|]); contradiction|]); contradiction.
    + exfalso. repeat (destruct I1 as [<-|I1]; [repeat (destruct J as [J|J]; [discriminate J|]); contradiction|]). contradiction.
Qed.

(** ** Different calendars *)
Lemma both_written : (sec_id cal_plain = SCalendar /\ cal_good cal_plain /\ exists out, Encode ok_writer [] cal_plain = EncDone None out) /\
  (sec_id cal_modified = SCalendar /\ cal_good cal_modified /\ exists out, Encode ok_writer [] cal_modified = EncDone None out).
Proof.
  split.
  - destruct plain_case as (I & G & R & N & V). destruct (calendar_round_trip _ I G R N V) as (out & E & _). eauto 6.
  - destruct modified_case as (I & G & R & V & H). destruct (last_modified_lost _ _ I G R V H) as (out & c & E & _). eauto 6.
Qed.
(** Moments within one second are written alike. *)
Theorem written_alike {W E} (wr : W -> bytes -> W * option E) w s n n' l : is_zero (Time s n l) = false -> is_zero (Time s n' l) = false ->
  Encode wr w (cal_at (Time s n l)) = Encode wr w (cal_at (Time s n' l)).
Proof.
  intros Z Z'. assert (V : forall t, is_zero t = false -> sec_valid (cal_at t) = None) by (intros t H; cbv -[is_zero]; rewrite H; reflexivity).
  unfold Encode. rewrite (V _ Z), (V _ Z'). assert (Q : sec_encode (cal_at (Time s n l)) = sec_encode (cal_at (Time s n' l))) by reflexivity. rewrite Q. reflexivity.
Qed.

Lemma alike_case : is_zero (Time 1709280000 0 LUTC) = false /\ is_zero (Time 1709280000 5 LUTC) = false /\ cal_at (Time 1709280000 0 LUTC) <> cal_at (Time 1709280000 5 LUTC).
Proof. split; [reflexivity|]. split; [reflexivity|]. intros Q. unfold cal_at in Q. cbn [app repeat] in Q. discriminate Q. Qed.

(** ** Lines by themselves *)
(** An event that ends on a day before the moment at which it starts. *)
Definition a_event (l : cline) : list item := [ILine (ln "DTSTAMP" "20240229T101500Z"); ILine (ln "UID" "1"); ILine (ln "DTSTART" "20240301T090000Z"); ILine l].
Definition a_items (l : cline) : list item := [ILine (ln "VERSION" "2.0"); ILine (ln "PRODID" "x"); IComp (ln "BEGIN" "VEVENT") (a_event l) (ln "END" "VEVENT")].
Definition a_end : cline := ln "DTEND" "20240301T100000Z".
Definition a_end' : cline := CLine (bs "DTEND") [CParam (bs "VALUE") (Plain (bs "DATE")) []] (bs "20120101").
Lemma a_readable : readable SEvent a_end'.
Proof.
  intros pid I Q. assert (pid = PrDateTimeEnd) as ->.
  { cbn in I. repeat destruct I as [I|I]; try contradiction; try discriminate I; injection I as <-; try discriminate Q. reflexivity. }
  exists (PStruct [] [None; Some (VDate (Time 1325376000 0 LUTC))]). apply line_exact. vm_compute. reflexivity.
Qed.
Lemma a_case : framed t_begin (a_items a_end) t_end /\ framed t_begin (a_items a_end') t_end /\ revalued SCalendar (a_items a_end) (a_items a_end') /\
  exists cal, decode_bytes (frame_text t_begin (a_items a_end) t_end ++ []) = Ok cal.
Proof.
  split; [apply framed_b; vm_compute; reflexivity|]. split; [apply framed_b; vm_compute; reflexivity|]. split; [|eexists; vm_compute; reflexivity].
  apply (Rv_comp SCalendar [ILine (ln "VERSION" "2.0"); ILine (ln "PRODID" "x")] (ln "BEGIN" "VEVENT") (a_event a_end) (a_event a_end') (ln "END" "VEVENT") [] SEvent); [cbn; tauto|].
  apply (Rv_here SEvent (firstn 3 (a_event a_end)) a_end a_end' []); [reflexivity|apply a_readable].
Qed.

(** An alarm with another trigger. *)
Definition r_alarm (l : cline) : item := IAlarm (ln "BEGIN" "VALARM") [ln "ACTION" "DISPLAY"; ln "DESCRIPTION" "x"; l; ln "x" "y"] (ln "END" "VALARM").
Definition r_event (l : cline) : list item := [ILine (ln "DTSTAMP" "20240301T000000Z"); ILine (ln "UID" "1"); ILine (ln "DTSTART" "20240301T090000Z"); r_alarm l].
Definition r_items (l : cline) : list item := [ILine (ln "VERSION" "2.0"); ILine (ln "PRODID" "x"); IComp (ln "BEGIN" "VEVENT") (r_event l) (ln "END" "VEVENT")].
Definition r_old : cline := ln "TRIGGER" "-PT15M".
Definition r_new : cline := ln "TRIGGER" "P2W".
Lemma r_readable : readable SAlarmDisplay r_new.
Proof.
  intros pid I Q. assert (pid = PrTrigger) as ->.
  { cbn in I. repeat destruct I as [I|I]; try contradiction; try discriminate I; injection I as <-; try discriminate Q. reflexivity. }
  eexists. apply line_exact. vm_compute. reflexivity.
Qed.
Lemma r_case : framed t_begin (r_items r_old) t_end /\ framed t_begin (r_items r_new) t_end /\ revalued SCalendar (r_items r_old) (r_items r_new) /\
  exists cal, decode_bytes (frame_text t_begin (r_items r_old) t_end ++ []) = Ok cal.
Proof.
  split; [apply framed_b; vm_compute; reflexivity|]. split; [apply framed_b; vm_compute; reflexivity|]. split; [|eexists; vm_compute; reflexivity].
  apply (Rv_comp SCalendar [ILine (ln "VERSION" "2.0"); ILine (ln "PRODID" "x")] (ln "BEGIN" "VEVENT") (r_event r_old) (r_event r_new) (ln "END" "VEVENT") [] SEvent); [cbn; tauto|].
  apply (Rv_alarm SEvent (firstn 3 (r_event r_old)) (ln "BEGIN" "VALARM") [ln "ACTION" "DISPLAY"; ln "DESCRIPTION" "x"] r_old r_new [ln "x" "y"] (ln "END" "VALARM") [] SAlarmDisplay).
  - exists [], (bs "DISPLAY"). split; [reflexivity|]. split; [constructor|]. right. left. reflexivity.
  - split; discriminate.
  - discriminate.
  - reflexivity.
  - apply r_readable.
Qed.

(** ** Stamps *)
Theorem stamp_not_utc pid cps a c y mo d h mi x ns : In pid stamps -> last_given (bs "TZID") cps = None -> date_text a y mo d -> real_date y mo d -> clock_text c h mi x ns ->
  line_means pid cps (a ++ bs "T" ++ c) (PNew (VDateTime (go_date y mo d h mi x ns LLocal))).
Proof.
  intros I Z A R C. apply stamps_read; [exact I|]. rewrite Z. eexists. split; [|reflexivity]. exists a, c, y, mo, d, h, mi, x, ns, LLocal. split; [right; auto|]. auto.
Qed.
Theorem stamp_written pid t : In pid stamps -> is_zero t = false -> prop_valid pid (PNew (VDateTime t)) = None.
Proof.
  intros I Z. cbn [stamps In] in I. repeat destruct I as [<-|I]; try contradiction; cbv -[is_zero]; rewrite Z; reflexivity.
Qed.
Lemma stamp_case : In PrCreated stamps /\ last_given (bs "TZID") [] = None /\ date_text (bs "20161231") 2016 12 31 /\ real_date 2016 12 31 /\ clock_text (bs "235959") 23 59 59 0.
Proof.
  destruct SampleLang.day_case as [D R]. destruct SampleLang.clock_case as [(C & B1 & B2 & B3) _]. split; [right; left; reflexivity|]. split; [reflexivity|]. split; [exact D|]. split; [exact R|].
  exists (bs "235959"), []. split; [reflexivity|]. split; [exact C|]. do 3 (split; [lia|]). left. split; reflexivity.
Qed.
End S2.
(** A moment in a zone. *)
Lemma zone_case : let t := @Time env0 1709280000 0 (@LZone env0 (bs "Europe/Town") 0) in moment_good 0 t /\ is_zero t = false.
Proof.
  cbv zeta. split; [|reflexivity]. destruct (town_ok 1709280000) as (L & B & U & C & H). split; [reflexivity|]. split; [vm_compute; split; [discriminate|reflexivity]|].
  cbn [t_loc]. split; [reflexivity|]. split; [exact L|]. split; [reflexivity|]. split; [exact H|]. split; [exact B|]. split; [exact U|exact C].
Qed.
