(** A calendar for the theorems of PropertiesBuilt.v. *)
From Coq Require Import String Ascii ZArith Bool List Lia.
From Verif Require Import Base Lib GoTime Types Params ParamTable PropTable Props SecTable Sections SpecTree SpecRules SpecEdits SpecTime SpecDuration SpecParams SpecRecur SpecProps SpecCal CalProofs Sample SampleProps SampleCal SpecNormal SpecBuilt.
Import ListNotations.
Local Open Scope Z_scope.

(** An event on the day that begins in Town half an hour after 23:00 UTC on 29 February 2024; a stamp with a fraction of a second; a rule with
    a count and a last moment; an attendee in role 77 whose answer is not asked for; a period with an end and a duration. *)
Definition town : @loc env0 := @LZone env0 (bs "Europe/Town") 3.
Definition b_rule (ut : bool) (u : @time env0) : @value env0 := VRecur (Recur 3 0 ut u 5 0 [] [] [] [] [] [] [] [] []).
Definition b_attendee (role : Z) (rsvp lang : option pval) : @prop env0 := PStruct
  [Some (PVEnum 2); None; Some (PVEnum role); None; rsvp; None; None; None; Some (PVText (bs "Doe, J")); None; lang] [Some (VCalendarAddress (bs "mailto:j@town" : @url env0))].
Definition b_event (stamp start rule : @value env0) (who : @prop env0) (dates : @value env0) : @sec env0 := Sec SEvent
  ([[FVProp PrDateTimeStamp (PNew stamp)]; [FVProp PrUID (PNew (VText (bs "1")))]; [FVProp PrDateTimeStart (PStruct [] [None; Some start])]] ++ repeat [] 14 ++
   [[FVProp PrRecurrenceRule (PNew rule)]; []; []; []; [FVProp PrAttendee who]] ++ repeat [] 7 ++ [[FVProp PrRecurrenceDateTimes (PStruct [] [None; None; Some dates])]; []]).
Definition b_cal (ev : @sec env0) : @sec env0 :=
  Sec SCalendar [[FVProp PrVersion (PNew (VText (bs "2.0")))]; [FVProp PrProductID (PNew (VText (bs "x")))]; [FVSec ev]; []; []; []; []].
Definition built : @sec env0 := b_cal (b_event (VDateTime (Time 1709201700 7 LUTC)) (VDate (Time 1709249400 5 town)) (b_rule true (Time 1719201700 0 LUTC))
  (b_attendee 77 (Some (PVBool false)) (Some (PVText []))) (VPeriod (Period (Time 1709201700 7 LUTC) (Time 1709205300 9 LUTC) (Duration false 0 0 2 0 0)))).
Definition reread_event : @sec env0 := b_event (VDateTime (Time 1709201700 0 LUTC)) (VDate (Time 1709251200 0 LUTC)) (b_rule false zero_time)
  (b_attendee 0 None None) (VPeriod (Period (Time 1709201700 0 LUTC) (Time 1709205300 0 LUTC) zero_duration)).
Definition reread : @sec env0 := b_cal reread_event.
Lemma built_said : said built = reread.
Proof. vm_compute. reflexivity. Qed.
Lemma utc_good id s : -62167219200 <= s < 253402300800 -> @moment_good env0 id (Time s 0 LUTC).
Proof. intros B. split; [reflexivity|]. split; [|exact Logic.I]. unfold in_years, wall. cbn [t_sec t_loc]. change (@offset_at env0 LUTC s) with 0. lia. Qed.
Lemma who_good : prop_good PrAttendee (b_attendee 0 None None).
Proof.
  split.
  - repeat constructor; intros v E; try discriminate E; injection E as <-; cbn; try lia. split; [discriminate|]. apply text_good_dec. reflexivity.
  - exists [], [], (bs "CalendarAddress"), (VCalendarAddress (bs "mailto:j@town" : @url env0)). repeat split.
Qed.
Lemma rule_good : value_good (b_rule false zero_time).
Proof.
  split; [|split; [reflexivity|split; [left; split; reflexivity|split; [constructor|right; reflexivity]]]].
  unfold recur_typed. cbn [r_freq r_wkst r_count r_interval r_bysecond r_byminute r_byhour r_byday r_bymonthday r_byyearday r_byweekno r_bymonth r_bysetpos].
  do 4 (split; [lia|]). do 8 (split; [constructor|]). constructor.
Qed.
Lemma reread_good : cal_good reread.
Proof.
  assert (G : cal_good reread_event).
  { unfold reread_event, b_event. apply cal_good_by. cbn [app repeat fields_of sec_spec sp_fields].
    constructor; [split; [reflexivity|constructor; [|constructor]; constructor; split; [reflexivity|apply utc_good; lia]]|].
    constructor; [split; [reflexivity|constructor; [|constructor]; constructor; split; [reflexivity|apply text_ok; reflexivity]]|].
    constructor; [split; [cbn; auto|constructor; [|constructor]; apply VG_prop; split; [constructor|]; exists [(bs "DATE-TIME", KDateTime)], [], (bs "DATE"), (VDate (Time 1709251200 0 (@LUTC env0))); split; [reflexivity|split; [reflexivity|split; [eexists; split; [reflexivity|lia]|reflexivity]]]]|].
    do 14 (constructor; [split; [cbn; auto|constructor]|]).
    constructor; [split; [cbn; auto|constructor; [|constructor]; constructor; split; [reflexivity|exact rule_good]]|].
    do 3 (constructor; [split; [cbn; auto|constructor]|]).
    constructor; [split; [exact Logic.I|constructor; [|constructor]; constructor; exact who_good]|].
    do 7 (constructor; [split; [cbn; auto|constructor]|]).
    constructor; [split; [exact Logic.I|constructor; [|constructor]; apply VG_prop; split; [constructor|]; exists [(bs "DATE-TIME", KDateTime); (bs "DATE", KDate)], [], (bs "PERIOD"), (VPeriod (Period (Time 1709201700 0 (@LUTC env0)) (Time 1709205300 0 LUTC) zero_duration)); split; [reflexivity|split; [reflexivity|split; [apply utc_good; lia|left; split; [apply utc_good; lia|split; [reflexivity|split; reflexivity]]]]]]|].
    constructor; [split; [exact Logic.I|constructor]|]. constructor. }
  unfold reread, b_cal. apply cal_good_by. constructor; [split; [reflexivity|constructor; [|constructor]; constructor; split; [reflexivity|apply text_ok; reflexivity]]|].
  constructor; [split; [reflexivity|constructor; [|constructor]; constructor; split; [reflexivity|apply text_ok; reflexivity]]|].
  constructor; [split; [exact Logic.I|constructor; [|constructor]; exact (VG_sec SEvent _ G)]|]. do 4 (constructor; [split; [cbn; auto|constructor]|]). constructor.
Qed.
Lemma built_rules : rules_met built.
Proof.
  intros x P. inversion P as [|y z id fs vs I J Q|y z id fs vs I J Q]; subst; [exact Logic.I| |].
  - repeat (destruct I as [<-|I]; [repeat (destruct J as [J|J]; [try discriminate J; try (injection J as <-)|]); try contradiction|]); try contradiction.
    inversion Q as [|y' z' id' fs' vs' I' J' Q'|y' z' id' fs' vs' I' J' Q']; subst.
    + cbn [obeys sec_id]. intros [H _]. apply H. reflexivity.
    + exfalso. repeat (destruct I' as [<-|I']; [repeat (destruct J' as [J'|J']; [discriminate J'|]); contradiction|]). contradiction.
    + exfalso. repeat (destruct I' as [<-|I']; [repeat (destruct J' as [J'|J']; [discriminate J'|]); contradiction|]). contradiction.
  - exfalso. repeat (destruct I as [<-|I]; [repeat (destruct J as [J|J]; [discriminate J|]); contradiction|]). contradiction.
Qed.
Theorem built_case : sec_id built = SCalendar /\ sec_valid built = None /\ said built = reread /\ cal_good reread /\ rules_met built /\ forget reread = reread /\ reread <> built.
Proof.
  split; [reflexivity|]. split; [vm_compute; reflexivity|]. split; [exact built_said|]. split; [exact reread_good|]. split; [exact built_rules|]. split; [vm_compute; reflexivity|].
  intros E. apply (f_equal (fun c => match c with Sec _ (_ :: _ :: [FVSec (Sec _ ([FVProp _ (PNew (VDateTime t))] :: _))] :: _) => t_nsec t | _ => 1 end)) in E. discriminate E.
Qed.
