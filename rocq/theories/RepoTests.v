(** The tests of decoder_test.go, encoder_test.go and examples_test.go, run on the model: tests and not
    proofs, as in RepoTypes.v. A calendar is written down as the values of its fields, and an absent
    optional field is not. *)
From Coq Require Import String Ascii ZArith Bool List.
From Verif Require Import Base GoStrings GoTime Types Params ParamTable PropTable Props SecTable Sections Folder Codec Unfolder OnDemand Sample RepoEnv RepoInputs.
Import ListNotations.
Local Open Scope Z_scope.

(** ** Calendars as they are written in the tests *)
Definition field_of (id : secid) (v : fval) : option (nat * field) :=
  match v with
  | FVProp pid _ => find_field (is_prop_field (fst (prop_spec pid))) (fields_of id)
  | FVSec s => find_field (is_sec_field (sp_name (sec_spec (sec_id s)))) (fields_of id)
  | FVAlarm _ => find_field (fun f => match fd_type f with FTAlarm => true | _ => false end) (fields_of id)
  end.
Definition make (id : secid) (l : list fval) : sec :=
  Sec id (fold_left (fun fs v => match field_of id v with Some (i, _) => add_field i v fs | None => fs end) l (no_fields id)).
(** A property with the parameters and the value given. *)
Definition st (pid : propid) (ps : list (paramid * pval)) (v : bytes * value) : fval :=
  FVProp pid match snd (prop_spec pid) with
             | MStruct l vs =>
               PStruct (map (fun p => match find (fun x => beq (keyword (fst x)) (keyword p)) ps with Some x => Some (snd x) | None => None end) l)
                       (map (fun x => if beq (fst x) (fst v) then Some (snd v) else None) vs)
             | MEnum _ => PEnum 0
             | MNew _ => PNew (snd v)
             end.
Definition first_word (pid : propid) : bytes := match snd (prop_spec pid) with MStruct _ ((w, _) :: _) => w | _ => [] end.
Definition val (pid : propid) (v : value) : fval := st pid [] (first_word pid, v).
Definition text (pid : propid) (s : string) : fval := val pid (VText (bs s)).
Definition at_ (pid : propid) (t : time) : fval := val pid (VDateTime t).
Definition mailto (pid : propid) (ps : list (paramid * pval)) (s : string) : fval := st pid ps (first_word pid, VCalendarAddress (bs s : url)).
Definition enum (pid : propid) (n : Z) : fval := FVProp pid (PEnum n).
Definition head (id : string) : list fval := [text PrVersion "2.0"; text PrProductID id].

(** ** decoder_test.go:92-560 and encoder_test.go:12-386 *)
Definition cal1 : sec := make SCalendar (head "TestDecode").
Definition cal2 : sec := make SCalendar (head "-//xyz Corp//NONSGML PDA Calendar Version 1.0//EN" ++ [FVSec (make SEvent [
  at_ PrDateTimeStamp (go_date 1996 7 4 12 0 0 0 LUTC);
  text PrUID "uid1@example.com";
  mailto PrOrganizer [] "mailto:jsmith@example.com";
  at_ PrDateTimeStart (go_date 1996 9 18 14 30 0 0 LUTC);
  at_ PrDateTimeEnd (go_date 1996 9 20 22 0 0 0 LUTC);
  enum PrStatus 1;
  val PrCategories (VMText [bs "CONFERENCE"]);
  text PrSummary "Networld+Interop Conference";
  val PrDescription (VText (bs "Networld+Interop Conference and Exhibit" ++ [LF] ++ bs "Atlanta World Congress Center" ++ [LF] ++ bs "Atlanta, Georgia"))])]).
Definition cal3 : sec := make SCalendar (head "-//RDU Software//NONSGML HandCal//EN" ++ [
  FVSec (make SEvent [
    at_ PrDateTimeStamp (go_date 1998 3 9 23 10 0 0 LUTC);
    text PrUID "guid-1.example.com";
    mailto PrOrganizer [] "mailto:mrbig@example.com";
    mailto PrAttendee [(PmCalendarUserType, PVEnum 2); (PmRSVP, PVBool true); (PmParticipationRole, PVEnum 1)] "mailto:employee-A@example.com";
    text PrDescription "Project XYZ Review Meeting";
    val PrCategories (VMText [bs "MEETING"]);
    enum PrClass 0;
    at_ PrCreated (go_date 1998 3 9 13 0 0 0 LUTC);
    at_ PrDateTimeStart (go_date 1998 3 12 8 30 0 0 new_york);
    at_ PrDateTimeEnd (go_date 1998 3 12 9 30 0 0 new_york);
    text PrLocation "1CP Conference Room 4350";
    text PrSummary "XYZ Project Review"]);
  FVSec (make STimezone [
    text PrTimezoneID "America/New_York";
    FVSec (make SStandard [
      at_ PrDateTimeStart (go_date 1998 10 25 2 0 0 0 LLocal);
      val PrTimezoneOffsetFrom (VUTCOffset (-4 * 3600));
      val PrTimezoneOffsetTo (VUTCOffset (-5 * 3600));
      text PrTimezoneName "EST"]);
    FVSec (make SDaylight [
      at_ PrDateTimeStart (go_date 1999 4 4 2 0 0 0 LLocal);
      val PrTimezoneOffsetFrom (VUTCOffset (-5 * 3600));
      val PrTimezoneOffsetTo (VUTCOffset (-4 * 3600));
      text PrTimezoneName "EDT"])])]).
Definition cal4 : sec := make SCalendar (head "-//ABC Corporation//NONSGML My Product//EN" ++ [FVSec (make STodo [
  at_ PrDateTimeStamp (go_date 1998 1 30 13 45 0 0 LUTC);
  val PrSequence (VInteger 2);
  text PrUID "uid4@example.com";
  mailto PrOrganizer [] "mailto:unclesam@example.com";
  mailto PrAttendee [(PmParticipationStatus, PVEnum 2)] "mailto:jqpublic@example.com";
  at_ PrDue (go_date 1998 4 15 0 0 0 0 LLocal);
  enum PrStatus 3;
  text PrSummary "Submit Income Taxes";
  FVAlarm (Some (make SAlarmAudio [
    st PrTrigger [] (bs "DATE-TIME", VDateTime (go_date 1998 4 3 12 0 0 0 LUTC));
    st PrAttachment [(PmFormatType, PVText (bs "audio/basic"))] (first_word PrAttachment, VURI (bs "http://example.com/pub/audio-files/ssbanner.aud" : url));
    val PrRepeat (VInteger 4);
    val PrDuration (VDuration (Duration false 0 0 1 0 0))]))])]).
Definition cal5 : sec := make SCalendar (head "-//ABC Corporation//NONSGML My Product//EN" ++ [FVSec (make SJournal [
  at_ PrDateTimeStamp (go_date 1997 3 24 12 0 0 0 LUTC);
  text PrUID "uid5@example.com";
  mailto PrOrganizer [] "mailto:jsmith@example.com";
  enum PrStatus 6;
  enum PrClass 0;
  val PrCategories (VMText [bs "Project Report"; bs "XYZ"; bs "Weekly Meeting"]);
  val PrDescription (VText (join [LF] (map bs [
    "Project xyz Review Meeting Minutes"; "Agenda";
    "1. Review of project version 1.0 requirements."; "2. Definition of project processes."; "3. Review of project schedule.";
    "Participants: John Smith, Jane Doe, Jim Dandy";
    "-It was decided that the requirements need to be signed off by product marketing.";
    "-Project processes were accepted.";
    "-Project schedule needs to account for scheduled holidays and employee vacation time. Check with HR for specific dates.";
    "-New schedule will be distributed by Friday.";
    "-Next weeks meeting is cancelled. No meeting until 3/23."]%string)))])]).
Definition busy (a b : time) : fval := val PrFreeBusy (VPeriod (Period a b zero_duration)).
Definition cal6 : sec := make SCalendar (head "-//RDU Software//NONSGML HandCal//EN" ++ [FVSec (make SFreeBusy [
  at_ PrDateTimeStamp (go_date 1997 3 24 12 0 0 0 LUTC);
  text PrUID "uid5@example.com";
  mailto PrOrganizer [] "mailto:jsmith@example.com";
  at_ PrDateTimeStart (go_date 1998 3 13 14 17 11 0 LUTC);
  at_ PrDateTimeEnd (go_date 1998 4 10 14 17 11 0 LUTC);
  busy (go_date 1998 3 14 23 30 0 0 LUTC) (go_date 1998 3 15 0 30 0 0 LUTC);
  busy (go_date 1998 3 16 15 30 0 0 LUTC) (go_date 1998 3 16 16 30 0 0 LUTC);
  busy (go_date 1998 3 18 3 0 0 0 LUTC) (go_date 1998 3 18 4 0 0 0 LUTC);
  val PrURL (VURI (bs "http://www.example.com/calendar/busytime/jsmith.ifb" : url))])]).

(** ** The tests *)
Definition decodes (c : bytes * sec) : Prop := let '(s, cal) := c in Decode 64 (fun _ => 4096%nat) [s] false = Ok cal.
(** The same reading on demand (OnDemand.v). *)
Definition decodes_on_demand (c : bytes * sec) : Prop :=
  let '(s, cal) := c in match DecodeOD 64 (fun _ => 4096%nat) (Rdr [s] false REOF) with Ok (x, _) => Some x | _ => None end = Some cal.
Definition encodes (c : sec * bytes) : Prop :=
  let '(cal, s) := c in
  match Encode ok_writer [] cal with EncDone None out => Some (concat out) | _ => None end = Some s /\ decodes (s, cal).

Example decode_nothing : Decode 64 (fun _ => 4096%nat) [] false = Err ErrUnexpectedEOF.
Proof. run. Qed.
Example decode_test : Forall decodes [(decoder_input2, cal1); (decoder_input3, cal2); (decoder_input4, cal3); (decoder_input5, cal4); (decoder_input6, cal5); (decoder_input7, cal6)].
Proof. repeat (apply Forall_cons; [hnf; run|]). apply Forall_nil. Qed.
Example decode_test_on_demand : Forall decodes_on_demand [(decoder_input2, cal1); (decoder_input3, cal2); (decoder_input4, cal3); (decoder_input5, cal4); (decoder_input6, cal5); (decoder_input7, cal6)].
Proof. repeat (apply Forall_cons; [hnf; run|]). apply Forall_nil. Qed.
Example encode_test : Forall encodes [(cal1, encoder_output1); (cal2, encoder_output2); (cal3, encoder_output3); (cal4, encoder_output4); (cal5, encoder_output5); (cal6, encoder_output6)].
Proof. repeat (apply Forall_cons; [hnf; split; [run|hnf; run]|]). apply Forall_nil. Qed.

(** examples_test.go: the start and the summary of the first event of a text without a last line end. *)
Definition started (c : res sec) : option (fval * fval) :=
  match c with
  | Ok (Sec _ fs) =>
    match concat fs with
    | _ :: _ :: FVSec (Sec _ es) :: _ => match nth 2 es [], nth 13 es [] with [a], [b] => Some (a, b) | _, _ => None end
    | _ => None
    end
  | _ => None
  end.
Example example_test : started (Decode 64 (fun _ => 4096%nat) [example_data] false) =
  Some (at_ PrDateTimeStart (go_date 1997 7 14 17 0 0 0 LUTC), text PrSummary "Bastille Day Party").
Proof. run. Qed.
