(** What the content of a component means, in terms of tables written by hand: the fields of the Go
    structs, the names of SpecRfc.v, the rules of SpecRules.v and the lines of SpecLine.v. *)
From Coq Require Import String Ascii ZArith Bool List.
From Verif Require Import Base GoStrings Tokeniser SpecContent GoTime Types Params ParamTable PropTable Props SecTable Sections SpecTree SpecRules SpecEdits SpecRfc SpecLine.
Import ListNotations.
Local Open Scope string_scope.
Local Open Scope list_scope.

Section Comp.
Context {env : Env}.

(** The fields of the structs of the API, in order (sections.go, sections_alarm.go). *)
Definition api_fields (id : secid) : list ftype :=
  let series := [PrAttachment; PrAttendee; PrCategories; PrComment; PrContact] in
  let series' := [PrExceptionDateTime; PrRequestStatus; PrRelatedTo; PrResources; PrRecurrenceDateTimes] in
  let alarm := [PrUID; PrAlarmAgent; PrAlarmStatus; PrLastTriggered; PrAcknowledged; PrProximity; PrGeoLocation; PrRelatedTo; PrDefaultAlarm] in
  let zone := [PrDateTimeStart; PrTimezoneOffsetTo; PrTimezoneOffsetFrom; PrRecurrenceRule; PrComment; PrRecurrenceDateTimes; PrTimezoneName] in
  match id with
  | SCalendar => map FTProp [PrVersion; PrProductID] ++ map FTSec [SEvent; STodo; SJournal; SFreeBusy; STimezone]
  | SEvent => map FTProp ([PrDateTimeStamp; PrUID; PrDateTimeStart; PrClass; PrCreated; PrDescription; PrGeo; PrLastModified; PrLocation; PrOrganizer; PrPriority;
      PrSequence; PrStatus; PrSummary; PrTimeTransparency; PrURL; PrRecurrenceID; PrRecurrenceRule; PrDateTimeEnd; PrDuration] ++ series ++ series') ++ [FTAlarm]
  | STodo => map FTProp ([PrDateTimeStamp; PrUID; PrClass; PrCompleted; PrCreated; PrDescription; PrDateTimeStart; PrGeo; PrLastModified; PrLocation; PrOrganizer;
      PrPercentComplete; PrPriority; PrRecurrenceID; PrSequence; PrStatus; PrSummary; PrURL; PrDue; PrDuration] ++ series ++ series') ++ [FTAlarm]
  | SJournal => map FTProp ([PrDateTimeStamp; PrUID; PrClass; PrCreated; PrDateTimeStart; PrLastModified; PrOrganizer; PrRecurrenceID; PrSequence; PrStatus; PrSummary;
      PrURL; PrRecurrenceRule] ++ series ++ PrDescription :: series')
  | SFreeBusy => map FTProp [PrDateTimeStamp; PrUID; PrContact; PrDateTimeStart; PrDateTimeEnd; PrOrganizer; PrURL; PrAttendee; PrComment; PrFreeBusy; PrRequestStatus]
  | STimezone => map FTProp [PrTimezoneID; PrLastModified; PrTimezoneURL] ++ map FTSec [SStandard; SDaylight]
  | SStandard | SDaylight => map FTProp zone
  | SAlarmAudio => map FTProp ([PrTrigger; PrDuration; PrRepeat; PrAttachment] ++ alarm)
  | SAlarmDisplay => map FTProp ([PrDescription; PrTrigger; PrDuration; PrRepeat] ++ alarm)
  | SAlarmEmail => map FTProp ([PrDescription; PrTrigger; PrSummary; PrAttendee; PrDuration; PrRepeat] ++ alarm)
  | SAlarmURI => map FTProp ([PrURI; PrDuration; PrRepeat] ++ alarm)
  | SAlarmNone => []
  end.

(** The name a property is read by: its own, except that LAST-MODIFIED is looked for as LAST-MOD. *)
Definition read_name (pid : propid) : bytes := match pid with PrLastModified => bs "LAST-MOD" | _ => prop_name pid end.

(** The items of a component that go into a field. *)
Definition for_field (t : ftype) (i : item) : bool :=
  match t, i with
  | FTProp pid, ILine l => beq (upper (cl_name l)) (read_name pid)
  | FTSec sid, IComp b _ _ => beq (upper (cl_value b)) (comp_name sid)
  | FTAlarm, IAlarm _ _ _ => true
  | _, _ => false
  end.

(** What Decode demands of DURATION and REPEAT in these alarms: exactly one of the two. *)
Definition one_of_two (id : secid) (items : list item) : Prop :=
  match id with SAlarmEmail | SAlarmURI => gives "DURATION" items <-> ~ gives "REPEAT" items | _ => True end.

(** The value of each field: what the items for it mean, in order. *)
Inductive comp_means : secid -> list item -> sec -> Prop :=
| CompMeans id items fs :
    Forall (shape_ok id) items ->
    (forall n, In n (required id) -> length (own_lines n items) = 1) ->
    (forall n, In n (optional id) -> length (own_lines n items) <= 1) ->
    cross_ok id items -> one_of_two id items ->
    Forall2 (fun t vs => Forall2 (item_value t) (filter (for_field t) items) vs) (api_fields id) fs ->
    comp_means id items (Sec id fs)
with item_value : ftype -> item -> fval -> Prop :=
| IV_prop pid l p : line_means pid (cl_params l) (cl_value l) p -> item_value (FTProp pid) (ILine l) (FVProp pid p)
| IV_sec sid b body e x : comp_means sid body x -> cl_value e = comp_name sid -> item_value (FTSec sid) (IComp b body e) (FVSec x)
| IV_alarm b body e sid sub x : alarm_content body e sid sub ->
    (forall e' more, body ++ [e] = flat_map ilines sub ++ e' :: more -> cl_value e' = bs "VALARM") ->
    comp_means sid sub x -> item_value FTAlarm (IAlarm b body e) (FVAlarm (Some x)).

(** The calendars that a text can stand for. *)
Definition text_means (s : bytes) (cal : sec) : Prop := exists b items e tail,
  framed b items e /\ cl_value e = bs "VCALENDAR" /\ rest_ok tail /\ s = frame_text b items e ++ tail /\ comp_means SCalendar items cal.

(** ** Forms of RFC 5545 that matter for lists *)
(** A date, and a date with a time. *)
Definition rfc_date (s : bytes) : Prop := length s = 8 /\ forallb is_digit s = true.
Definition rfc_date_time (s : bytes) : Prop := exists d t z, s = d ++ bs "T" ++ t ++ z /\
  rfc_date d /\ length t = 6 /\ forallb is_digit t = true /\ (z = [] \/ z = bs "Z").
(** A period: two of these, or one and a duration, which has no comma. *)
Definition rfc_period (s : bytes) : Prop := exists a b, s = a ++ bs "/" ++ b /\ rfc_date_time a /\ (rfc_date_time b \/ exists b', b = bs "P" ++ b').
(** Two or more values, with commas between. *)
Definition rfc_list (form : bytes -> Prop) (s : bytes) : Prop := exists a b rest, s = a ++ bs "," ++ b ++ rest /\ form a /\ form b /\ (rest = [] \/ exists r, rest = bs "," ++ r).
Definition form_of (form : bytes -> Prop) : Prop := form = rfc_date \/ form = rfc_date_time \/ form = rfc_period.

(** ** What is not read *)
(** The parameters that are read. *)
Definition read_params (pid : propid) : list bytes := match api_struct pid with Some ps => map (fun q => fst (rfc_param q)) ps | None => [] end.
(** A line with a property that RFC 5545 allows there and that is not read; in an alarm, one that is
    not read with its action. *)
Definition lost_line (id : secid) (i : item) : Prop := exists l, i = ILine l /\ lost id (upper (cl_name l)).
Definition lost_alarm_line (ls : list cline) (l : cline) : Prop :=
  (forall w id, In w (values_named (bs "ACTION") ls) -> action_is w id -> lost id (upper (cl_name l))) /\ exists id, lost id (upper (cl_name l)).
End Comp.
