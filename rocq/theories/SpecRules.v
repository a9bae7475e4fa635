(** The rules about components, written out by hand, and texts with the shape of a calendar. *)
From Coq Require Import String Ascii ZArith Bool List.
From Verif Require Import Base Tokeniser SpecContent GoTime Types Params ParamTable PropTable Props SecTable Sections SpecTree.
Import ListNotations.
Local Open Scope string_scope.
Local Open Scope list_scope.

Section Rules.
Context {env : Env}.

(** Components that are read inside a component. *)
Definition children (id : secid) : list (bytes * secid) :=
  match id with
  | SCalendar => [(bs "VEVENT", SEvent); (bs "VTODO", STodo); (bs "VJOURNAL", SJournal); (bs "VFREEBUSY", SFreeBusy); (bs "VTIMEZONE", STimezone)]
  | STimezone => [(bs "STANDARD", SStandard); (bs "DAYLIGHT", SDaylight)]
  | _ => []
  end.
Definition has_alarms (id : secid) : bool := match id with SEvent | STodo => true | _ => false end.

(** Properties that must be given. *)
Definition required (id : secid) : list bytes :=
  map bs match id with
  | SCalendar => ["VERSION"; "PRODID"]
  | SEvent | STodo | SJournal | SFreeBusy => ["DTSTAMP"; "UID"]
  | STimezone => ["TZID"]
  | SStandard | SDaylight => ["DTSTART"; "TZOFFSETTO"; "TZOFFSETFROM"]
  | SAlarmAudio => ["TRIGGER"]
  | SAlarmDisplay => ["DESCRIPTION"; "TRIGGER"]
  | SAlarmEmail => ["DESCRIPTION"; "TRIGGER"; "SUMMARY"]
  | SAlarmURI => ["URI"]
  | SAlarmNone => []
  end.
(** Other properties that may be given once. *)
Definition optional (id : secid) : list bytes :=
  let alarm := ["DURATION"; "REPEAT"; "UID"; "STATUS"; "ACKNOWLEDGED"; "PROXIMITY"; "RELATED-TO"; "DEFAULT-ALARM"] in
  map bs match id with
  | SEvent => ["DTSTART"; "CLASS"; "CREATED"; "DESCRIPTION"; "GEO"; "LAST-MOD"; "LOCATION"; "ORGANIZER"; "PRIORITY"; "SEQUENCE";
               "STATUS"; "SUMMARY"; "TRANSP"; "URL"; "RECURRENCE-ID"; "RRULE"; "DTEND"; "DURATION"]
  | STodo => ["CLASS"; "COMPLETED"; "CREATED"; "DESCRIPTION"; "DTSTART"; "GEO"; "LAST-MOD"; "LOCATION"; "ORGANIZER"; "PERCENT-COMPLETE";
              "PRIORITY"; "RECURRENCE-ID"; "SEQUENCE"; "STATUS"; "SUMMARY"; "URL"; "DUE"; "DURATION"]
  | SJournal => ["CLASS"; "CREATED"; "DTSTART"; "LAST-MOD"; "ORGANIZER"; "RECURRENCE-ID"; "SEQUENCE"; "STATUS"; "SUMMARY"; "URL"; "RRULE"]
  | SFreeBusy => ["CONTACT"; "DTSTART"; "DTEND"; "ORGANIZER"; "URL"]
  | STimezone => ["LAST-MOD"; "TZURL"]
  | SStandard | SDaylight => ["RRULE"]
  | SAlarmAudio | SAlarmDisplay | SAlarmURI => alarm
  | SAlarmEmail => "ATTENDEE" :: alarm
  | _ => []
  end.
(** Properties that may be repeated. *)
Definition repeated (id : secid) : list bytes :=
  let alarm := ["ALARM-AGENT"; "LAST-TRIGGERED"; "GEO-LOCATION"] in
  map bs match id with
  | SEvent | STodo => ["ATTACH"; "ATTENDEE"; "CATEGORIES"; "COMMENT"; "CONTACT"; "EXDATE"; "REQUEST-STATUS"; "RELATED-TO"; "RESOURCES"; "RDATE"]
  | SJournal => ["ATTACH"; "ATTENDEE"; "CATEGORIES"; "COMMENT"; "CONTACT"; "DESCRIPTION"; "EXDATE"; "REQUEST-STATUS"; "RELATED-TO"; "RESOURCES"; "RDATE"]
  | SFreeBusy => ["ATTENDEE"; "COMMENT"; "FREEBUSY"; "REQUEST-STATUS"]
  | SStandard | SDaylight => ["COMMENT"; "RDATE"; "TZNAME"]
  | SAlarmAudio => "ATTACH" :: alarm
  | SAlarmDisplay | SAlarmEmail | SAlarmURI => alarm
  | _ => []
  end.
Definition known (id : secid) : list bytes := required id ++ optional id ++ repeated id.

(** ** Shape *)
Inductive shape_ok : secid -> item -> Prop :=
| So_line id l : is_plain l -> shape_ok id (ILine l)
| So_comp id b body e sid : is_begin b -> In (upper (cl_value b), sid) (children id) -> Forall (shape_ok sid) body -> is_end e ->
    shape_ok id (IComp b body e)
| So_alarm id b body e : is_begin b -> has_alarms id = true -> upper (cl_value b) = bs "VALARM" ->
    Forall (fun l => cl_name l <> bs "BEGIN" /\ cl_name l <> bs "END") body -> cl_name e = bs "END" ->
    shape_ok id (IAlarm b body e)
| So_other id b body e : is_begin b -> is_end e -> upper (cl_value e) = upper (cl_value b) -> Forall skippable body ->
    ~ In (upper (cl_value b)) (map fst (children id)) -> ~ (has_alarms id = true /\ upper (cl_value b) = bs "VALARM") ->
    shape_ok id (IOther b body e).

(** A text with the shape of a calendar, up to the last line and without its line end. *)
Definition framed (b : cline) (items : list item) (e : cline) : Prop :=
  is_begin b /\ upper (cl_value b) = bs "VCALENDAR" /\ Forall (shape_ok SCalendar) items /\ is_end e /\
  Forall (fun l => cline_wf l = true) (b :: flat_map ilines items ++ [e]).
Definition frame_text (b : cline) (items : list item) (e : cline) : bytes := lines_text (b :: flat_map ilines items) ++ cline_render e.
(** What may follow. *)
Definition rest_ok (tail : bytes) : Prop := tail = [] \/ exists r, tail = CRLF ++ r.

(** The lines of an alarm as its content: up to the first END in any case. *)
Definition alarm_content (body : list cline) (e : cline) (sid : secid) (sub : list item) : Prop :=
  (exists us w, values_named (bs "ACTION") body = us ++ [w] /\ Forall (fun u => forall id, ~ action_is u id) us /\ action_is w sid) /\
  Forall (shape_ok sid) sub /\ exists e' more, body ++ [e] = flat_map ilines sub ++ e' :: more /\ is_end e'.

(** The components in a text: [inside id items sid sub] says that [sub] is the content of a component
    of type [sid], at any depth. *)
Inductive inside : secid -> list item -> secid -> list item -> Prop :=
| In_here id items : inside id items id items
| In_comp id items b body e sid id' sub : In (IComp b body e) items -> In (upper (cl_value b), sid) (children id) ->
    inside sid body id' sub -> inside id items id' sub
| In_alarm id items b body e sid sub : In (IAlarm b body e) items -> alarm_content body e sid sub -> inside id items sid sub.

(** The lines of a component with this name. *)
Definition own_lines (n : bytes) (items : list item) : list cline :=
  flat_map (fun i => match i with ILine l => if beq (upper (cl_name l)) n then [l] else [] | _ => [] end) items.
(** The components of a component that are called so. *)
Definition own_comps (n : bytes) (items : list item) : list item :=
  filter (fun i => match i with IComp b _ _ => beq (upper (cl_value b)) n | _ => false end) items.
Definition gives (n : string) (items : list item) : Prop := own_lines (bs n) items <> [].

(** The rules between properties. *)
Definition cross_ok (id : secid) (items : list item) : Prop :=
  match id with
  | SEvent => ~ (gives "DTEND" items /\ gives "DURATION" items)
  | STodo => ~ (gives "DUE" items /\ gives "DURATION" items) /\ (gives "DURATION" items -> gives "DTSTART" items)
  | STimezone => own_comps (bs "STANDARD") items <> [] \/ own_comps (bs "DAYLIGHT") items <> []
  | SAlarmAudio | SAlarmDisplay | SAlarmEmail | SAlarmURI => gives "GEO-LOCATION" items -> gives "PROXIMITY" items
  | _ => True
  end.

(** ** The same of a calendar *)
(** [part_of y x]: [y] is [x] or a component in it, at any depth. *)
Inductive part_of : sec -> sec -> Prop :=
| Part_self x : part_of x x
| Part_sec y x id fs vs : In vs fs -> In (FVSec x) vs -> part_of y x -> part_of y (Sec id fs)
| Part_alarm y x id fs vs : In vs fs -> In (FVAlarm (Some x)) vs -> part_of y x -> part_of y (Sec id fs).
(** The values of the field with this name. *)
Definition held (n : bytes) (x : sec) : list fval :=
  flat_map (fun p => if beq (fd_key (fst p)) n then snd p else []) (combine (fields_of (sec_id x)) (sec_fields x)).
Definition has_field (n : string) (x : sec) : Prop := held (bs n) x <> [].
Definition lawful (x : sec) : Prop :=
  (forall n, In n (required (sec_id x)) -> length (held n x) = 1) /\
  (forall n, In n (optional (sec_id x)) -> length (held n x) <= 1) /\
  match sec_id x with
  | SEvent => ~ (has_field "DTEND" x /\ has_field "DURATION" x)
  | STodo => ~ (has_field "DUE" x /\ has_field "DURATION" x) /\ (has_field "DURATION" x -> has_field "DTSTART" x)
  | STimezone => has_field "STANDARD" x \/ has_field "DAYLIGHT" x
  | SAlarmAudio | SAlarmDisplay | SAlarmEmail | SAlarmURI => has_field "GEO-LOCATION" x -> has_field "PROXIMITY" x
  | _ => True
  end.
End Rules.
