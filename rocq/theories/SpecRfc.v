(** The tables of RFC 5545 and RFC 9074, and of the draft of the alarm extensions that the code follows
    (ALARM-AGENT, LAST-TRIGGERED, GEO-LOCATION, DEFAULT-ALARM, ACTION:URI and ACTION:NONE), written out by
    hand from the documents and not from the code. *)
From Coq Require Import String Ascii ZArith Bool List.
From Verif Require Import Base Types ParamTable PropTable SecTable.
Import ListNotations.
Local Open Scope string_scope.
Local Open Scope list_scope.

(** ** Properties *)
Definition prop_name (p : propid) : bytes := bs
  match p with
  | PrCalendarScale => "CALSCALE" | PrMethod => "METHOD" | PrProductID => "PRODID" | PrVersion => "VERSION"
  | PrAttachment => "ATTACH" | PrCategories => "CATEGORIES" | PrClass => "CLASS" | PrComment => "COMMENT" | PrDescription => "DESCRIPTION"
  | PrGeo => "GEO" | PrLocation => "LOCATION" | PrPercentComplete => "PERCENT-COMPLETE" | PrPriority => "PRIORITY" | PrResources => "RESOURCES"
  | PrStatus | PrAlarmStatus => "STATUS" | PrSummary => "SUMMARY"
  | PrCompleted => "COMPLETED" | PrDateTimeEnd => "DTEND" | PrDue => "DUE" | PrDateTimeStart => "DTSTART" | PrDuration => "DURATION"
  | PrFreeBusy => "FREEBUSY" | PrTimeTransparency => "TRANSP"
  | PrTimezoneID => "TZID" | PrTimezoneName => "TZNAME" | PrTimezoneOffsetFrom => "TZOFFSETFROM" | PrTimezoneOffsetTo => "TZOFFSETTO" | PrTimezoneURL => "TZURL"
  | PrAttendee => "ATTENDEE" | PrContact => "CONTACT" | PrOrganizer => "ORGANIZER" | PrRecurrenceID => "RECURRENCE-ID" | PrRelatedTo => "RELATED-TO"
  | PrURL => "URL" | PrUID => "UID"
  | PrExceptionDateTime => "EXDATE" | PrRecurrenceDateTimes => "RDATE" | PrRecurrenceRule => "RRULE"
  | PrAction => "ACTION" | PrRepeat => "REPEAT" | PrTrigger => "TRIGGER"
  | PrCreated => "CREATED" | PrDateTimeStamp => "DTSTAMP" | PrLastModified => "LAST-MODIFIED" | PrSequence => "SEQUENCE"
  | PrRequestStatus => "REQUEST-STATUS"
  | PrURI => "URI" | PrAlarmAgent => "ALARM-AGENT" | PrLastTriggered => "LAST-TRIGGERED" | PrAcknowledged => "ACKNOWLEDGED"
  | PrProximity => "PROXIMITY" | PrGeoLocation => "GEO-LOCATION" | PrDefaultAlarm => "DEFAULT-ALARM"
  end.

(** The parameters of a property, apart from VALUE, and from TZID and ENCODING, which belong to its
    value. *)
Definition rfc_params (p : propid) : list bytes := map bs
  match p with
  | PrAttachment => ["FMTTYPE"]
  | PrCategories | PrTimezoneName | PrRequestStatus => ["LANGUAGE"]
  | PrComment | PrDescription | PrLocation | PrResources | PrSummary | PrContact => ["ALTREP"; "LANGUAGE"]
  | PrFreeBusy => ["FBTYPE"]
  | PrAttendee => ["CN"; "CUTYPE"; "DELEGATED-FROM"; "DELEGATED-TO"; "DIR"; "LANGUAGE"; "MEMBER"; "PARTSTAT"; "ROLE"; "RSVP"; "SENT-BY"]
  | PrOrganizer => ["CN"; "DIR"; "LANGUAGE"; "SENT-BY"]
  | PrRecurrenceID => ["RANGE"]
  | PrRelatedTo => ["RELTYPE"]
  | PrTrigger => ["RELATED"]
  | PrAlarmAgent => ["AGENT-ID"; "ID"; "URI"]
  | _ => []
  end.

(** The types of the value; the first is the default, the others have to be named. *)
Definition rfc_types (p : propid) : list (bytes * vkind) := map (fun x => (bs (fst x), snd x))
  match p with
  | PrAttachment => [("URI", KURI); ("BINARY", KBinary)]
  | PrCategories | PrResources => [("TEXT", KMText)]
  | PrGeo => [("FLOAT", KTFloat)]
  | PrPercentComplete | PrPriority | PrRepeat | PrSequence => [("INTEGER", KInteger)]
  | PrCompleted | PrCreated | PrDateTimeStamp | PrLastModified | PrLastTriggered | PrAcknowledged => [("DATE-TIME", KDateTime)]
  | PrDateTimeEnd | PrDue | PrDateTimeStart | PrRecurrenceID | PrExceptionDateTime => [("DATE-TIME", KDateTime); ("DATE", KDate)]
  | PrRecurrenceDateTimes => [("DATE-TIME", KDateTime); ("DATE", KDate); ("PERIOD", KPeriod)]
  | PrDuration => [("DURATION", KDuration)]
  | PrTrigger => [("DURATION", KDuration); ("DATE-TIME", KDateTime)]
  | PrFreeBusy => [("PERIOD", KPeriod)]
  | PrTimezoneOffsetFrom | PrTimezoneOffsetTo => [("UTC-OFFSET", KUTCOffset)]
  | PrTimezoneURL | PrURL | PrURI | PrGeoLocation => [("URI", KURI)]
  | PrAttendee | PrOrganizer => [("CAL-ADDRESS", KCalendarAddress)]
  | PrRecurrenceRule => [("RECUR", KRecur)]
  | PrDefaultAlarm => [("BOOLEAN", KBoolean)]
  | _ => [("TEXT", KText)]
  end.

(** The words of a property with a choice of words. *)
Definition rfc_words (p : propid) : list bytes := map bs
  match p with
  | PrCalendarScale => ["GREGORIAN"]
  | PrClass => ["PUBLIC"; "PRIVATE"; "CONFIDENTIAL"]
  | PrStatus => ["TENTATIVE"; "CONFIRMED"; "CANCELLED"; "NEEDS-ACTION"; "COMPLETED"; "IN-PROCESS"; "DRAFT"; "FINAL"]
  | PrTimeTransparency => ["OPAQUE"; "TRANSPARENT"]
  | PrAction => ["AUDIO"; "DISPLAY"; "EMAIL"]
  | PrAlarmStatus => ["ACTIVE"; "CANCELLED"; "COMPLETED"]
  | _ => []
  end.

(** ** Parameters *)
Inductive param_form :=
| OneAddress | ManyAddresses | ManyTexts | AnyText | QuotedText | Choice (open : bool) (ws : list string) | OnlyWord (w : string) | MediaType | TrueFalse.
Definition rfc_param (q : paramid) : bytes * param_form :=
  let '(n, f) :=
    match q with
    | PmAlternativeRepresentation => ("ALTREP", OneAddress) | PmCommonName => ("CN", AnyText)
    | PmCalendarUserType => ("CUTYPE", Choice true ["INDIVIDUAL"; "GROUP"; "RESOURCE"; "ROOM"])
    | PmDelegator => ("DELEGATED-FROM", ManyAddresses) | PmDelagatee => ("DELEGATED-TO", ManyAddresses)
    | PmDirectoryEntry => ("DIR", QuotedText) | PmEncoding => ("ENCODING", Choice false ["8BIT"; "BASE64"])
    | PmFormatType => ("FMTTYPE", MediaType)
    | PmFreeBusyType => ("FBTYPE", Choice true ["FREE"; "BUSY"; "BUSY-UNAVAILABLE"; "BUSY-TENTATIVE"])
    | PmLanguage => ("LANGUAGE", AnyText) | PmMember => ("MEMBER", ManyTexts)
    | PmParticipationStatus => ("PARTSTAT", Choice true ["NEEDS-ACTION"; "ACCEPTED"; "DECLINED"; "TENTATIVE"; "DELEGATED"; "COMPLETED"; "IN-PROCESS"])
    | PmRange => ("RANGE", OnlyWord "THISANDFUTURE") | PmRelated => ("RELATED", Choice false ["START"; "END"])
    | PmRelationshipType => ("RELTYPE", Choice true ["PARENT"; "CHILD"; "SIBLING"])
    | PmParticipationRole => ("ROLE", Choice true ["REQ-PARTICIPANT"; "CHAIR"; "OPT-PARTICIPANT"; "NON-PARTICIPANT"])
    | PmRSVP => ("RSVP", TrueFalse) | PmSentBy => ("SENT-BY", QuotedText) | PmTimezoneID => ("TZID", AnyText)
    | PmValue => ("VALUE", Choice true ["BINARY"; "BOOLEAN"; "CAL-ADDRESS"; "DATE"; "DATE-TIME"; "DURATION"; "FLOAT"; "INTEGER"; "PERIOD"; "RECUR"; "TEXT"; "TIME"; "URI"; "UTC-OFFSET"])
    | PmURI => ("URI", OneAddress) | PmID => ("ID", QuotedText) | PmAgentID => ("AGENT-ID", QuotedText)
    end in (bs n, f).

(** ** The Go types of the properties: a struct with these parameters, in this order, or no struct. *)
Definition api_struct (p : propid) : option (list paramid) :=
  match p with
  | PrAttachment => Some [PmFormatType]
  | PrAttendee => Some [PmCalendarUserType; PmMember; PmParticipationRole; PmParticipationStatus; PmRSVP; PmDelagatee; PmDelegator; PmSentBy; PmCommonName; PmDirectoryEntry; PmLanguage]
  | PrOrganizer => Some [PmCommonName; PmDirectoryEntry; PmSentBy; PmLanguage]
  | PrComment | PrContact | PrDescription | PrLocation | PrResources | PrSummary => Some [PmAlternativeRepresentation; PmLanguage]
  | PrCategories | PrTimezoneName => Some [PmLanguage]
  | PrFreeBusy => Some [PmFreeBusyType]
  | PrRecurrenceID => Some [PmRange]
  | PrRelatedTo => Some [PmRelationshipType]
  | PrAlarmAgent => Some [PmURI; PmID; PmAgentID]
  | PrDateTimeEnd | PrDateTimeStart | PrDue | PrExceptionDateTime | PrRecurrenceDateTimes | PrTrigger => Some []
  | _ => None
  end.
(** Parameters that RFC 5545 gives a property and that the code does not know there. *)
Definition unread_params : list (propid * bytes) := [(PrTrigger, bs "RELATED"); (PrRequestStatus, bs "LANGUAGE")].

(** ** Components *)
Definition comp_name (id : secid) : bytes := bs
  match id with
  | SCalendar => "VCALENDAR" | SEvent => "VEVENT" | STodo => "VTODO" | SJournal => "VJOURNAL" | SFreeBusy => "VFREEBUSY" | STimezone => "VTIMEZONE"
  | SStandard => "STANDARD" | SDaylight => "DAYLIGHT" | _ => "VALARM"
  end.

(** The properties that RFC 5545 allows in a component, once or more often. *)
Definition rfc_once (id : secid) : list bytes := map bs
  match id with
  | SCalendar => ["PRODID"; "VERSION"; "CALSCALE"; "METHOD"]
  | SEvent => ["DTSTAMP"; "UID"; "DTSTART"; "CLASS"; "CREATED"; "DESCRIPTION"; "GEO"; "LAST-MODIFIED"; "LOCATION"; "ORGANIZER"; "PRIORITY"; "SEQUENCE";
               "STATUS"; "SUMMARY"; "TRANSP"; "URL"; "RECURRENCE-ID"; "RRULE"; "DTEND"; "DURATION"]
  | STodo => ["DTSTAMP"; "UID"; "CLASS"; "COMPLETED"; "CREATED"; "DESCRIPTION"; "DTSTART"; "GEO"; "LAST-MODIFIED"; "LOCATION"; "ORGANIZER"; "PERCENT-COMPLETE";
              "PRIORITY"; "RECURRENCE-ID"; "SEQUENCE"; "STATUS"; "SUMMARY"; "URL"; "RRULE"; "DUE"; "DURATION"]
  | SJournal => ["DTSTAMP"; "UID"; "CLASS"; "CREATED"; "DTSTART"; "LAST-MODIFIED"; "ORGANIZER"; "RECURRENCE-ID"; "SEQUENCE"; "STATUS"; "SUMMARY"; "URL"; "RRULE"]
  | SFreeBusy => ["DTSTAMP"; "UID"; "CONTACT"; "DTSTART"; "DTEND"; "ORGANIZER"; "URL"]
  | STimezone => ["TZID"; "LAST-MODIFIED"; "TZURL"]
  | SStandard | SDaylight => ["DTSTART"; "TZOFFSETTO"; "TZOFFSETFROM"; "RRULE"]
  | SAlarmAudio => ["TRIGGER"; "DURATION"; "REPEAT"]
  | SAlarmDisplay => ["DESCRIPTION"; "TRIGGER"; "DURATION"; "REPEAT"]
  | SAlarmEmail => ["DESCRIPTION"; "TRIGGER"; "SUMMARY"; "DURATION"; "REPEAT"]
  | _ => []
  end.
Definition rfc_many (id : secid) : list bytes := map bs
  match id with
  | SEvent | STodo => ["ATTACH"; "ATTENDEE"; "CATEGORIES"; "COMMENT"; "CONTACT"; "EXDATE"; "REQUEST-STATUS"; "RELATED-TO"; "RESOURCES"; "RDATE"]
  | SJournal => ["ATTACH"; "ATTENDEE"; "CATEGORIES"; "COMMENT"; "CONTACT"; "DESCRIPTION"; "EXDATE"; "RELATED-TO"; "RDATE"; "REQUEST-STATUS"]
  | SFreeBusy => ["ATTENDEE"; "COMMENT"; "FREEBUSY"; "REQUEST-STATUS"]
  | SStandard | SDaylight => ["COMMENT"; "RDATE"; "TZNAME"]
  | SAlarmAudio => ["ATTACH"]     (* once, in fact *)
  | SAlarmEmail => ["ATTENDEE"; "ATTACH"]
  | _ => []
  end.
(** Properties that are allowed and that the code does not read. *)
Definition lost_props : list (secid * bytes) := map (fun x => (fst x, bs (snd x)))
  [(SCalendar, "CALSCALE"); (SCalendar, "METHOD"); (STodo, "RRULE"); (SAlarmEmail, "ATTACH");
   (SEvent, "LAST-MODIFIED"); (STodo, "LAST-MODIFIED"); (SJournal, "LAST-MODIFIED"); (STimezone, "LAST-MODIFIED")].
Definition lost (id : secid) (n : bytes) : Prop := In (id, n) lost_props.
