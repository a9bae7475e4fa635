(** Table written by tools/check_tables.py, which first checks that every method of every type in
    /repo/properties.go is the instance of the template modelled in Props.v. *)
From Coq Require Import String List.
From Verif Require Import Base Types ParamTable.
Import ListNotations.

(** The three templates of genProperties.sh: a struct of parameters and one or several alternative
    values (with the VALUE word of each), an enumeration, or a renamed value type. *)
Inductive propkind :=
| MStruct (ps : list paramid) (vs : list (bytes * vkind))
| MEnum (ws : list bytes)
| MNew (k : vkind).

Inductive propid :=
| PrAction
| PrAttachment
| PrAttendee
| PrCalendarScale
| PrCategories
| PrClass
| PrComment
| PrCompleted
| PrContact
| PrCreated
| PrDescription
| PrDateTimeEnd
| PrDateTimeStamp
| PrDateTimeStart
| PrDue
| PrDuration
| PrExceptionDateTime
| PrFreeBusy
| PrGeo
| PrLastModified
| PrLocation
| PrMethod
| PrOrganizer
| PrPercentComplete
| PrPriority
| PrProductID
| PrRecurrenceDateTimes
| PrRecurrenceID
| PrRelatedTo
| PrRepeat
| PrRequestStatus
| PrResources
| PrRecurrenceRule
| PrSequence
| PrStatus
| PrSummary
| PrTimeTransparency
| PrTrigger
| PrTimezoneID
| PrTimezoneName
| PrTimezoneOffsetFrom
| PrTimezoneOffsetTo
| PrTimezoneURL
| PrUID
| PrURL
| PrURI
| PrVersion
| PrAlarmAgent
| PrAlarmStatus
| PrLastTriggered
| PrAcknowledged
| PrProximity
| PrGeoLocation
| PrDefaultAlarm.

Definition all_props : list propid :=
  [PrAction; PrAttachment; PrAttendee; PrCalendarScale; PrCategories; PrClass; PrComment; PrCompleted; PrContact; PrCreated; PrDescription; PrDateTimeEnd; PrDateTimeStamp; PrDateTimeStart; PrDue; PrDuration; PrExceptionDateTime; PrFreeBusy; PrGeo; PrLastModified; PrLocation; PrMethod; PrOrganizer; PrPercentComplete; PrPriority; PrProductID; PrRecurrenceDateTimes; PrRecurrenceID; PrRelatedTo; PrRepeat; PrRequestStatus; PrResources; PrRecurrenceRule; PrSequence; PrStatus; PrSummary; PrTimeTransparency; PrTrigger; PrTimezoneID; PrTimezoneName; PrTimezoneOffsetFrom; PrTimezoneOffsetTo; PrTimezoneURL; PrUID; PrURL; PrURI; PrVersion; PrAlarmAgent; PrAlarmStatus; PrLastTriggered; PrAcknowledged; PrProximity; PrGeoLocation; PrDefaultAlarm].

Definition prop_spec (p : propid) : bytes * propkind :=
  match p with
  (* properties.go:13-67 *)
  | PrAction => (bs "ACTION", MEnum [bs "AUDIO"; bs "DISPLAY"; bs "EMAIL"])
  (* properties.go:69-203 *)
  | PrAttachment => (bs "ATTACH", MStruct [PmFormatType] [(bs "URI", KURI); (bs "BINARY", KBinary)])
  (* properties.go:205-482 *)
  | PrAttendee => (bs "ATTENDEE", MStruct [PmCalendarUserType; PmMember; PmParticipationRole; PmParticipationStatus; PmRSVP; PmDelagatee; PmDelegator; PmSentBy; PmCommonName; PmDirectoryEntry; PmLanguage] [(bs "CalendarAddress", KCalendarAddress)])
  (* properties.go:484-528 *)
  | PrCalendarScale => (bs "CALSCALE", MEnum [bs "GREGORIAN"])
  (* properties.go:530-603 *)
  | PrCategories => (bs "CATEGORIES", MStruct [PmLanguage] [(bs "MText", KMText)])
  (* properties.go:605-659 *)
  | PrClass => (bs "CLASS", MEnum [bs "PUBLIC"; bs "PRIVATE"; bs "CONFIDENTIAL"])
  (* properties.go:661-756 *)
  | PrComment => (bs "COMMENT", MStruct [PmAlternativeRepresentation; PmLanguage] [(bs "Text", KText)])
  (* properties.go:758-812 *)
  | PrCompleted => (bs "COMPLETED", MNew KDateTime)
  (* properties.go:814-909 *)
  | PrContact => (bs "CONTACT", MStruct [PmAlternativeRepresentation; PmLanguage] [(bs "Text", KText)])
  (* properties.go:911-966 *)
  | PrCreated => (bs "CREATED", MNew KDateTime)
  (* properties.go:968-1063 *)
  | PrDescription => (bs "DESCRIPTION", MStruct [PmAlternativeRepresentation; PmLanguage] [(bs "Text", KText)])
  (* properties.go:1065-1177 *)
  | PrDateTimeEnd => (bs "DTEND", MStruct [] [(bs "DATE-TIME", KDateTime); (bs "DATE", KDate)])
  (* properties.go:1179-1236 *)
  | PrDateTimeStamp => (bs "DTSTAMP", MNew KDateTime)
  (* properties.go:1238-1350 *)
  | PrDateTimeStart => (bs "DTSTART", MStruct [] [(bs "DATE-TIME", KDateTime); (bs "DATE", KDate)])
  (* properties.go:1352-1464 *)
  | PrDue => (bs "DUE", MStruct [] [(bs "DATE-TIME", KDateTime); (bs "DATE", KDate)])
  (* properties.go:1466-1520 *)
  | PrDuration => (bs "DURATION", MNew KDuration)
  (* properties.go:1522-1635 *)
  | PrExceptionDateTime => (bs "EXDATE", MStruct [] [(bs "DATE-TIME", KDateTime); (bs "DATE", KDate)])
  (* properties.go:1637-1710 *)
  | PrFreeBusy => (bs "FREEBUSY", MStruct [PmFreeBusyType] [(bs "Period", KPeriod)])
  (* properties.go:1712-1767 *)
  | PrGeo => (bs "GEO", MNew KTFloat)
  (* properties.go:1769-1824 *)
  | PrLastModified => (bs "LAST-MODIFIED", MNew KDateTime)
  (* properties.go:1826-1921 *)
  | PrLocation => (bs "LOCATION", MStruct [PmAlternativeRepresentation; PmLanguage] [(bs "Text", KText)])
  (* properties.go:1923-1978 *)
  | PrMethod => (bs "METHOD", MNew KText)
  (* properties.go:1980-2116 *)
  | PrOrganizer => (bs "ORGANIZER", MStruct [PmCommonName; PmDirectoryEntry; PmSentBy; PmLanguage] [(bs "CalendarAddress", KCalendarAddress)])
  (* properties.go:2118-2179 *)
  | PrPercentComplete => (bs "PERCENT-COMPLETE", MNew KInteger)
  (* properties.go:2181-2241 *)
  | PrPriority => (bs "PRIORITY", MNew KInteger)
  (* properties.go:2243-2298 *)
  | PrProductID => (bs "PRODID", MNew KText)
  (* properties.go:2300-2435 *)
  | PrRecurrenceDateTimes => (bs "RDATE", MStruct [] [(bs "DATE-TIME", KDateTime); (bs "DATE", KDate); (bs "PERIOD", KPeriod)])
  (* properties.go:2437-2571 *)
  | PrRecurrenceID => (bs "RECURRENCE-ID", MStruct [PmRange] [(bs "DATE-TIME", KDateTime); (bs "DATE", KDate)])
  (* properties.go:2573-2647 *)
  | PrRelatedTo => (bs "RELATED-TO", MStruct [PmRelationshipType] [(bs "Text", KText)])
  (* properties.go:2649-2710 *)
  | PrRepeat => (bs "REPEAT", MNew KInteger)
  (* properties.go:2712-2766 *)
  | PrRequestStatus => (bs "REQUEST-STATUS", MNew KText)
  (* properties.go:2768-2863 *)
  | PrResources => (bs "RESOURCES", MStruct [PmAlternativeRepresentation; PmLanguage] [(bs "MText", KMText)])
  (* properties.go:2865-2920 *)
  | PrRecurrenceRule => (bs "RRULE", MNew KRecur)
  (* properties.go:2922-2983 *)
  | PrSequence => (bs "SEQUENCE", MNew KInteger)
  (* properties.go:2985-3065 *)
  | PrStatus => (bs "STATUS", MEnum [bs "TENTATIVE"; bs "CONFIRMED"; bs "CANCELLED"; bs "NEEDS-ACTION"; bs "COMPLETED"; bs "IN-PROCESS"; bs "DRAFT"; bs "FINAL"])
  (* properties.go:3067-3161 *)
  | PrSummary => (bs "SUMMARY", MStruct [PmAlternativeRepresentation; PmLanguage] [(bs "Text", KText)])
  (* properties.go:3163-3213 *)
  | PrTimeTransparency => (bs "TRANSP", MEnum [bs "OPAQUE"; bs "TRANSPARENT"])
  (* properties.go:3215-3327 *)
  | PrTrigger => (bs "TRIGGER", MStruct [] [(bs "DURATION", KDuration); (bs "DATE-TIME", KDateTime)])
  (* properties.go:3329-3384 *)
  | PrTimezoneID => (bs "TZID", MNew KText)
  (* properties.go:3386-3460 *)
  | PrTimezoneName => (bs "TZNAME", MStruct [PmLanguage] [(bs "Text", KText)])
  (* properties.go:3462-3517 *)
  | PrTimezoneOffsetFrom => (bs "TZOFFSETFROM", MNew KUTCOffset)
  (* properties.go:3519-3574 *)
  | PrTimezoneOffsetTo => (bs "TZOFFSETTO", MNew KUTCOffset)
  (* properties.go:3576-3632 *)
  | PrTimezoneURL => (bs "TZURL", MNew KURI)
  (* properties.go:3634-3689 *)
  | PrUID => (bs "UID", MNew KText)
  (* properties.go:3691-3746 *)
  | PrURL => (bs "URL", MNew KURI)
  (* properties.go:3748-3802 *)
  | PrURI => (bs "URI", MNew KURI)
  (* properties.go:3804-3860 *)
  | PrVersion => (bs "VERSION", MNew KText)
  (* properties.go:3862-3977 *)
  | PrAlarmAgent => (bs "ALARM-AGENT", MStruct [PmURI; PmID; PmAgentID] [(bs "Text", KText)])
  (* properties.go:3979-4033 *)
  | PrAlarmStatus => (bs "STATUS", MEnum [bs "ACTIVE"; bs "CANCELLED"; bs "COMPLETED"])
  (* properties.go:4035-4089 *)
  | PrLastTriggered => (bs "LAST-TRIGGERED", MNew KDateTime)
  (* properties.go:4091-4145 *)
  | PrAcknowledged => (bs "ACKNOWLEDGED", MNew KDateTime)
  (* properties.go:4147-4201 *)
  | PrProximity => (bs "PROXIMITY", MNew KText)
  (* properties.go:4203-4257 *)
  | PrGeoLocation => (bs "GEO-LOCATION", MNew KURI)
  (* properties.go:4259-4313 *)
  | PrDefaultAlarm => (bs "DEFAULT-ALARM", MNew KBoolean)
  end.
