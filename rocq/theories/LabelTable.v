(** Table written by tools/check_tables.py: the names that stand in error messages, which are the
    constants of params.go:1248-1274, properties.go:4320-4375, sections.go:4207-4221 and types.go:1605-1614,
    and the texts of the errors. *)
From Coq Require Import String List.
From Verif Require Import Base Types ParamTable PropTable SecTable.
Import ListNotations.

Definition param_label (x : paramid) : bytes :=
  match x with
  | PmAlternativeRepresentation => bs "AlternativeRepresentation"
  | PmCommonName => bs "CommonName"
  | PmCalendarUserType => bs "CalendarUserType"
  | PmDelegator => bs "Delegator"
  | PmDelagatee => bs "Delagatee"
  | PmDirectoryEntry => bs "DirectoryEntry"
  | PmEncoding => bs "Encoding"
  | PmFormatType => bs "FormatType"
  | PmFreeBusyType => bs "FreeBusyType"
  | PmLanguage => bs "Language"
  | PmMember => bs "Member"
  | PmParticipationStatus => bs "ParticipationStatus"
  | PmRange => bs "Range"
  | PmRelated => bs "Related"
  | PmRelationshipType => bs "RelationshipType"
  | PmParticipationRole => bs "ParticipationRole"
  | PmRSVP => bs "RSVP"
  | PmSentBy => bs "SentBy"
  | PmTimezoneID => bs "TimezoneID"
  | PmValue => bs "Value"
  | PmURI => bs "URI"
  | PmID => bs "ID"
  | PmAgentID => bs "AgentID"
  end.

Definition prop_label (x : propid) : bytes :=
  match x with
  | PrAction => bs "Action"
  | PrAttachment => bs "Attachment"
  | PrAttendee => bs "Attendee"
  | PrCalendarScale => bs "CalendarScale"
  | PrCategories => bs "Categories"
  | PrClass => bs "Class"
  | PrComment => bs "Comment"
  | PrCompleted => bs "Completed"
  | PrContact => bs "Contact"
  | PrCreated => bs "Created"
  | PrDescription => bs "Description"
  | PrDateTimeEnd => bs "DateTimeEnd"
  | PrDateTimeStamp => bs "DateTimeStamp"
  | PrDateTimeStart => bs "DateTimeStart"
  | PrDue => bs "Due"
  | PrDuration => bs "Duration"
  | PrExceptionDateTime => bs "ExceptionDateTime"
  | PrFreeBusy => bs "FreeBusy"
  | PrGeo => bs "Geo"
  | PrLastModified => bs "LastModified"
  | PrLocation => bs "Location"
  | PrMethod => bs "Method"
  | PrOrganizer => bs "Organizer"
  | PrPercentComplete => bs "PercentComplete"
  | PrPriority => bs "Priority"
  | PrProductID => bs "ProductID"
  | PrRecurrenceDateTimes => bs "RecurrenceDateTimes"
  | PrRecurrenceID => bs "RecurrenceID"
  | PrRelatedTo => bs "RelatedTo"
  | PrRepeat => bs "Repeat"
  | PrRequestStatus => bs "RequestStatus"
  | PrResources => bs "Resources"
  | PrRecurrenceRule => bs "RecurrenceRule"
  | PrSequence => bs "Sequence"
  | PrStatus => bs "Status"
  | PrSummary => bs "Summary"
  | PrTimeTransparency => bs "TimeTransparency"
  | PrTrigger => bs "Trigger"
  | PrTimezoneID => bs "TimezoneID"
  | PrTimezoneName => bs "TimezoneName"
  | PrTimezoneOffsetFrom => bs "TimezoneOffsetFrom"
  | PrTimezoneOffsetTo => bs "TimezoneOffsetTo"
  | PrTimezoneURL => bs "TimezoneURL"
  | PrUID => bs "UID"
  | PrURL => bs "URL"
  | PrURI => bs "URI"
  | PrVersion => bs "Version"
  | PrAlarmAgent => bs "AlarmAgent"
  | PrAlarmStatus => bs "AlarmStatus"
  | PrLastTriggered => bs "LastTriggered"
  | PrAcknowledged => bs "Acknowledged"
  | PrProximity => bs "Proximity"
  | PrGeoLocation => bs "GeoLocation"
  | PrDefaultAlarm => bs "DefaultAlarm"
  end.

Definition sec_label (x : secid) : bytes :=
  match x with
  | SCalendar => bs "Calendar"
  | SEvent => bs "Event"
  | STodo => bs "Todo"
  | SJournal => bs "Journal"
  | SFreeBusy => bs "FreeBusy"
  | STimezone => bs "Timezone"
  | SStandard => bs "Standard"
  | SDaylight => bs "Daylight"
  | SAlarmAudio => bs "AlarmAudio"
  | SAlarmDisplay => bs "AlarmDisplay"
  | SAlarmEmail => bs "AlarmEmail"
  | SAlarmURI => bs "AlarmURI"
  | SAlarmNone => bs "AlarmNone"
  end.

(** Kinds of values that no property with parameters has stand in no message. *)
Definition kind_label (x : vkind) : bytes :=
  match x with
  | KBinary => bs "Binary"
  | KCalendarAddress => bs "CalendarAddress"
  | KDate => bs "Date"
  | KDateTime => bs "DateTime"
  | KDuration => bs "Duration"
  | KMText => bs "MText"
  | KPeriod => bs "Period"
  | KText => bs "Text"
  | KURI => bs "URI"
  | _ => []
  end.

Definition alarm_label : bytes := bs "Alarm".
Definition value_label : bytes := bs "Value".

(** The text of an error; of those of the standard library, only io.ErrUnexpectedEOF has one here. *)
Definition error_text (x : gerr) : bytes :=
  match x with
  | ErrDuplicateParam => bs "duplicate param"
  | ErrInvalidAlarm => bs "invalid alarm type"
  | ErrInvalidBoolean => bs "invalid Boolean"
  | ErrInvalidCalendar => bs "invalid calendar"
  | ErrInvalidContentLine => bs "invalid content line"
  | ErrInvalidContentLineName => bs "invalid content line name"
  | ErrInvalidContentLineParamName => bs "invalid content line param name"
  | ErrInvalidContentLineParamValue => bs "invalid content line param value"
  | ErrInvalidContentLineQuotedParamValue => bs "invalid content line quoted param value"
  | ErrInvalidContentLineValue => bs "invalid content line value"
  | ErrInvalidDuration => bs "invalid Duration"
  | ErrInvalidEncoding => bs "invalid Binary encoding"
  | ErrInvalidEnd => bs "invalid end of section"
  | ErrInvalidFloat => bs "invalid float"
  | ErrInvalidOffset => bs "invalid UTC Offset"
  | ErrInvalidParam => bs "invalid param value"
  | ErrInvalidPeriod => bs "invalid Period"
  | ErrInvalidPeriodDuration => bs "invalid Period duration"
  | ErrInvalidPeriodEnd => bs "invalid end of Period"
  | ErrInvalidPeriodStart => bs "invalid start of Period"
  | ErrInvalidRecur => bs "invalid Recur"
  | ErrInvalidRecurByDay => bs "invalid Recur ByDay"
  | ErrInvalidRecurByHour => bs "invalid Recur ByHour"
  | ErrInvalidRecurByMinute => bs "invalid Recur ByMinute"
  | ErrInvalidRecurByMonth => bs "invalid Recur ByMonth"
  | ErrInvalidRecurByMonthDay => bs "invalid Recur ByMonthDay"
  | ErrInvalidRecurBySecond => bs "invalid Recur BySecond"
  | ErrInvalidRecurBySetPos => bs "invalid Recur BySetPos"
  | ErrInvalidRecurByWeekNum => bs "invalid Recur ByWeekNum"
  | ErrInvalidRecurByYearDay => bs "invalid Recur ByYearDay"
  | ErrInvalidRecurFrequency => bs "invalid Recur frequency"
  | ErrInvalidRecurWeekStart => bs "invalid Recur WeekStart"
  | ErrInvalidStructure => bs "invalid structure"
  | ErrInvalidTFloat => bs "invalid number of floats"
  | ErrInvalidText => bs "invalid encoded text"
  | ErrInvalidTime => bs "invalid Time"
  | ErrInvalidValue => bs "invalid value"
  | ErrMissingAlarmAction => bs "missing alarm action"
  | ErrMissingRequired => bs "required property missing"
  | ErrRequirementNotMet => bs "requirement not met"
  | ErrUnexpectedEOF => bs "unexpected EOF"
  | _ => []
  end.

