(** Table written by tools/check_tables.py, which first checks that every method of every type in
    /repo/sections.go is the instance of the template modelled in Sections.v. *)
From Coq Require Import String List.
From Verif Require Import Base Types PropTable.
Import ListNotations.

Inductive secid :=
| SCalendar
| SEvent
| STodo
| SJournal
| SFreeBusy
| STimezone
| SStandard
| SDaylight
| SAlarmAudio
| SAlarmDisplay
| SAlarmEmail
| SAlarmURI
| SAlarmNone.

Definition all_secs : list secid :=
  [SCalendar; SEvent; STodo; SJournal; SFreeBusy; STimezone; SStandard; SDaylight; SAlarmAudio; SAlarmDisplay; SAlarmEmail; SAlarmURI; SAlarmNone].

(** A field of a section: required, optional or repeated; a property, a section or an alarm. *)
Inductive fmode := FReq | FOpt | FMany.
Inductive ftype := FTProp (p : propid) | FTSec (s : secid) | FTAlarm.
Record field := Field { fd_key : bytes; fd_mode : fmode; fd_type : ftype }.

(** The extra conditions checked at the end of a section (genSections.sh), on field numbers. *)
Inductive req := RAnd (a b : nat) | ROr (a b : nat) | ROne (a b : nat) | RErgo (a b : nat).

(** [sp_name] is the word after BEGIN: and END:; [sp_own] says that the section writes these two
    lines itself (the alarm types leave them to Alarm.encode). *)
Record secspec := SecSpec { sp_name : bytes; sp_own : bool; sp_fields : list field; sp_reqs : list req }.

Definition sec_spec (s : secid) : secspec :=
  match s with
  (* sections.go:14-192 *)
  | SCalendar => SecSpec (bs "VCALENDAR") true [
      Field (bs "VERSION") FReq (FTProp PrVersion);
      Field (bs "PRODID") FReq (FTProp PrProductID);
      Field (bs "VEVENT") FMany (FTSec SEvent);
      Field (bs "VTODO") FMany (FTSec STodo);
      Field (bs "VJOURNAL") FMany (FTSec SJournal);
      Field (bs "VFREEBUSY") FMany (FTSec SFreeBusy);
      Field (bs "VTIMEZONE") FMany (FTSec STimezone)]
      []
  (* sections.go:194-868 *)
  | SEvent => SecSpec (bs "VEVENT") true [
      Field (bs "DTSTAMP") FReq (FTProp PrDateTimeStamp);
      Field (bs "UID") FReq (FTProp PrUID);
      Field (bs "DTSTART") FOpt (FTProp PrDateTimeStart);
      Field (bs "CLASS") FOpt (FTProp PrClass);
      Field (bs "CREATED") FOpt (FTProp PrCreated);
      Field (bs "DESCRIPTION") FOpt (FTProp PrDescription);
      Field (bs "GEO") FOpt (FTProp PrGeo);
      Field (bs "LAST-MOD") FOpt (FTProp PrLastModified);
      Field (bs "LOCATION") FOpt (FTProp PrLocation);
      Field (bs "ORGANIZER") FOpt (FTProp PrOrganizer);
      Field (bs "PRIORITY") FOpt (FTProp PrPriority);
      Field (bs "SEQUENCE") FOpt (FTProp PrSequence);
      Field (bs "STATUS") FOpt (FTProp PrStatus);
      Field (bs "SUMMARY") FOpt (FTProp PrSummary);
      Field (bs "TRANSP") FOpt (FTProp PrTimeTransparency);
      Field (bs "URL") FOpt (FTProp PrURL);
      Field (bs "RECURRENCE-ID") FOpt (FTProp PrRecurrenceID);
      Field (bs "RRULE") FOpt (FTProp PrRecurrenceRule);
      Field (bs "DTEND") FOpt (FTProp PrDateTimeEnd);
      Field (bs "DURATION") FOpt (FTProp PrDuration);
      Field (bs "ATTACH") FMany (FTProp PrAttachment);
      Field (bs "ATTENDEE") FMany (FTProp PrAttendee);
      Field (bs "CATEGORIES") FMany (FTProp PrCategories);
      Field (bs "COMMENT") FMany (FTProp PrComment);
      Field (bs "CONTACT") FMany (FTProp PrContact);
      Field (bs "EXDATE") FMany (FTProp PrExceptionDateTime);
      Field (bs "REQUEST-STATUS") FMany (FTProp PrRequestStatus);
      Field (bs "RELATED-TO") FMany (FTProp PrRelatedTo);
      Field (bs "RESOURCES") FMany (FTProp PrResources);
      Field (bs "RDATE") FMany (FTProp PrRecurrenceDateTimes);
      Field (bs "VALARM") FMany FTAlarm]
      [ROne 18 19]
  (* sections.go:870-1548 *)
  | STodo => SecSpec (bs "VTODO") true [
      Field (bs "DTSTAMP") FReq (FTProp PrDateTimeStamp);
      Field (bs "UID") FReq (FTProp PrUID);
      Field (bs "CLASS") FOpt (FTProp PrClass);
      Field (bs "COMPLETED") FOpt (FTProp PrCompleted);
      Field (bs "CREATED") FOpt (FTProp PrCreated);
      Field (bs "DESCRIPTION") FOpt (FTProp PrDescription);
      Field (bs "DTSTART") FOpt (FTProp PrDateTimeStart);
      Field (bs "GEO") FOpt (FTProp PrGeo);
      Field (bs "LAST-MOD") FOpt (FTProp PrLastModified);
      Field (bs "LOCATION") FOpt (FTProp PrLocation);
      Field (bs "ORGANIZER") FOpt (FTProp PrOrganizer);
      Field (bs "PERCENT-COMPLETE") FOpt (FTProp PrPercentComplete);
      Field (bs "PRIORITY") FOpt (FTProp PrPriority);
      Field (bs "RECURRENCE-ID") FOpt (FTProp PrRecurrenceID);
      Field (bs "SEQUENCE") FOpt (FTProp PrSequence);
      Field (bs "STATUS") FOpt (FTProp PrStatus);
      Field (bs "SUMMARY") FOpt (FTProp PrSummary);
      Field (bs "URL") FOpt (FTProp PrURL);
      Field (bs "DUE") FOpt (FTProp PrDue);
      Field (bs "DURATION") FOpt (FTProp PrDuration);
      Field (bs "ATTACH") FMany (FTProp PrAttachment);
      Field (bs "ATTENDEE") FMany (FTProp PrAttendee);
      Field (bs "CATEGORIES") FMany (FTProp PrCategories);
      Field (bs "COMMENT") FMany (FTProp PrComment);
      Field (bs "CONTACT") FMany (FTProp PrContact);
      Field (bs "EXDATE") FMany (FTProp PrExceptionDateTime);
      Field (bs "REQUEST-STATUS") FMany (FTProp PrRequestStatus);
      Field (bs "RELATED-TO") FMany (FTProp PrRelatedTo);
      Field (bs "RESOURCES") FMany (FTProp PrResources);
      Field (bs "RDATE") FMany (FTProp PrRecurrenceDateTimes);
      Field (bs "VALARM") FMany FTAlarm]
      [RErgo 19 6; ROne 18 19]
  (* sections.go:1550-2073 *)
  | SJournal => SecSpec (bs "VJOURNAL") true [
      Field (bs "DTSTAMP") FReq (FTProp PrDateTimeStamp);
      Field (bs "UID") FReq (FTProp PrUID);
      Field (bs "CLASS") FOpt (FTProp PrClass);
      Field (bs "CREATED") FOpt (FTProp PrCreated);
      Field (bs "DTSTART") FOpt (FTProp PrDateTimeStart);
      Field (bs "LAST-MOD") FOpt (FTProp PrLastModified);
      Field (bs "ORGANIZER") FOpt (FTProp PrOrganizer);
      Field (bs "RECURRENCE-ID") FOpt (FTProp PrRecurrenceID);
      Field (bs "SEQUENCE") FOpt (FTProp PrSequence);
      Field (bs "STATUS") FOpt (FTProp PrStatus);
      Field (bs "SUMMARY") FOpt (FTProp PrSummary);
      Field (bs "URL") FOpt (FTProp PrURL);
      Field (bs "RRULE") FOpt (FTProp PrRecurrenceRule);
      Field (bs "ATTACH") FMany (FTProp PrAttachment);
      Field (bs "ATTENDEE") FMany (FTProp PrAttendee);
      Field (bs "CATEGORIES") FMany (FTProp PrCategories);
      Field (bs "COMMENT") FMany (FTProp PrComment);
      Field (bs "CONTACT") FMany (FTProp PrContact);
      Field (bs "DESCRIPTION") FMany (FTProp PrDescription);
      Field (bs "EXDATE") FMany (FTProp PrExceptionDateTime);
      Field (bs "REQUEST-STATUS") FMany (FTProp PrRequestStatus);
      Field (bs "RELATED-TO") FMany (FTProp PrRelatedTo);
      Field (bs "RESOURCES") FMany (FTProp PrResources);
      Field (bs "RDATE") FMany (FTProp PrRecurrenceDateTimes)]
      []
  (* sections.go:2075-2341 *)
  | SFreeBusy => SecSpec (bs "VFREEBUSY") true [
      Field (bs "DTSTAMP") FReq (FTProp PrDateTimeStamp);
      Field (bs "UID") FReq (FTProp PrUID);
      Field (bs "CONTACT") FOpt (FTProp PrContact);
      Field (bs "DTSTART") FOpt (FTProp PrDateTimeStart);
      Field (bs "DTEND") FOpt (FTProp PrDateTimeEnd);
      Field (bs "ORGANIZER") FOpt (FTProp PrOrganizer);
      Field (bs "URL") FOpt (FTProp PrURL);
      Field (bs "ATTENDEE") FMany (FTProp PrAttendee);
      Field (bs "COMMENT") FMany (FTProp PrComment);
      Field (bs "FREEBUSY") FMany (FTProp PrFreeBusy);
      Field (bs "REQUEST-STATUS") FMany (FTProp PrRequestStatus)]
      []
  (* sections.go:2343-2494 *)
  | STimezone => SecSpec (bs "VTIMEZONE") true [
      Field (bs "TZID") FReq (FTProp PrTimezoneID);
      Field (bs "LAST-MOD") FOpt (FTProp PrLastModified);
      Field (bs "TZURL") FOpt (FTProp PrTimezoneURL);
      Field (bs "STANDARD") FMany (FTSec SStandard);
      Field (bs "DAYLIGHT") FMany (FTSec SDaylight)]
      [ROr 3 4]
  (* sections.go:2496-2673 *)
  | SStandard => SecSpec (bs "STANDARD") true [
      Field (bs "DTSTART") FReq (FTProp PrDateTimeStart);
      Field (bs "TZOFFSETTO") FReq (FTProp PrTimezoneOffsetTo);
      Field (bs "TZOFFSETFROM") FReq (FTProp PrTimezoneOffsetFrom);
      Field (bs "RRULE") FOpt (FTProp PrRecurrenceRule);
      Field (bs "COMMENT") FMany (FTProp PrComment);
      Field (bs "RDATE") FMany (FTProp PrRecurrenceDateTimes);
      Field (bs "TZNAME") FMany (FTProp PrTimezoneName)]
      []
  (* sections.go:2675-2852 *)
  | SDaylight => SecSpec (bs "DAYLIGHT") true [
      Field (bs "DTSTART") FReq (FTProp PrDateTimeStart);
      Field (bs "TZOFFSETTO") FReq (FTProp PrTimezoneOffsetTo);
      Field (bs "TZOFFSETFROM") FReq (FTProp PrTimezoneOffsetFrom);
      Field (bs "RRULE") FOpt (FTProp PrRecurrenceRule);
      Field (bs "COMMENT") FMany (FTProp PrComment);
      Field (bs "RDATE") FMany (FTProp PrRecurrenceDateTimes);
      Field (bs "TZNAME") FMany (FTProp PrTimezoneName)]
      []
  (* sections.go:2854-3167 *)
  | SAlarmAudio => SecSpec (bs "VALARM") false [
      Field (bs "TRIGGER") FReq (FTProp PrTrigger);
      Field (bs "DURATION") FOpt (FTProp PrDuration);
      Field (bs "REPEAT") FOpt (FTProp PrRepeat);
      Field (bs "ATTACH") FMany (FTProp PrAttachment);
      Field (bs "UID") FOpt (FTProp PrUID);
      Field (bs "ALARM-AGENT") FMany (FTProp PrAlarmAgent);
      Field (bs "STATUS") FOpt (FTProp PrAlarmStatus);
      Field (bs "LAST-TRIGGERED") FMany (FTProp PrLastTriggered);
      Field (bs "ACKNOWLEDGED") FOpt (FTProp PrAcknowledged);
      Field (bs "PROXIMITY") FOpt (FTProp PrProximity);
      Field (bs "GEO-LOCATION") FMany (FTProp PrGeoLocation);
      Field (bs "RELATED-TO") FOpt (FTProp PrRelatedTo);
      Field (bs "DEFAULT-ALARM") FOpt (FTProp PrDefaultAlarm)]
      [RErgo 10 9]
  (* sections.go:3169-3479 *)
  | SAlarmDisplay => SecSpec (bs "VALARM") false [
      Field (bs "DESCRIPTION") FReq (FTProp PrDescription);
      Field (bs "TRIGGER") FReq (FTProp PrTrigger);
      Field (bs "DURATION") FOpt (FTProp PrDuration);
      Field (bs "REPEAT") FOpt (FTProp PrRepeat);
      Field (bs "UID") FOpt (FTProp PrUID);
      Field (bs "ALARM-AGENT") FMany (FTProp PrAlarmAgent);
      Field (bs "STATUS") FOpt (FTProp PrAlarmStatus);
      Field (bs "LAST-TRIGGERED") FMany (FTProp PrLastTriggered);
      Field (bs "ACKNOWLEDGED") FOpt (FTProp PrAcknowledged);
      Field (bs "PROXIMITY") FOpt (FTProp PrProximity);
      Field (bs "GEO-LOCATION") FMany (FTProp PrGeoLocation);
      Field (bs "RELATED-TO") FOpt (FTProp PrRelatedTo);
      Field (bs "DEFAULT-ALARM") FOpt (FTProp PrDefaultAlarm)]
      [RErgo 10 9]
  (* sections.go:3481-3832 *)
  | SAlarmEmail => SecSpec (bs "VALARM") false [
      Field (bs "DESCRIPTION") FReq (FTProp PrDescription);
      Field (bs "TRIGGER") FReq (FTProp PrTrigger);
      Field (bs "SUMMARY") FReq (FTProp PrSummary);
      Field (bs "ATTENDEE") FOpt (FTProp PrAttendee);
      Field (bs "DURATION") FOpt (FTProp PrDuration);
      Field (bs "REPEAT") FOpt (FTProp PrRepeat);
      Field (bs "UID") FOpt (FTProp PrUID);
      Field (bs "ALARM-AGENT") FMany (FTProp PrAlarmAgent);
      Field (bs "STATUS") FOpt (FTProp PrAlarmStatus);
      Field (bs "LAST-TRIGGERED") FMany (FTProp PrLastTriggered);
      Field (bs "ACKNOWLEDGED") FOpt (FTProp PrAcknowledged);
      Field (bs "PROXIMITY") FOpt (FTProp PrProximity);
      Field (bs "GEO-LOCATION") FMany (FTProp PrGeoLocation);
      Field (bs "RELATED-TO") FOpt (FTProp PrRelatedTo);
      Field (bs "DEFAULT-ALARM") FOpt (FTProp PrDefaultAlarm)]
      [RErgo 12 11; RAnd 4 5]
  (* sections.go:3834-4132 *)
  | SAlarmURI => SecSpec (bs "VALARM") false [
      Field (bs "URI") FReq (FTProp PrURI);
      Field (bs "DURATION") FOpt (FTProp PrDuration);
      Field (bs "REPEAT") FOpt (FTProp PrRepeat);
      Field (bs "UID") FOpt (FTProp PrUID);
      Field (bs "ALARM-AGENT") FMany (FTProp PrAlarmAgent);
      Field (bs "STATUS") FOpt (FTProp PrAlarmStatus);
      Field (bs "LAST-TRIGGERED") FMany (FTProp PrLastTriggered);
      Field (bs "ACKNOWLEDGED") FOpt (FTProp PrAcknowledged);
      Field (bs "PROXIMITY") FOpt (FTProp PrProximity);
      Field (bs "GEO-LOCATION") FMany (FTProp PrGeoLocation);
      Field (bs "RELATED-TO") FOpt (FTProp PrRelatedTo);
      Field (bs "DEFAULT-ALARM") FOpt (FTProp PrDefaultAlarm)]
      [RErgo 9 8; RAnd 1 2]
  (* sections.go:4134-4173 *)
  | SAlarmNone => SecSpec (bs "VALARM") false [
]
      []
  end.
