(** The texts of the files that describe the generated code: names.gen, params.gen, properties.gen and
    sections.gen, whole and unchanged. tools/check_tables.py checks that they are those of /repo. *)
From Coq Require Import String List.
From Verif Require Import Base.

(** names.gen:1-57 *)
Definition names_gen : bytes := bs "VCALENDAR=Calendar
VEVENT=Event
VTODO=Todo
VJOURNAL=Journal
VFREEBUSY=FreeBusy
VTIMEZONE=Timezone
VALARM=Alarm
VALARMAUDIO=AlarmAudio
VALARMDISPLAY=AlarmDisplay
VALARMEMAIL=AlarmEmail
VALARMURI=AlarmURI
VALARMNONE=AlarmNone
ALTREP=AlternativeRepresentation
CN=CommonName
CUTYPE=CalendarUserType
DELEGATED-FROM=Delegator
DELEGATED-TO=Delagatee
DIR=DirectoryEntry
FMTTYPE=FormatType
FBTYPE=FreeBusyType
PARTSTAT=ParticipationStatus
RELTYPE=RelationshipType
ROLE=ParticipationRole
RSVP=RSVP
SENT-BY=SentBy
TZID=TimezoneID
CALSCALE=CalendarScale
PRODID=ProductID
DTEND=DateTimeEnd
DTSTART=DateTimeStart
FREEBUSY=FreeBusy
TRANSP=TimeTransparency
ATTACH=Attachment
DTSTAMP=DateTimeStamp
EXDATE=ExceptionDateTime
RDATE=RecurrenceDateTimes
RRULE=RecurrenceRule
TZNAME=TimezoneName
TZOFFSETFROM=TimezoneOffsetFrom
TZOFFSETTO=TimezoneOffsetTo
TZURL=TimezoneURL
REQUEST-STATUS=RequestStatus
PRODID=ProductID
UID=UID
LAST-MOD=LastModified
RECURID=RecurID
RECURRENCE-ID=RecurrenceID
TZOFFSET=TimezoneOffset
CAL-ADDRESS=CalendarAddress
UTC-OFFSET=UTCOffset
REQ-PARTICIPANT=RequiredParticipant
URL=URL
URI=URI
CalendarAddress=CalendarAddress
MText=MText
ID=ID
AGENT-ID=AgentID
".

(** params.gen:1-23 *)
Definition params_gen : bytes := bs "ALTREP=""!URI
CN='
CUTYPE=?INDIVIDUAL|GROUP|RESOURCE|ROOM
DELEGATED-FROM=*""!CalendarAddress
DELEGATED-TO=*""!CalendarAddress
DIR=""
ENCODING=8BIT|BASE64
FMTTYPE=~[A-Za-z0-9!#$&.+-^_]/[A-Za-z0-9!#$&.+-^_]
FBTYPE=?FREE|BUSY|BUSY-UNAVAILABLE|BUSY-TENTATIVE
LANGUAGE='
MEMBER=*""
PARTSTAT=?NEEDS-ACTION|ACCEPTED|DECLINED|TENTATIVE|DELEGATED|COMPLETED|IN-PROCESS
RANGE=THISANDFUTURE
RELATED=START|END
RELTYPE=?PARENT|CHILD|SIBLING
ROLE=?REQ-PARTICIPANT|CHAIR|OPT-PARTICIPANT|NON-PARTICIPANT
RSVP=!Boolean
SENT-BY=""
TZID='
VALUE=?BINARY|BOOLEAN|CAL-ADDRESS|DATE|DATE-TIME|DURATION|FLOAT|INTEGER|PERIOD|RECUR|TEXT|TIME|URI|UTC-OFFSET
URI=""!URI
ID=""
AGENT-ID=""
".

(** properties.gen:1-90 *)
Definition properties_gen : bytes := bs "ACTION:AUDIO|DISPLAY|EMAIL
ATTACH:!URI|BINARY
	FMTTYPE
ATTENDEE:!CalendarAddress
	CUTYPE
	MEMBER
	ROLE
	PARTSTAT
	RSVP
	DELEGATED-TO
	DELEGATED-FROM
	SENT-BY
	CN
	DIR
	LANGUAGE
CALSCALE:GREGORIAN
CATEGORIES:!MText
	LANGUAGE
CLASS:PUBLIC|PRIVATE|CONFIDENTIAL
COMMENT:!Text
	ALTREP
	LANGUAGE
COMPLETED:!DateTime
CONTACT:!Text
	ALTREP
	LANGUAGE
CREATED:!DateTime
DESCRIPTION:!Text
	ALTREP
	LANGUAGE
DTEND:!DATE-TIME|DATE
DTSTAMP:!DateTime
DTSTART:!DATE-TIME|DATE
DUE:!DATE-TIME|DATE
DURATION:!Duration
EXDATE:!DATE-TIME|DATE
FREEBUSY:!Period
	FBTYPE
GEO:!TFloat
LAST-MODIFIED:!DateTime
LOCATION:!Text
	ALTREP
	LANGUAGE
METHOD:!Text
ORGANIZER:!CalendarAddress
	CN
	DIR
	SENT-BY
	LANGUAGE
PERCENT-COMPLETE:!Integer
PRIORITY:!Integer
PRODID:!Text
RDATE:!DATE-TIME|DATE|PERIOD
RECURRENCE-ID:!DATE-TIME|DATE
	RANGE
RELATED-TO:!Text
	RELTYPE
REPEAT:!Integer
REQUEST-STATUS:!Text
RESOURCES:!MText
	ALTREP
	LANGUAGE
RRULE:!Recur
SEQUENCE:!Integer
STATUS:TENTATIVE|CONFIRMED|CANCELLED|NEEDS-ACTION|COMPLETED|IN-PROCESS|DRAFT|FINAL
SUMMARY:!Text
	ALTREP
	LANGUAGE
TRANSP:OPAQUE|TRANSPARENT
TRIGGER:!DURATION|DATE-TIME
TZID:!Text
TZNAME:!Text
	LANGUAGE
TZOFFSETFROM:!UTCOffset
TZOFFSETTO:!UTCOffset
TZURL:!URI
UID:!Text
URL:!URI
URI:!URI
VERSION:!Text
ALARM-AGENT:!Text
	URI
	ID
	AGENT-ID
ALARM-STATUS#STATUS:ACTIVE|CANCELLED|COMPLETED
LAST-TRIGGERED:!DateTime
ACKNOWLEDGED:!DateTime
PROXIMITY:!Text
GEO-LOCATION:!URI
DEFAULT-ALARM:!Boolean
".

(** sections.gen:1-199 *)
Definition sections_gen : bytes := bs "VCALENDAR
	!VERSION
	!PRODID
	*BEGIN:VEVENT
	*BEGIN:VTODO
	*BEGIN:VJOURNAL
	*BEGIN:VFREEBUSY
	*BEGIN:VTIMEZONE
VEVENT
	!DTSTAMP
	!UID
	DTSTART
	CLASS
	CREATED
	DESCRIPTION
	GEO
	LAST-MOD
	LOCATION
	ORGANIZER
	PRIORITY
	SEQUENCE
	STATUS
	SUMMARY
	TRANSP
	URL
	RECURRENCE-ID
	RRULE
	DTEND
	DURATION
	?DTEND!DURATION
	*ATTACH
	*ATTENDEE
	*CATEGORIES
	*COMMENT
	*CONTACT
	*EXDATE
	*REQUEST-STATUS
	*RELATED-TO
	*RESOURCES
	*RDATE
	*BEGIN:VALARM
VTODO
	!DTSTAMP
	!UID
	CLASS
	COMPLETED
	CREATED
	DESCRIPTION
	DTSTART
	GEO
	LAST-MOD
	LOCATION
	ORGANIZER
	PERCENT-COMPLETE
	PRIORITY
	RECURRENCE-ID
	SEQUENCE
	STATUS
	SUMMARY
	URL
	DUE
	DURATION
	?DURATION>DTSTART
	?DUE!DURATION
	*ATTACH
	*ATTENDEE
	*CATEGORIES
	*COMMENT
	*CONTACT
	*EXDATE
	*REQUEST-STATUS
	*RELATED-TO
	*RESOURCES
	*RDATE
	*BEGIN:VALARM
VJOURNAL
	!DTSTAMP
	!UID
	CLASS
	CREATED
	DTSTART
	LAST-MOD
	ORGANIZER
	RECURRENCE-ID
	SEQUENCE
	STATUS
	SUMMARY
	URL
	RRULE
	*ATTACH
	*ATTENDEE
	*CATEGORIES
	*COMMENT
	*CONTACT
	*DESCRIPTION
	*EXDATE
	*REQUEST-STATUS
	*RELATED-TO
	*RESOURCES
	*RDATE
VFREEBUSY
	!DTSTAMP
	!UID
	CONTACT
	DTSTART
	DTEND
	ORGANIZER
	URL
	*ATTENDEE
	*COMMENT
	*FREEBUSY
	*REQUEST-STATUS
VTIMEZONE
	!TZID
	LAST-MOD
	TZURL
	*BEGIN:STANDARD
	*BEGIN:DAYLIGHT
	?STANDARD|DAYLIGHT
STANDARD
	!DTSTART
	!TZOFFSETTO
	!TZOFFSETFROM
	RRULE
	*COMMENT
	*RDATE
	*TZNAME
DAYLIGHT
	!DTSTART
	!TZOFFSETTO
	!TZOFFSETFROM
	RRULE
	*COMMENT
	*RDATE
	*TZNAME
VALARMAUDIO
	!TRIGGER
	DURATION
	REPEAT
	*ATTACH
	UID
	*ALARM-AGENT
	ALARM-STATUS#STATUS
	*LAST-TRIGGERED
	ACKNOWLEDGED
	PROXIMITY
	*GEO-LOCATION
	RELATED-TO
	DEFAULT-ALARM
	?GEO-LOCATION>PROXIMITY
VALARMDISPLAY
	!DESCRIPTION
	!TRIGGER
	DURATION
	REPEAT
	UID
	*ALARM-AGENT
	ALARM-STATUS#STATUS
	*LAST-TRIGGERED
	ACKNOWLEDGED
	PROXIMITY
	*GEO-LOCATION
	RELATED-TO
	DEFAULT-ALARM
	?GEO-LOCATION>PROXIMITY
VALARMEMAIL
	!DESCRIPTION
	!TRIGGER
	!SUMMARY
	ATTENDEE
	DURATION
	REPEAT
	UID
	*ALARM-AGENT
	ALARM-STATUS#STATUS
	*LAST-TRIGGERED
	ACKNOWLEDGED
	PROXIMITY
	*GEO-LOCATION
	RELATED-TO
	DEFAULT-ALARM
	?GEO-LOCATION>PROXIMITY
	?DURATION+REPEAT
VALARMURI
	!URI
	DURATION
	REPEAT
	UID
	*ALARM-AGENT
	ALARM-STATUS#STATUS
	*LAST-TRIGGERED
	ACKNOWLEDGED
	PROXIMITY
	*GEO-LOCATION
	RELATED-TO
	DEFAULT-ALARM
	?GEO-LOCATION>PROXIMITY
	?DURATION+REPEAT
VALARMNONE
".

