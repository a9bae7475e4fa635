(** The texts of the calendars of decoder_test.go, encoder_test.go and examples_test.go. Written by
    tools/gen_repo_tests.py. *)
From Coq Require Import String Ascii ZArith Bool List.
From Verif Require Import Base Sample.
Import ListNotations.

Definition decoder_input2 : bytes :=
  (lines ["BEGIN:VCALENDAR";
     "PRODID:TestDecode";
     "VERSION:2.0";
     "END:VCALENDAR"]%string).
Definition decoder_input3 : bytes :=
  (lines ["BEGIN:VCALENDAR";
     "PRODID:-//xyz Corp//NONSGML PDA Calendar Version 1.0//EN";
     "VERSION:2.0";
     "BEGIN:VEVENT";
     "DTSTAMP:19960704T120000Z";
     "UID:uid1@example.com";
     "ORGANIZER:mailto:jsmith@example.com";
     "DTSTART:19960918T143000Z";
     "DTEND:19960920T220000Z";
     "STATUS:CONFIRMED";
     "CATEGORIES:CONFERENCE";
     "SUMMARY:Networld+Interop Conference";
     "DESCRIPTION:Networld+Interop Conference";
     "  and Exhibit\nAtlanta World Congress Center\n";
     " Atlanta\, Georgia";
     "END:VEVENT";
     "END:VCALENDAR"]%string).
Definition decoder_input4 : bytes :=
  (lines ["BEGIN:VCALENDAR";
     "PRODID:-//RDU Software//NONSGML HandCal//EN";
     "VERSION:2.0";
     "BEGIN:VTIMEZONE";
     "TZID:America/New_York";
     "BEGIN:STANDARD";
     "DTSTART:19981025T020000";
     "TZOFFSETFROM:-0400";
     "TZOFFSETTO:-0500";
     "TZNAME:EST";
     "END:STANDARD";
     "BEGIN:DAYLIGHT";
     "DTSTART:19990404T020000";
     "TZOFFSETFROM:-0500";
     "TZOFFSETTO:-0400";
     "TZNAME:EDT";
     "END:DAYLIGHT";
     "END:VTIMEZONE";
     "BEGIN:VEVENT";
     "DTSTAMP:19980309T231000Z";
     "UID:guid-1.example.com";
     "ORGANIZER:mailto:mrbig@example.com";
     "ATTENDEE;RSVP=TRUE;ROLE=REQ-PARTICIPANT;CUTYPE=GROUP:";
     " mailto:employee-A@example.com";
     "DESCRIPTION:Project XYZ Review Meeting";
     "CATEGORIES:MEETING";
     "CLASS:PUBLIC";
     "CREATED:19980309T130000Z";
     "SUMMARY:XYZ Project Review";
     "DTSTART;TZID=America/New_York:19980312T083000";
     "DTEND;TZID=America/New_York:19980312T093000";
     "LOCATION:1CP Conference Room 4350";
     "END:VEVENT";
     "END:VCALENDAR"]%string).
Definition decoder_input5 : bytes :=
  (lines ["BEGIN:VCALENDAR";
     "VERSION:2.0";
     "PRODID:-//ABC Corporation//NONSGML My Product//EN";
     "BEGIN:VTODO";
     "DTSTAMP:19980130T134500Z";
     "SEQUENCE:2";
     "UID:uid4@example.com";
     "ORGANIZER:mailto:unclesam@example.com";
     "ATTENDEE;PARTSTAT=ACCEPTED:mailto:jqpublic@example.com";
     "DUE:19980415T000000";
     "STATUS:NEEDS-ACTION";
     "SUMMARY:Submit Income Taxes";
     "BEGIN:VALARM";
     "ACTION:AUDIO";
     "TRIGGER;VALUE=DATE-TIME:19980403T120000Z";
     "ATTACH;FMTTYPE=audio/basic:http://example.com/pub/audio-";
     " files/ssbanner.aud";
     "REPEAT:4";
     "DURATION:PT1H";
     "END:VALARM";
     "END:VTODO";
     "END:VCALENDAR"]%string).
Definition decoder_input6 : bytes :=
  (lines ["BEGIN:VCALENDAR";
     "VERSION:2.0";
     "PRODID:-//ABC Corporation//NONSGML My Product//EN";
     "BEGIN:VJOURNAL";
     "DTSTAMP:19970324T120000Z";
     "UID:uid5@example.com";
     "ORGANIZER:mailto:jsmith@example.com";
     "STATUS:DRAFT";
     "CLASS:PUBLIC";
     "CATEGORIES:Project Report,XYZ,Weekly Meeting";
     "DESCRIPTION:Project xyz Review Meeting Minutes\n";
     " Agenda\n1. Review of project version 1.0 requirements.\n2.";
     "  Definition of project processes.\n3. Review of project schedule.\n";
     " Participants: John Smith\, Jane Doe\, Jim Dandy\n-It was";
     "  decided that the requirements need to be signed off by";
     "  product marketing.\n-Project processes were accepted.\n";
     " -Project schedule needs to account for scheduled holidays";
     "  and employee vacation time. Check with HR for specific";
     "  dates.\n-New schedule will be distributed by Friday.\n-";
     " Next weeks meeting is cancelled. No meeting until 3/23.";
     "END:VJOURNAL";
     "END:VCALENDAR"]%string).
Definition decoder_input7 : bytes :=
  (lines ["BEGIN:VCALENDAR";
     "VERSION:2.0";
     "PRODID:-//RDU Software//NONSGML HandCal//EN";
     "BEGIN:VFREEBUSY";
     "DTSTAMP:19970324T120000Z";
     "UID:uid5@example.com";
     "ORGANIZER:mailto:jsmith@example.com";
     "DTSTART:19980313T141711Z";
     "DTEND:19980410T141711Z";
     "FREEBUSY:19980314T233000Z/19980315T003000Z";
     "FREEBUSY:19980316T153000Z/19980316T163000Z";
     "FREEBUSY:19980318T030000Z/19980318T040000Z";
     "URL:http://www.example.com/calendar/busytime/jsmith.ifb";
     "END:VFREEBUSY";
     "END:VCALENDAR"]%string).
Definition encoder_output1 : bytes :=
  (lines ["BEGIN:VCALENDAR";
     "VERSION:2.0";
     "PRODID:TestDecode";
     "END:VCALENDAR"]%string).
Definition encoder_output2 : bytes :=
  (lines ["BEGIN:VCALENDAR";
     "VERSION:2.0";
     "PRODID:-//xyz Corp//NONSGML PDA Calendar Version 1.0//EN";
     "BEGIN:VEVENT";
     "DTSTAMP:19960704T120000Z";
     "UID:uid1@example.com";
     "DTSTART:19960918T143000Z";
     "DESCRIPTION:Networld+Interop Conference and Exhibit\nAtlanta World Congress";
     "  Center\nAtlanta\, Georgia";
     "ORGANIZER:mailto:jsmith@example.com";
     "STATUS:CONFIRMED";
     "SUMMARY:Networld+Interop Conference";
     "DTEND:19960920T220000Z";
     "CATEGORIES:CONFERENCE";
     "END:VEVENT";
     "END:VCALENDAR"]%string).
Definition encoder_output3 : bytes :=
  (lines ["BEGIN:VCALENDAR";
     "VERSION:2.0";
     "PRODID:-//RDU Software//NONSGML HandCal//EN";
     "BEGIN:VEVENT";
     "DTSTAMP:19980309T231000Z";
     "UID:guid-1.example.com";
     "DTSTART;TZID=America/New_York:19980312T083000";
     "CLASS:PUBLIC";
     "CREATED:19980309T130000Z";
     "DESCRIPTION:Project XYZ Review Meeting";
     "LOCATION:1CP Conference Room 4350";
     "ORGANIZER:mailto:mrbig@example.com";
     "SUMMARY:XYZ Project Review";
     "DTEND;TZID=America/New_York:19980312T093000";
     "ATTENDEE;CUTYPE=GROUP;ROLE=REQ-PARTICIPANT;RSVP=TRUE:mailto:employee-A@exam";
     " ple.com";
     "CATEGORIES:MEETING";
     "END:VEVENT";
     "BEGIN:VTIMEZONE";
     "TZID:America/New_York";
     "BEGIN:STANDARD";
     "DTSTART:19981025T020000";
     "TZOFFSETTO:-0500";
     "TZOFFSETFROM:-0400";
     "TZNAME:EST";
     "END:STANDARD";
     "BEGIN:DAYLIGHT";
     "DTSTART:19990404T020000";
     "TZOFFSETTO:-0400";
     "TZOFFSETFROM:-0500";
     "TZNAME:EDT";
     "END:DAYLIGHT";
     "END:VTIMEZONE";
     "END:VCALENDAR"]%string).
Definition encoder_output4 : bytes :=
  (lines ["BEGIN:VCALENDAR";
     "VERSION:2.0";
     "PRODID:-//ABC Corporation//NONSGML My Product//EN";
     "BEGIN:VTODO";
     "DTSTAMP:19980130T134500Z";
     "UID:uid4@example.com";
     "ORGANIZER:mailto:unclesam@example.com";
     "SEQUENCE:2";
     "STATUS:NEEDS-ACTION";
     "SUMMARY:Submit Income Taxes";
     "DUE:19980415T000000";
     "ATTENDEE;PARTSTAT=ACCEPTED:mailto:jqpublic@example.com";
     "BEGIN:VALARM";
     "ACTION:AUDIO";
     "TRIGGER;VALUE=DATE-TIME:19980403T120000Z";
     "DURATION:PT1H";
     "REPEAT:4";
     "ATTACH;FMTTYPE=audio/basic:http://example.com/pub/audio-files/ssbanner.aud";
     "END:VALARM";
     "END:VTODO";
     "END:VCALENDAR"]%string).
Definition encoder_output5 : bytes :=
  (lines ["BEGIN:VCALENDAR";
     "VERSION:2.0";
     "PRODID:-//ABC Corporation//NONSGML My Product//EN";
     "BEGIN:VJOURNAL";
     "DTSTAMP:19970324T120000Z";
     "UID:uid5@example.com";
     "CLASS:PUBLIC";
     "ORGANIZER:mailto:jsmith@example.com";
     "STATUS:DRAFT";
     "CATEGORIES:Project Report,XYZ,Weekly Meeting";
     "DESCRIPTION:Project xyz Review Meeting Minutes\nAgenda\n1. Review of projec";
     " t version 1.0 requirements.\n2. Definition of project processes.\n3. Revie";
     " w of project schedule.\nParticipants: John Smith\, Jane Doe\, Jim Dandy\n-";
     " It was decided that the requirements need to be signed off by product mark";
     " eting.\n-Project processes were accepted.\n-Project schedule needs to acco";
     " unt for scheduled holidays and employee vacation time. Check with HR for s";
     " pecific dates.\n-New schedule will be distributed by Friday.\n-Next weeks ";
     " meeting is cancelled. No meeting until 3/23.";
     "END:VJOURNAL";
     "END:VCALENDAR"]%string).
Definition encoder_output6 : bytes :=
  (lines ["BEGIN:VCALENDAR";
     "VERSION:2.0";
     "PRODID:-//RDU Software//NONSGML HandCal//EN";
     "BEGIN:VFREEBUSY";
     "DTSTAMP:19970324T120000Z";
     "UID:uid5@example.com";
     "DTSTART:19980313T141711Z";
     "DTEND:19980410T141711Z";
     "ORGANIZER:mailto:jsmith@example.com";
     "URL:http://www.example.com/calendar/busytime/jsmith.ifb";
     "FREEBUSY:19980314T233000Z/19980315T003000Z";
     "FREEBUSY:19980316T153000Z/19980316T163000Z";
     "FREEBUSY:19980318T030000Z/19980318T040000Z";
     "END:VFREEBUSY";
     "END:VCALENDAR"]%string).
Definition example_data : bytes :=
  removelast (removelast (lines ["BEGIN:VCALENDAR";
     "VERSION:2.0";
     "PRODID:-//hacksw/handcal//NONSGML v1.0//EN";
     "BEGIN:VEVENT";
     "UID:uid1@example.com";
     "ORGANIZER;CN=John Doe:MAILTO:john.doe@example.com";
     "DTSTAMP:19970701T100000Z";
     "DTSTART:19970714T170000Z";
     "DTEND:19970715T040000Z";
     "SUMMARY:Bastille Day Party";
     "GEO:48.85299;2.36885";
     "END:VEVENT";
     "END:VCALENDAR"]%string)).
