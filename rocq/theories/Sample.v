(** A concrete environment and calendars, used to show that hypotheses of theorems can be met and
    as witnesses of refutations. *)
From Coq Require Import String Ascii ZArith Bool List.
From Verif Require Import Base GoStrings Tokeniser GoTime Types Params ParamTable PropTable Props SecTable Sections Codec Folder.
Import ListNotations.
Local Open Scope Z_scope.

(** URLs are any text; there is one zone, "Europe/Town", one hour ahead of UTC; local time is UTC;
    finite numbers are texts that start with a digit or a minus sign. *)
Definition env0 : Env := {|
  url := bytes;
  url_parse := fun s => Some s;
  url_string := fun u => u;
  zone := bytes;
  zone_name := fun z => z;
  zone_lookup := fun _ _ => (3600, - 2 ^ 63, 2 ^ 63 - 1);
  load_zone := fun n => if beq n (bs "Europe/Town") then Some n else None;
  local_lookup := fun _ => (0, - 2 ^ 63, 2 ^ 63 - 1);
  fin := bytes;
  fin_parse := fun s => match s with c :: _ => if is_digit c || beqc c "-" then Some s else None | [] => None end;
  fin_format := fun f => f;
  up_rune := fun r => r
|}.

(** Lines of text, each ended by CR LF. *)
Definition lines (l : list string) : bytes := concat (map (fun s => bs s ++ CRLF) l).

Definition ok_or {A} (d : A) (r : res A) : A := match r with Ok a => a | _ => d end.

(** A calendar with an event, a to-do, a time zone and an alarm. *)
Definition text1 : bytes := lines [
  "BEGIN:VCALENDAR"; "VERSION:2.0"; "PRODID:-//Town//Agenda 1.0//EN";
  "BEGIN:VEVENT"; "DTSTAMP:20240229T101500Z"; "UID:1@town"; "DTSTART;TZID=Europe/Town:20240301T090000";
  "CLASS:private";
  "DESCRIPTION;LANGUAGE=en;ALTREP=""http://town/1"":Meeting\, with a rather long description that will ha"
    ++ "ve to be folded\; and more\nand more";
  "DURATION:PT1H30M"; "CATEGORIES:WORK,TOWN\,HALL"; "ATTENDEE;CN=""Doe, J"";RSVP=TRUE:mailto:j@town";
  "RRULE:FREQ=WEEKLY;COUNT=10;BYDAY=MO,-1FR";
  "BEGIN:VALARM"; "ACTION:AUDIO"; "TRIGGER:-PT15M"; "END:VALARM"; "END:VEVENT";
  "BEGIN:VTODO"; "DTSTAMP:20240229T101500Z"; "UID:2@town"; "DUE;VALUE=DATE:20240305"; "PRIORITY:-1"; "END:VTODO";
  "BEGIN:VTIMEZONE"; "TZID:Europe/Town"; "BEGIN:STANDARD"; "DTSTART:19700101T000000";
  "TZOFFSETTO:+0100"; "TZOFFSETFROM:+0100"; "TZNAME:TT"; "END:STANDARD"; "END:VTIMEZONE"; "END:VCALENDAR"]%string.

Definition cal1 : @sec env0 := ok_or (Sec SAlarmNone []) (@decode_bytes env0 text1).

(** What Encode passes to a writer that never fails. *)
Definition out1 : bytes :=
  match @Encode env0 _ _ ok_writer [] cal1 with EncDone _ out => concat out | _ => [] end.
