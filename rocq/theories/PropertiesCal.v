(** Properties C44, C48, C50, C51, C52 and C59: whole calendars that are written and read back.
    [cal_good] calendars are those whose values each survive being written (C14 to C39) and whose fields
    have as many values as their Go types hold; [rules_met] is what Decode asks of the fields of one
    component together. *)
From Coq Require Import String List ZArith.
From Verif Require Import Base SpecLines Folder Unfolder Tokeniser SpecContent GoTime Types PropTable Props SecTable Sections Codec SpecTree SpecRules SpecEdits SpecProps SpecCal.
From Verif Require Import EncodeProofs RoundProofs Sample SampleCal.
Import ListNotations.

(** C44 is false: what is written with a last-modified time is read back with everything but it. *)
Theorem C44_last_modified_survives_refuted {env : Env} cal p :
  sec_id cal = SCalendar -> cal_good cal -> rules_met cal -> sec_valid cal = None -> has_prop cal PrLastModified p ->
  exists out c, Encode ok_writer [] cal = EncDone None out /\
    (forall w sizes, (forall i, 1 <= sizes i) -> length (concat out) <= sizes 0 -> exists n, forall fuel, n <= fuel -> Decode fuel sizes [concat out] w = Ok c) /\
    forall pid q, has_prop c pid q <-> has_prop cal pid q /\ pid <> PrLastModified.
Proof. exact (last_modified_lost cal p). Qed.
Print Assumptions C44_last_modified_survives_refuted.

(** Whatever the text: a LAST-MODIFIED line anywhere changes nothing. *)
Theorem C44_last_modified_lines_refuted {env : Env} b items items' e tail : framed b items e -> framed b items' e -> rest_ok tail ->
  added (fun _ => last_modified_line) no_line SCalendar items items' ->
  forall cal, decode_bytes (frame_text b items e ++ tail) = Ok cal <-> decode_bytes (frame_text b items' e ++ tail) = Ok cal.
Proof. exact (last_modified_ignored b items items' e tail). Qed.
Print Assumptions C44_last_modified_lines_refuted.

Example C44_applies {env : Env} : sec_id cal_modified = SCalendar /\ cal_good cal_modified /\ rules_met cal_modified /\ sec_valid cal_modified = None /\ has_prop cal_modified PrLastModified (PNew nowZ).
Proof. exact modified_case. Qed.

(** C48, for calendars without last-modified times, from one read; from any reads if no line is folded.
    Missing: folded text in several reads (see C07), where it is false. *)
Theorem C48_calendars_round_trip_partial {env : Env} cal :
  sec_id cal = SCalendar -> cal_good cal -> rules_met cal -> (forall p, ~ has_prop cal PrLastModified p) -> sec_valid cal = None ->
  exists out, Encode ok_writer [] cal = EncDone None out /\
    (forall w sizes, (forall i, 1 <= sizes i) -> length (concat out) <= sizes 0 -> exists n, forall fuel, n <= fuel -> Decode fuel sizes [concat out] w = Ok cal) /\
    (~ has_fold (concat out) -> forall chunks sizes, concat chunks = concat out -> (forall i, 2 <= sizes i) -> exists n, forall fuel, n <= fuel -> Decode fuel sizes chunks false = Ok cal).
Proof. exact (calendar_round_trip cal). Qed.
Print Assumptions C48_calendars_round_trip_partial.

Example C48_applies {env : Env} : sec_id cal_plain = SCalendar /\ cal_good cal_plain /\ rules_met cal_plain /\ (forall p, ~ has_prop cal_plain PrLastModified p) /\ sec_valid cal_plain = None.
Proof. exact plain_case. Qed.

(** C50, for what Encode writes: no cut that loses a byte of END:VCALENDAR is accepted. *)
Theorem C50_cut_output_fails {env : Env} cal err out p q :
  sec_id cal = SCalendar -> cal_good cal -> Encode ok_writer [] cal = EncDone err out -> concat out = p ++ q ++ CRLF -> q <> [] ->
  forall w sizes, (forall i, 1 <= sizes i) -> length p <= sizes 0 -> exists n, forall fuel cal', n <= fuel -> Decode fuel sizes [p] w <> Ok cal'.
Proof. exact (encode_cut cal err out p q). Qed.
Print Assumptions C50_cut_output_fails.

(** C51 is false: this text is read, and what was read is never written. *)
Theorem C51_decoded_calendars_encode_refuted {env : Env} :
  (forall chunks sizes, concat chunks = text_year1 -> (forall i, 2 <= sizes i) -> exists n, forall fuel, n <= fuel -> Decode fuel sizes chunks false = Ok cal_year1) /\
  forall W E (wr : W -> bytes -> W * option E) w, exists e, Encode wr w cal_year1 = EncInvalid e w.
Proof. exact year1_refused. Qed.
Print Assumptions C51_decoded_calendars_encode_refuted.

(** Exactly: it is refused because of a finite FLOAT (so any usual GEO), a time at the start of the year
    1, or a period that is not from an earlier to a later time of the same clock. *)
Theorem C51_refused_calendars {env : Env} {W E} (wr : W -> bytes -> W * option E) w fuel sizes chunks weof cal : Decode fuel sizes chunks weof = Ok cal ->
  ((exists e, Encode wr w cal = EncInvalid e w) <-> ~ forall pid p v, has_prop cal pid p -> prop_value p v -> ~ refused v).
Proof. exact (decode_then_valid wr w fuel sizes chunks weof cal). Qed.
Print Assumptions C51_refused_calendars.

(** C51 without these, and without the parameter texts on which Encode hangs (C35). *)
Theorem C51_decoded_calendars_encode_partial {env : Env} {W E} (wr : W -> bytes -> W * option E) w fuel sizes chunks weof cal : Decode fuel sizes chunks weof = Ok cal ->
  (forall pid p v, has_prop cal pid p -> prop_value p v -> ~ refused v) -> (forall pid p, has_prop cal pid p -> ~ needs_escape pid p) ->
  exists e w', Encode wr w cal = EncDone e w'.
Proof. exact (decode_then_encode wr w fuel sizes chunks weof cal). Qed.
Print Assumptions C51_decoded_calendars_encode_partial.

Example C51_applies {env : Env} : decode_bytes text_small = Ok cal_small /\ (forall pid p v, has_prop cal_small pid p -> prop_value p v -> ~ refused v) /\
  (forall pid p, has_prop cal_small pid p -> ~ needs_escape pid p).
Proof. exact small_case. Qed.
Example C51_geo : @decode_bytes env0 text_geo = Ok cal_geo /\ has_prop cal_geo PrGeo geo1 /\ exists v, prop_value geo1 v /\ refused v.
Proof. exact geo_case. Qed.

(** C52 is false: an event with an end and a duration is written, and what is written is not accepted. *)
Theorem C52_encoded_calendars_decode_refuted {env : Env} : exists out, Encode ok_writer [] cal_ended = EncDone None out /\
  forall w sizes, (forall i, 1 <= sizes i) -> length (concat out) <= sizes 0 -> exists n, forall fuel c, n <= fuel -> Decode fuel sizes [concat out] w <> Ok c.
Proof. exact ended_refused. Qed.
Print Assumptions C52_encoded_calendars_decode_refuted.

(** Exactly: what is written is accepted if and only if the rules between fields are met. *)
Theorem C52_encoded_calendars_decode_partial {env : Env} cal : sec_id cal = SCalendar -> cal_good cal -> sec_valid cal = None ->
  exists out, Encode ok_writer [] cal = EncDone None out /\
  forall w sizes, (forall i, 1 <= sizes i) -> length (concat out) <= sizes 0 -> exists n, forall fuel, n <= fuel ->
    ((exists c, Decode fuel sizes [concat out] w = Ok c) <-> rules_met cal).
Proof. exact (rules_decide cal). Qed.
Print Assumptions C52_encoded_calendars_decode_partial.

Example C52_applies {env : Env} : (sec_id cal_ended = SCalendar /\ cal_good cal_ended /\ sec_valid cal_ended = None /\ ~ rules_met cal_ended) /\
  (sec_id cal_plain = SCalendar /\ cal_good cal_plain /\ rules_met cal_plain /\ (forall p, ~ has_prop cal_plain PrLastModified p) /\ sec_valid cal_plain = None).
Proof. exact (conj ended_case plain_case). Qed.

(** C59 *)
Theorem C59_short_lines_are_not_folded {env : Env} cal e out :
  Encode ok_writer [] cal = EncDone e out -> no_bare (content cal) -> Forall (fun l => Z.of_nat (length l) <= 75)%Z (phys_lines (content cal)) -> concat out = content cal.
Proof. exact (encode_short cal e out). Qed.
Print Assumptions C59_short_lines_are_not_folded.

Example C59_applies {env : Env} : content cal_small = text_small /\ no_bare text_small /\ forallb (fun l => Nat.leb (length l) 75) (phys_lines text_small) = true.
Proof. exact short_case. Qed.
