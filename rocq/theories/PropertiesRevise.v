(** Property C129: calendars that are read, changed and kept. [edited z]: [z] comes of calendars that were read from UTF-8 and have nothing that is lost (as in C66)
    by any number of steps, each of which gives new values to one field, of a calendar or of a component or alarm in it, or puts a calendar together from
    components of others; [comes_back z]: Encode writes [z], and Decode reads it from that (SpecRevise.v). *)
From Coq Require Import List.
From Verif Require Import Base Utf8 GoTime PropTable SecTable Sections Codec SpecProps SpecCal SpecKeep SpecRevise ReviseProofs SampleKeep SampleRevise.
Import ListNotations.

(** C129: they come back as they are; ... *)
Theorem C129_edited_calendars {env : Env} z : edited z -> comes_back z.
Proof. exact (edited_back z). Qed.
Print Assumptions C129_edited_calendars.
(** ... a field at a time, in any calendar that comes back by C48; ... *)
Theorem C129_one_field {env : Env} x y : sec_id x = SCalendar -> cal_good x -> rules_met x -> (forall p, ~ has_prop x PrLastModified p) -> sec_valid x = None -> revised x y ->
  sec_id y = SCalendar /\ cal_good y /\ rules_met y /\ (forall p, ~ has_prop y PrLastModified p) /\ sec_valid y = None.
Proof. exact (one_field x y). Qed.
Print Assumptions C129_one_field.
(** ... and calendars at a time. *)
Theorem C129_many_calendars {env : Env} (from : sec -> Prop) z :
  (forall x, from x -> sec_id x = SCalendar /\ cal_good x /\ rules_met x /\ (forall p, ~ has_prop x PrLastModified p) /\ sec_valid x = None) -> assembled from z ->
  sec_id z = SCalendar /\ cal_good z /\ rules_met z /\ (forall p, ~ has_prop z PrLastModified p) /\ sec_valid z = None.
Proof. exact (assembled_kept from z). Qed.
Print Assumptions C129_many_calendars.
Example C129_applies {env : Env} : edited twice /\ event_count twice = 3 /\ has_prop twice PrSummary new_summary /\ ~ has_prop cal_keep PrSummary new_summary /\ alarm_count (event_of cal_keep) = 1 /\ alarm_count (event_of quiet) = 0.
Proof. exact revise_case. Qed.
