(** C132 exactly: a calendar is read property by property. [cal_lined cal] says that every property is written as one line; [counted cal]
    that each field has as many values as the Go types have room for; [prop_as pid p q] that the line of [p] means [q]. *)
From Coq Require Import String ZArith List.
From Verif Require Import Base GoTime Types PropTable Props SecTable Sections Codec SpecRules SpecEdits SpecProps SpecCal SpecAbroad SpecLined SpecReadAs ReadAsProofs ReadAllProofs Sample SampleOrder SampleAbroad AbroadProofs SampleReadAll.
Import ListNotations.

(** A calendar that Encode accepts can be read if and only if each of its properties can be read by itself, and the rules between
    fields that Decode has are met. *)
Theorem C132_readable_exactly {env : Env} cal : sec_id cal = SCalendar -> sec_valid cal = None -> cal_lined cal -> counted cal ->
  ((exists c, read_again cal (Ok c)) <-> rules_met cal /\ forall pid p, has_prop cal pid p -> pid <> PrLastModified -> exists q, prop_as pid p q).
Proof. exact (readable_exactly cal). Qed.
Print Assumptions C132_readable_exactly.

(** What is read then has in each place the property that is read by itself, but no last-modified times. *)
Theorem C132_read_by_property {env : Env} cal cal' c : sec_id cal = SCalendar -> sec_valid cal = None -> cal_as cal cal' ->
  (read_again cal (Ok c) <-> rules_met cal' /\ c = forget cal').
Proof. exact (read_as cal cal' c). Qed.
Print Assumptions C132_read_by_property.

(** Two calendars with one event: one starts in a location called UTC+1, which is not known, the other in one that is. *)
Example C132_readable_applies : (let t := abroad "UTC+1" in
    sec_id (cal_at t) = SCalendar /\ sec_valid (cal_at t) = None /\ cal_lined (cal_at t) /\ counted (cal_at t) /\ has_prop (cal_at t) PrDateTimeStart (ab_start t) /\ forall q, ~ prop_as PrDateTimeStart (ab_start t) q) /\
  (let t := abroad "Europe/Town" in sec_id (cal_at t) = SCalendar /\ sec_valid (cal_at t) = None /\ cal_lined (cal_at t) /\ counted (cal_at t) /\ exists c, read_again (cal_at t) (Ok c)).
Proof. exact readable_case. Qed.
