(** Property C131: what is read of a calendar that a program has put together. [said cal] is [cal] with its values as their texts say
    (SpecBuilt.v): moments in whole seconds, at a location that is loaded anew; a date as the day that the calendar shows at its
    location; periods with an end or a duration, not both; rules with a count or a last moment, not both; texts with U+FFFD for what is
    not UTF-8; parameters with nothing in them gone, and those with a number that is no choice with the unknown choice. *)
From Coq Require Import String ZArith List.
From Verif Require Import Base GoTime PropTable Props SecTable Sections Folder Codec SpecCal SpecAbroad EncodeProofs SpecBuilt BuiltProofs Sample SampleBuilt.
Import ListNotations.

(** C131: if what the texts say is good (see C48), it is what is read, but for the last-modified times (C44). *)
Theorem C131_built_calendars {env : Env} cal : sec_id cal = SCalendar -> sec_valid cal = None -> cal_good (said cal) -> rules_met cal ->
  read_again cal (Ok (forget (said cal))).
Proof. exact (built_read cal). Qed.
Print Assumptions C131_built_calendars.

(** Nothing that survives by itself is changed, and what the texts say is so from then on. *)
Theorem C131_nothing_else_changes {env : Env} cal : cal_good cal -> said cal = cal.
Proof. exact (good_said cal). Qed.
Print Assumptions C131_nothing_else_changes.

(** C97, of all calendars of this kind: they are written alike if and only if their texts say the same. *)
Theorem C97_written_alike_iff {env : Env} cal cal' e e' out out' : sec_id cal = SCalendar -> sec_id cal' = SCalendar -> cal_good (said cal) -> cal_good (said cal') ->
  Encode ok_writer [] cal = EncDone e out -> Encode ok_writer [] cal' = EncDone e' out' -> (concat out = concat out' <-> said cal = said cal').
Proof. exact (built_alike cal cal' e e' out out'). Qed.
Print Assumptions C97_written_alike_iff.

Example C131_applies : sec_id built = SCalendar /\ sec_valid built = None /\ said built = reread /\ cal_good reread /\ rules_met built /\ forget reread = reread /\ reread <> built.
Proof. exact built_case. Qed.
