(** Properties C130 and C131 in any number of reads, as long as no fold lies across the end of a read (C07). [read_in_parts] is [read_again] with
    the text in such reads (SpecAgain.v). *)
From Coq Require Import String ZArith List.
From Verif Require Import Base GoTime PropTable Props SecTable Sections Folder Codec SpecCal SpecAbroad EncodeProofs SpecBuilt SpecAgain AgainProofs Sample SampleBuilt.
Import ListNotations.

(** C130: what is read in one read, or refused, is so in such reads. *)
Theorem C130_any_reads_partial {env : Env} cal r : read_again cal r -> r <> NoFuel -> read_in_parts cal r.
Proof. exact (again_in_parts cal r). Qed.
Print Assumptions C130_any_reads_partial.

(** C131: calendars that a program has put together are read from such reads too. *)
Theorem C131_any_reads {env : Env} cal : sec_id cal = SCalendar -> sec_valid cal = None -> cal_good (said cal) -> rules_met cal ->
  read_in_parts cal (Ok (forget (said cal))).
Proof. exact (built_in_parts cal). Qed.
Print Assumptions C131_any_reads.

Example C131_any_reads_apply : sec_id built = SCalendar /\ sec_valid built = None /\ said built = reread /\ cal_good reread /\ rules_met built /\ forget reread = reread /\ reread <> built.
Proof. exact built_case. Qed.
