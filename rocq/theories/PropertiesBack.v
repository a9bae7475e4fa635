(** C48 and C131 exactly. [read_again cal r] says that Encode writes [cal] and Decode, given the text in one read, ends with [r]. *)
From Coq Require Import String ZArith List.
From Verif Require Import Base GoTime Types PropTable Props SecTable Sections Codec SpecRules SpecEdits SpecProps SpecCal SpecAbroad SpecBuilt BackProofs SampleCal SampleBuilt.
Import ListNotations.

(** C131: of a calendar that a program has put together, that is read which C131 says, nothing else, and only if the rules between
    fields that Decode has are met. *)
Theorem C131_exactly {env : Env} cal c : sec_id cal = SCalendar -> sec_valid cal = None -> cal_good (said cal) ->
  (read_again cal (Ok c) <-> rules_met cal /\ c = forget (said cal)).
Proof. exact (built_exactly cal c). Qed.
Print Assumptions C131_exactly.

(** C48: such a calendar comes back itself if and only if each of its values survives by itself, the rules between fields are met, and
    no last-modified time is set. *)
Theorem C48_exactly_partial {env : Env} cal : sec_id cal = SCalendar -> sec_valid cal = None -> cal_good (said cal) ->
  (read_again cal (Ok cal) <-> rules_met cal /\ cal_good cal /\ forall p, ~ has_prop cal PrLastModified p).
Proof. exact (back_exactly cal). Qed.
Print Assumptions C48_exactly_partial.

(** Both apply to a calendar that does not come back itself. *)
Example C48_exactly_applies : sec_id built = SCalendar /\ sec_valid built = None /\ said built = reread /\ cal_good reread /\ rules_met built /\ forget reread = reread /\ reread <> built.
Proof. exact built_case. Qed.
