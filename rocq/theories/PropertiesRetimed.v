(** Property C130, for calendars with any number of moments in them, wherever they are. [retimed f cal] is [cal] with the time [f t] for each
    time [t] in it, and [same_clock t t'] says that clocks show the same at [t'] as at [t], in locations with the same name. *)
From Coq Require Import String ZArith List.
From Verif Require Import Base GoTime PropTable Props SecTable Sections SpecCal SpecAbroad SpecBuilt SpecRetimed RetimedProofs SampleOrder SampleRetimed.
Import ListNotations.

(** C130 is false of dates, moments, periods and rules in any component: what is read are the times at which clocks show the same where the
    system has the location of that name, which are other moments if a program has another location of that name. *)
Theorem C130_same_clocks_refuted {env : Env} f cal : (forall t, same_clock t (f t)) -> sec_id cal = SCalendar -> sec_valid cal = None ->
  cal_good (said (retimed f cal)) -> rules_met cal -> read_again cal (Ok (forget (said (retimed f cal)))).
Proof. exact (fun F => retimed_read f F cal). Qed.
Print Assumptions C130_same_clocks_refuted.

Example C130_same_clocks_applies : (forall t, same_clock t (own t)) /\ sec_id (cal_at own_start) = SCalendar /\ sec_valid (cal_at own_start) = None /\ rules_met (cal_at own_start) /\
  cal_good (said (retimed own (cal_at own_start))) /\ said (retimed own (cal_at own_start)) = cal_at read_start /\ (t_sec read_start = t_sec own_start + 3600)%Z.
Proof. exact own_case. Qed.
