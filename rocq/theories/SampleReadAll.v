(** Calendars for the theorems of PropertiesReadAll.v. *)
From Coq Require Import String Ascii ZArith Bool List Lia.
From Verif Require Import Base SpecContent GoTime Types Params PropTable Props SecTable Sections SpecTree SpecRules SpecRfc SpecTime SpecEdits SpecLine LineProofs SpecProps SpecCal CalProofs RoundProofs SpecClock Sample SampleCal SampleOrder SampleAbroad AbroadProofs SpecAbroad SpecLined LinedProofs ZonedProofs SampleLined SpecReadAs ReadAllProofs.
Import ListNotations.

Lemma at_counted {env : Env} t : counted (cal_at t).
Proof.
  unfold counted. apply (parts_eq (fun y => forall i fd vs, nth_error (fields_of (sec_id y)) i = Some fd -> nth_error (sec_fields y) i = Some vs -> count_ok (fd_mode fd) (length vs))). split.
  - intros i fd vs N V. do 7 (destruct i as [|i]; [injection N as <-; injection V as <-; cbn; lia || exact Logic.I|]). destruct i; discriminate N.
  - intros vs v I J. repeat (destruct I as [<-|I]; [repeat (destruct J as [<-|J]; [try exact Logic.I|]); try contradiction|]); try contradiction.
    cbn [val_part]. refine (proj2 (parts_eq (fun y => forall i fd vs, nth_error (fields_of (sec_id y)) i = Some fd -> nth_error (sec_fields y) i = Some vs -> count_ok (fd_mode fd) (length vs)) _ _) _). split.
    + intros i fd vs N V. do 31 (destruct i as [|i]; [injection N as <-; injection V as <-; cbn; lia || exact Logic.I|]). destruct i; discriminate N.
    + intros vs v I J. repeat (destruct I as [<-|I]; [repeat (destruct J as [<-|J]; [try exact Logic.I|]); try contradiction|]); contradiction.
Qed.
Theorem readable_case : (let t := abroad "UTC+1" in
    sec_id (cal_at t) = SCalendar /\ sec_valid (cal_at t) = None /\ cal_lined (cal_at t) /\ counted (cal_at t) /\ has_prop (cal_at t) PrDateTimeStart (ab_start t) /\ forall q, ~ prop_as PrDateTimeStart (ab_start t) q) /\
  (let t := abroad "Europe/Town" in sec_id (cal_at t) = SCalendar /\ sec_valid (cal_at t) = None /\ cal_lined (cal_at t) /\ counted (cal_at t) /\ exists c, read_again (cal_at t) (Ok c)).
Proof.
  destruct unread_case as (I & V & L & H & _ & _ & _ & _ & _ & N). destruct abroad_case as (_ & _ & _ & (G & Z)). split.
  - split; [exact I|]. split; [exact V|]. split; [exact L|]. split; [apply at_counted|]. split; [exact H|]. intros q (l & PL & M). exact (N l q PL M).
  - destruct (at_case _ G Z) as (I' & GC & R & NL & V'). split; [exact I'|]. split; [exact V'|]. split; [apply good_lined, GC|]. split; [apply at_counted|].
    destruct (calendar_round_trip _ I' GC R NL V') as (out & E & D & _). exists (cal_at (abroad "Europe/Town")), out. split; [exact E|exact D].
Qed.
