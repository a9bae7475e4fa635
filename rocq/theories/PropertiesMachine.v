(** Property C103: the same text on two machines. [machine env local rules load] is the machine [env] with another
    local time zone, another database of time zones and other rules in them. [sec_alike]: the same fields, texts,
    numbers and parameters, and at each moment the same reading of calendar and clock at the same place: UTC, the
    local time of each machine, or the zone that each has by the same name. *)
From Coq Require Import String Ascii List Arith Bool ZArith.
From Verif Require Import Base GoTime Types Sections SpecContent SpecTree SpecFail Codec SpecMachine MachineProofs Sample SampleMachine.
Import ListNotations.

(** C103: two machines that read the same text read the same calendar. *)
Theorem C103_same_calendar {env : Env} local rules load fuel sizes chunks w cal cal' :
  Decode fuel sizes chunks w = Ok cal -> @Decode (machine env local rules load) fuel sizes chunks w = Ok cal' -> sec_alike local rules load cal cal'.
Proof. exact (both_decode local rules load fuel sizes chunks w cal cal'). Qed.
Print Assumptions C103_same_calendar.
(** If they know the same names of zones, and no rule has both an UNTIL and a COUNT, then one reads the text if the
    other does, and fails with the same error if the other does. *)
Theorem C103_same_outcome_partial {env : Env} local rules load s ls en : same_names load -> cut_into s ls en -> Forall (fun l => ~ mixed_line l) ls ->
  same_outcome local rules load (decode_bytes s) (@decode_bytes (machine env local rules load) s).
Proof. exact (same_reading local rules load s ls en). Qed.
Print Assumptions C103_same_outcome_partial.
(** Moments of UTC are the same moments, and a calendar that has no others is written in the same way. *)
Theorem C103_same_moment {env : Env} local rules load t t' : time_alike local rules load t t' -> t_loc t = LUTC ->
  t' = @Time (machine env local rules load) (t_sec t) (t_nsec t) LUTC.
Proof. exact (same_moment local rules load t t'). Qed.
Print Assumptions C103_same_moment.
Theorem C103_same_text {env : Env} local rules load {W E} (wr : W -> bytes -> W * option E) (w : W) cal cal' : sec_alike local rules load cal cal' -> all_utc cal ->
  @Encode (machine env local rules load) W E wr w cal' = Encode wr w cal.
Proof. exact (same_writing local rules load wr w cal cal'). Qed.
Print Assumptions C103_same_text.
(** Not every text that one machine reads is read by the other, and local moments are other moments. *)
Theorem C103_same_outcome_refuted : ~ (forall (env : Env) local s, (exists cal, decode_bytes s = Ok cal) ->
  exists cal', @decode_bytes (machine env local (@zone_lookup env) (@load_zone env)) s = Ok cal').
Proof. exact not_read_everywhere. Qed.
Print Assumptions C103_same_outcome_refuted.
Theorem C103_moments_refuted : ~ (forall (env : Env) local s cal cal', decode_bytes s = Ok cal ->
  @decode_bytes (machine env local (@zone_lookup env) (@load_zone env)) s = Ok cal' ->
  map t_sec (sec_times cal) = map (@t_sec _) (@sec_times (machine env local (@zone_lookup env) (@load_zone env)) cal')).
Proof. exact not_the_same_moments. Qed.
Print Assumptions C103_moments_refuted.
(** An event at noon of local time with a rule, on a machine at UTC and one an hour ahead: read by both. One with
    moments of UTC only. One with a rule that only the first machine takes. *)
Example C103_applies {env : Env} : (cut_into (lines_text noon_lines) noon_lines AtEnd /\ Forall (fun l => ~ mixed_line l) noon_lines) /\
  (@moments (at_hours env 0) (@decode_bytes (at_hours env 0) (lines_text noon_lines)) = Some [1704067200; 1704196800; 1735689600]%Z /\
   @moments (at_hours env 1) (@decode_bytes (at_hours env 1) (lines_text noon_lines)) = Some [1704067200; 1704193200; 1735686000]%Z) /\
  (exists cal, @decode_bytes (at_hours env 0) (lines_text stamp_lines) = Ok cal /\ @all_utc (at_hours env 0) cal /\ length (@sec_times (at_hours env 0) cal) = 3 /\
   exists cal', @decode_bytes (at_hours env 1) (lines_text stamp_lines) = Ok cal') /\
  (exists cal, @decode_bytes (at_hours env 0) (lines_text rule_lines) = Ok cal) /\ @decode_bytes (at_hours env 1) (lines_text rule_lines) = Err ErrInvalidRecur.
Proof. exact (conj noon_cut (conj noon_moments (conj stamp_case rule_read))). Qed.
