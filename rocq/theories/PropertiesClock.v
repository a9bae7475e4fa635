(** Property C128: clocks. [text_reading s u ns]: the text [s], without Z, says [u] and [ns]; [clock_shows l x u]: at the moment [x] the clocks
    of [l] show [u]; [written_in m l]: the parameter TZID is as it is written for moments at [l] (SpecClock.v). [coherent], [bounded]: the zone has offsets
    of less than a day and says until when they hold; [calm l x]: within two days of [x] it has no more than two (SpecTime.v). *)
From Coq Require Import String Ascii ZArith Bool List.
From Verif Require Import Base GoTime Types SpecTime SpecClock ClockProofs SampleClock.
Import ListNotations.
Local Open Scope Z_scope.

(** C128: a date-time is read as a moment at which the clocks of its zone show what it says, if there is one; ... *)
Theorem C128_shown {env : Env} m s t u ns x : value_decode KDateTime m s = Ok (VDateTime t) -> text_reading s u ns -> coherent (t_loc t) -> bounded (t_loc t) ->
  calm (t_loc t) x -> clock_shows (t_loc t) x u -> clock_shows (t_loc t) (t_sec t) u /\ t_nsec t = ns.
Proof. exact (read_shows m s t u ns x). Qed.
Print Assumptions C128_shown.
(** ... and in any case by an offset that the zone has within a day of it. *)
Theorem C128_near {env : Env} m s t u ns : value_decode KDateTime m s = Ok (VDateTime t) -> text_reading s u ns -> bounded (t_loc t) ->
  exists z, u - 86400 < z < u + 86400 /\ t_sec t = u - offset_at (t_loc t) z.
Proof. exact (read_near m s t u ns). Qed.
Print Assumptions C128_near.
(** A moment that is written and read again has the same reading, and is written the same again, also where clocks are put back. *)
Theorem C128_written_and_read {env : Env} m t : let l := t_loc t in written_in m l -> coherent l -> bounded l -> calm l (t_sec t) -> in_years t ->
  exists t', value_decode KDateTime m (concat (value_encode (VDateTime t))) = Ok (VDateTime t') /\ t_loc t' = l /\ t_nsec t' = 0 /\
    clock_shows l (t_sec t') (t_sec t + offset_at l (t_sec t)) /\ value_encode (VDateTime t') = value_encode (VDateTime t).
Proof. exact (written_shows m t). Qed.
Print Assumptions C128_written_and_read.
(** It is not always the same moment: of two moments with the same reading one is lost. *)
Theorem C128_one_of_two {env : Env} m l x y : x <> y -> x + offset_at l x = y + offset_at l y ->
  value_encode (VDateTime (Time x 0 l)) = value_encode (VDateTime (Time y 0 l)) /\
  ~ (value_decode KDateTime m (concat (value_encode (VDateTime (Time x 0 l)))) = Ok (VDateTime (Time x 0 l)) /\ value_decode KDateTime m (concat (value_encode (VDateTime (Time y 0 l)))) = Ok (VDateTime (Time y 0 l))).
Proof. exact (overlap_lost m l x y). Qed.
Print Assumptions C128_one_of_two.
Example C128_applies : @coherent env_autumn LLocal /\ @bounded env_autumn LLocal /\ (forall x, @calm env_autumn LLocal x) /\ text_reading (bs "20241027T013000") (autumn + 1800) 0 /\
  @clock_shows env_autumn LLocal (autumn - 1800) (autumn + 1800) /\ @clock_shows env_autumn LLocal (autumn + 1800) (autumn + 1800) /\
  @value_decode env_autumn KDateTime [] (bs "20241027T013000") = Ok (VDateTime (Time (autumn + 1800) 0 LLocal)).
Proof. exact autumn_case. Qed.
