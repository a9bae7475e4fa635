(** Property C130: moments in any location. [cal_at t] is a calendar with one event, which starts at [t]; [read_again] is what
    Decode makes of what Encode writes. *)
From Coq Require Import String ZArith List.
From Verif Require Import Base SpecContent GoTime Types PropTable Props SecTable Sections Codec SpecTime SpecClock SpecAbroad AbroadProofs Sample SampleOrder SampleAbroad.
Import ListNotations.
Local Open Scope Z_scope.

(** C130 is false: a moment in a location with no name, such as time.Parse makes of a numeric offset, is written with an empty
    TZID and read as that time of day in UTC, so that it is moved by the offset; ... *)
Theorem C130_unnamed_zone_refuted {env : Env} t z i : t_loc t = LZone z i -> zone_name z = [] -> in_years t -> is_zero t = false ->
  read_again (cal_at t) (Ok (cal_at (Time (t_sec t + offset_at (t_loc t) (t_sec t)) 0 LUTC))).
Proof. exact (unnamed_moved t z i). Qed.
Print Assumptions C130_unnamed_zone_refuted.

(** ... with a name that the system does not know, Encode succeeds and Decode fails on what it wrote; ... *)
Theorem C130_unknown_zone_refuted {env : Env} t z i :
  t_loc t = LZone z i -> forallb safe_char (zone_name z) = true -> in_years t -> is_zero t = false -> load_location 0 (zone_name z) = None ->
  read_again (cal_at t) (Err ErrStd).
Proof. exact (unknown_refused t z i). Qed.
Print Assumptions C130_unknown_zone_refuted.

(** ... and with a name that the system gives to a location of its own, what is read is a moment in that location at which the
    clocks there show the same: another moment, if their offsets differ. *)
Theorem C130_other_zone_refuted {env : Env} t z i l x :
  t_loc t = LZone z i -> forallb safe_char (zone_name z) = true -> in_years t -> is_zero t = false -> load_location 0 (zone_name z) = Some l ->
  coherent l -> bounded l -> calm l x -> clock_shows l x (t_sec t + offset_at (t_loc t) (t_sec t)) ->
  exists t', read_again (cal_at t) (Ok (cal_at t')) /\ t_loc t' = l /\ clock_shows l (t_sec t') (t_sec t + offset_at (t_loc t) (t_sec t)) /\
    (offset_at l (t_sec t) <> offset_at (t_loc t) (t_sec t) -> t_sec t' <> t_sec t).
Proof. exact (named_kept t z i l x). Qed.
Print Assumptions C130_other_zone_refuted.

(** What is missing are these locations, fractions of a second, and times of day that clocks show twice (C28): other moments are
    read again as they were. *)
Theorem C130_same_moment_partial {env : Env} t : moment_good 0 t -> is_zero t = false -> read_again (cal_at t) (Ok (cal_at t)).
Proof. exact (good_kept t). Qed.
Print Assumptions C130_same_moment_partial.

Example C130_applies :
  (@zone_name env0 (bs "") = [] /\ in_years (abroad "") /\ is_zero (abroad "") = false /\ @offset_at env0 (t_loc (abroad "")) (t_sec (abroad "")) = 3600) /\
  (forallb safe_char (@zone_name env0 (bs "UTC+1")) = true /\ @load_location env0 0 (@zone_name env0 (bs "UTC+1")) = None /\ in_years (abroad "UTC+1") /\ is_zero (abroad "UTC+1") = false) /\
  (@load_location env0 0 (@zone_name env0 (bs "UTC")) = Some LUTC /\ in_years (abroad "UTC") /\ is_zero (abroad "UTC") = false /\ @coherent env0 LUTC /\ @bounded env0 LUTC /\ @calm env0 LUTC 1709283600 /\
   @clock_shows env0 LUTC 1709283600 (1709280000 + @offset_at env0 (t_loc (abroad "UTC")) 1709280000) /\ @offset_at env0 LUTC 1709280000 <> @offset_at env0 (t_loc (abroad "UTC")) 1709280000) /\
  (@moment_good env0 0 (abroad "Europe/Town") /\ is_zero (abroad "Europe/Town") = false).
Proof. exact abroad_case. Qed.
