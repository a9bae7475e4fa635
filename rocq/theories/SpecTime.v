(** Specification of dates and of time zones, independent of the parser and formatter. *)
From Coq Require Import String Ascii ZArith Bool List.
From Verif Require Import Base SpecContent GoTime SpecDuration.
Import ListNotations.
Local Open Scope Z_scope.

(** The Gregorian calendar, extended to all years. *)
Definition leap_year (y : Z) : Prop := (4 | y) /\ (~ (100 | y) \/ (400 | y)).
Definition month_length (y m len : Z) : Prop :=
  (In m [1; 3; 5; 7; 8; 10; 12] /\ len = 31) \/ (In m [4; 6; 9; 11] /\ len = 30) \/
  (m = 2 /\ leap_year y /\ len = 29) \/ (m = 2 /\ ~ leap_year y /\ len = 28).
Definition real_date (y m d : Z) : Prop := exists len, month_length y m len /\ 1 <= d <= len.

(** Days from 0001-01-01 to the first of January of year [y], from there to the first of the month,
    and from there to the day; then from 1970-01-01. *)
Definition days_before_month : list Z := [0; 31; 59; 90; 120; 151; 181; 212; 243; 273; 304; 334].
Definition day_number (y m d : Z) : Z :=
  365 * (y - 1) + (y - 1) / 4 - (y - 1) / 100 + (y - 1) / 400 +
  nth (Z.to_nat (m - 1)) days_before_month 0 +
  (if (2 <? m) && ((y mod 4 =? 0) && (negb (y mod 100 =? 0) || (y mod 400 =? 0))) then 1 else 0) + d - 719163.

(** A date: four digits of year, two of month, two of day. *)
Definition date_text (s : bytes) (y m d : Z) : Prop := exists dy dm dd, s = dy ++ dm ++ dd /\
  length dy = 4%nat /\ length dm = 2%nat /\ length dd = 2%nat /\ decimal dy y /\ decimal dm m /\ decimal dd d.

Section Zones.
Context {env : Env}.

(** The interval that a lookup reports has one offset. *)
Definition coherent (l : loc) : Prop := forall x, let '(o, st, en) := lookup l x in
  forall y, st <= y < en -> offset_at l y = o.
(** All offsets are less than a day. *)
Definition bounded (l : loc) : Prop := forall x, - 86400 < offset_at l x < 86400.
(** No other instant has the wall clock reading of [s]. *)
Definition unambiguous (l : loc) (s : Z) : Prop :=
  forall u, u + offset_at l u = s + offset_at l s -> u = s.
(** Within two days of [s] the zone has at most two offsets. *)
Definition calm (l : loc) (s : Z) : Prop := exists o,
  forall x, s - 172800 < x < s + 172800 -> offset_at l x = offset_at l s \/ offset_at l x = o.
(** A decoded date-time: the date exists, the clock is in range, and the instant is the reading less
    an offset of its location. *)
Definition reads_as (s : bytes) (t : time) : Prop := exists y mo d h mi x dt rest u,
  s = dt ++ bs "T" ++ rest /\ date_text dt y mo d /\ real_date y mo d /\ 0 <= y <= 9999 /\
  0 <= h <= 23 /\ 0 <= mi <= 59 /\ 0 <= x <= 59 /\
  t_sec t = 86400 * day_number y mo d + 3600 * h + 60 * mi + x - offset_at (t_loc t) u.

(** The wall clock shows a year from 0 to 9999. *)
Definition in_years (t : time) : Prop := -62167219200 <= wall t < 253402300800.
Definition utc_in_years (t : time) : Prop := exists sec, t = Time sec 0 LUTC /\ -62167219200 <= sec < 253402300800.
(** A moment with whole seconds in the years 0 to 9999. Outside UTC its wall clock reading names no
    other moment (see C28), and the zone can be loaded by its name, which needs no quotes. *)
Definition settled (l : loc) (t : time) : Prop := coherent l /\ bounded l /\ unambiguous l (t_sec t) /\ calm l (t_sec t).
Definition moment_good (id : nat) (t : time) : Prop := t_nsec t = 0 /\ in_years t /\
  match t_loc t with
  | LUTC => True
  | LLocal => settled LLocal t
  | LZone z i => i = id /\ load_location id (zone_name z) = Some (LZone z id) /\ forallb safe_char (zone_name z) = true /\ settled (LZone z id) t
  end.
(** The zone that is written before a time. *)
Definition zone_of (t : time) : option bytes := match t_loc t with LZone z _ => Some (zone_name z) | _ => None end.
End Zones.
