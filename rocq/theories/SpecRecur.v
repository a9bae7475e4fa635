(** Ranges of recurrence rules: RFC 5545 section 3.3.10. *)
From Coq Require Import ZArith List.
From Verif Require Import Base GoTime Types SpecTime.
Import ListNotations.
Local Open Scope Z_scope.

Section Recur.
Context {env : Env}.

Definition within (lo hi : Z) (l : list Z) : Prop := Forall (fun v => lo <= v <= hi) l.
Definition within_signed (hi : Z) (l : list Z) : Prop := Forall (fun v => v <> 0 /\ - hi <= v <= hi) l.

(** Days are 1 (Sunday) to 7 (Saturday); an ordinal of 0 and a week start of 0 are unset. *)
Definition recur_in_range (r : recur) : Prop :=
  0 <= r_freq r <= 6 /\ 0 <= r_wkst r <= 7 /\ 0 <= r_count r < 2 ^ 64 /\ 0 <= r_interval r < 2 ^ 64 /\
  within 0 60 (r_bysecond r) /\ within 0 59 (r_byminute r) /\ within 0 23 (r_byhour r) /\
  Forall (fun d => 1 <= dr_day d <= 7 /\ -53 <= dr_occ d <= 53) (r_byday r) /\
  within_signed 31 (r_bymonthday r) /\ within_signed 366 (r_byyearday r) /\ within_signed 53 (r_byweekno r) /\
  within 1 12 (r_bymonth r) /\ within_signed 366 (r_bysetpos r) /\
  (r_count r = 0 \/ is_zero (r_until r) = true).

(** The Go types of the components: types.go:565, 579, 594, 615-637. *)
Definition recur_typed (r : recur) : Prop :=
  0 <= r_freq r < 256 /\ 0 <= r_wkst r < 256 /\ 0 <= r_count r < 2 ^ 64 /\ 0 <= r_interval r < 2 ^ 64 /\
  within 0 255 (r_bysecond r) /\ within 0 255 (r_byminute r) /\ within 0 255 (r_byhour r) /\
  Forall (fun d => 0 <= dr_day d < 256 /\ -128 <= dr_occ d < 128) (r_byday r) /\
  within (-128) 127 (r_bymonthday r) /\ within (-32768) 32767 (r_byyearday r) /\ within (-128) 127 (r_byweekno r) /\
  within 0 255 (r_bymonth r) /\ within (-32768) 32767 (r_bysetpos r).

(** What validation overlooks. *)
Definition recur_sensible (r : recur) : Prop :=
  Forall (fun d => -53 <= dr_occ d <= 53) (r_byday r) /\ (r_count r = 0 \/ is_zero (r_until r) = true).

(** The until of a rule: unset, or a time that survives (see [moment_good]), or a date in the years 0
    to 9999. *)
Definition until_good (r : recur) : Prop :=
  (r_until r = zero_time /\ r_untiltime r = false) \/
  (is_zero (r_until r) = false /\
    ((r_untiltime r = true /\ moment_good 0 (r_until r)) \/
     (r_untiltime r = false /\ utc_in_years (r_until r) /\ t_sec (r_until r) mod 86400 = 0))).
End Recur.
