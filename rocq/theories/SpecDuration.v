(** Specification of durations: the grammar of RFC 5545 section 3.3.6. *)
From Coq Require Import String Ascii ZArith Bool List.
From Verif Require Import Base Types.
Import ListNotations.
Local Open Scope Z_scope.

(** [decimal ds n]: [ds] is one or more digits, leading zeros allowed, of the number [n]. *)
Definition decimal_value (ds : bytes) : Z := fold_left (fun a c => 10 * a + (code c - 48)) ds 0.
Definition decimal (ds : bytes) (n : Z) : Prop :=
  ds <> [] /\ Forall (fun c => 48 <= code c <= 57) ds /\ n = decimal_value ds.

Inductive dur_second : bytes -> Z -> Prop :=
| Second ds s : decimal ds s -> dur_second (ds ++ bs "S") s.
Inductive dur_minute : bytes -> Z -> Z -> Prop :=
| Minute ds m : decimal ds m -> dur_minute (ds ++ bs "M") m 0
| MinuteSecond ds m t s : decimal ds m -> dur_second t s -> dur_minute (ds ++ bs "M" ++ t) m s.
Inductive dur_hour : bytes -> Z -> Z -> Z -> Prop :=
| Hour ds h : decimal ds h -> dur_hour (ds ++ bs "H") h 0 0
| HourMinute ds h t m s : decimal ds h -> dur_minute t m s -> dur_hour (ds ++ bs "H" ++ t) h m s.
Inductive dur_time : bytes -> Z -> Z -> Z -> Prop :=
| TimeHour t h m s : dur_hour t h m s -> dur_time (bs "T" ++ t) h m s
| TimeMinute t m s : dur_minute t m s -> dur_time (bs "T" ++ t) 0 m s
| TimeSecond t s : dur_second t s -> dur_time (bs "T" ++ t) 0 0 s.

(** The part after P: weeks, days, hours, minutes, seconds. *)
Inductive dur_body : bytes -> Z -> Z -> Z -> Z -> Z -> Prop :=
| Weeks ds w : decimal ds w -> dur_body (ds ++ bs "W") w 0 0 0 0
| Days ds d : decimal ds d -> dur_body (ds ++ bs "D") 0 d 0 0 0
| DaysTime ds d t h m s : decimal ds d -> dur_time t h m s -> dur_body (ds ++ bs "D" ++ t) 0 d h m s
| JustTime t h m s : dur_time t h m s -> dur_body t 0 0 h m s.

(** [neg]: a minus sign; a plus sign may be left out. *)
Inductive dur_value : bytes -> bool -> Z -> Z -> Z -> Z -> Z -> Prop :=
| Minus t w d h m s : dur_body t w d h m s -> dur_value (bs "-P" ++ t) true w d h m s
| Plus t w d h m s : dur_body t w d h m s -> dur_value (bs "+P" ++ t) false w d h m s
| Unsigned t w d h m s : dur_body t w d h m s -> dur_value (bs "P" ++ t) false w d h m s.

(** Machine ranges, and weeks not mixed with other units. *)
Definition dur_fits (d : duration) : Prop :=
  0 <= d_weeks d < 2 ^ 64 /\ 0 <= d_days d < 2 ^ 64 /\ 0 <= d_hours d < 2 ^ 64 /\
  0 <= d_minutes d < 2 ^ 64 /\ 0 <= d_seconds d < 2 ^ 64.
Definition dur_plain (d : duration) : Prop :=
  d_weeks d = 0 \/ (d_days d = 0 /\ d_hours d = 0 /\ d_minutes d = 0 /\ d_seconds d = 0).
