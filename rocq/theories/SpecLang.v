(** The texts that are read as values, written out by hand for each value type. *)
From Coq Require Import String Ascii ZArith Bool List.
From Verif Require Import Base GoTime Types SpecText SpecDuration SpecTime.
Import ListNotations.
Local Open Scope Z_scope.

(** ** INTEGER: RFC 5545 section 3.3.8 *)

(** An optional sign and digits. *)
Definition signed_text (s : bytes) (z : Z) : Prop := exists ds n, decimal ds n /\
  ((s = ds /\ z = n) \/ (s = bs "+" ++ ds /\ z = n) \/ (s = bs "-" ++ ds /\ z = - n)).
Definition integer_text (s : bytes) (z : Z) : Prop := signed_text s z /\ -2147483648 <= z <= 2147483647.

(** ** UTC-OFFSET: RFC 5545 section 3.3.14 *)

(** [w] digits of the number [n]. *)
Definition digits_of (w : nat) (ds : bytes) (n : Z) : Prop := decimal ds n /\ length ds = w.

(** Two digits of hours, two of minutes and, possibly, two of seconds, from 00 to the largest of each. *)
Definition utcoffset_digits (max_h max_s : Z) (s : bytes) (secs : Z) : Prop := exists hh h mm m,
  digits_of 2 hh h /\ digits_of 2 mm m /\ 0 <= h <= max_h /\ 0 <= m <= 59 /\
  ((s = hh ++ mm /\ secs = 3600 * h + 60 * m) \/
   (exists ss x, s = hh ++ mm ++ ss /\ digits_of 2 ss x /\ 0 <= x <= max_s /\ secs = 3600 * h + 60 * m + x)).

(** What RFC 5545 allows: a sign, hours to 23, seconds to 60, no negative zero. *)
Definition utcoffset_rfc (s : bytes) (u : Z) : Prop := exists ds n, utcoffset_digits 23 60 ds n /\
  ((s = bs "+" ++ ds /\ u = n) \/ (s = bs "-" ++ ds /\ u = - n /\ n <> 0)).
(** What is read: the sign may be missing, hours go to 99 and seconds to 59. *)
Definition utcoffset_text (s : bytes) (u : Z) : Prop := exists ds n, utcoffset_digits 99 59 ds n /\
  ((s = ds /\ u = n) \/ (s = bs "+" ++ ds /\ u = n) \/ (s = bs "-" ++ ds /\ u = - n /\ n <> 0)).

(** ** BINARY: RFC 5545 section 3.3.1, RFC 4648 section 4 *)

(** The number of a letter of the alphabet A-Z, a-z, 0-9, +, /. *)
Definition sextet (c : byte) (v : Z) : Prop :=
  (65 <= code c <= 90 /\ v = code c - 65) \/ (97 <= code c <= 122 /\ v = code c - 97 + 26) \/
  (48 <= code c <= 57 /\ v = code c - 48 + 52) \/ (code c = 43 /\ v = 62) \/ (code c = 47 /\ v = 63).

(** Groups of four letters for three bytes; the last group may be two letters for one byte or three for
    two bytes, filled up with "=", and its unused bits may be anything. *)
Inductive base64 : bytes -> bytes -> Prop :=
| B64_end : base64 [] []
| B64_one a b x va vb junk : sextet a va -> sextet b vb -> 0 <= junk < 16 -> 64 * va + vb = 16 * code x + junk ->
    base64 ([a; b] ++ bs "==") [x]
| B64_two a b c x y va vb vc junk : sextet a va -> sextet b vb -> sextet c vc -> 0 <= junk < 4 ->
    4096 * va + 64 * vb + vc = 4 * (256 * code x + code y) + junk -> base64 ([a; b; c] ++ bs "=") [x; y]
| B64_three a b c d x y z va vb vc vd s out : sextet a va -> sextet b vb -> sextet c vc -> sextet d vd ->
    262144 * va + 4096 * vb + 64 * vc + vd = 65536 * code x + 256 * code y + code z -> base64 s out ->
    base64 (a :: b :: c :: d :: s) (x :: y :: z :: out).

(** Line breaks within the text are skipped. *)
Inductive no_breaks : bytes -> bytes -> Prop :=
| NB_end : no_breaks [] []
| NB_skip c s r : code c = 13 \/ code c = 10 -> no_breaks s r -> no_breaks (c :: s) r
| NB_keep c s r : code c <> 13 -> code c <> 10 -> no_breaks s r -> no_breaks (c :: s) (c :: r).

(** ** DATE, TIME and DATE-TIME: RFC 5545 sections 3.3.4, 3.3.5 and 3.3.12 *)

(** Two digits each of hours, minutes and seconds. *)
Definition clock_digits (s : bytes) (h mi x : Z) : Prop := exists hh mm ss, s = hh ++ mm ++ ss /\
  digits_of 2 hh h /\ digits_of 2 mm mi /\ digits_of 2 ss x.
(** A fraction of a second: a point or a comma and digits; the nanoseconds, rounded down. *)
Definition fraction (s : bytes) (ns : Z) : Prop := (s = [] /\ ns = 0) \/
  exists c ds n, s = c :: ds /\ (c = "."%char \/ c = ","%char) /\ decimal ds n /\ ns = n * 10 ^ 9 / 10 ^ Z.of_nat (length ds).
(** A time of day as it is read. RFC 5545 has no fractions, and seconds go to 60 there. *)
Definition clock_text (s : bytes) (h mi x ns : Z) : Prop := exists a f, s = a ++ f /\
  clock_digits a h mi x /\ 0 <= h <= 23 /\ 0 <= mi <= 59 /\ 0 <= x <= 59 /\ fraction f ns.
Definition clock_rfc (s : bytes) (h mi x : Z) : Prop :=
  clock_digits s h mi x /\ 0 <= h <= 23 /\ 0 <= mi <= 59 /\ 0 <= x <= 60.

Section Zones.
Context {env : Env}.

(** Where the time is: in the zone of TZID, without Z; else in UTC, with Z; else in local time. [s] is the
    text up to the Z. *)
Definition placed (id : nat) (tzid : option bytes) (text s : bytes) (l : loc) : Prop :=
  match tzid with
  | Some tz => text = s /\ load_location id tz = Some l
  | None => (text = s ++ bs "Z" /\ l = LUTC) \/ (text = s /\ l = LLocal)
  end.

(** A date, T and a time of day; [go_date] is the instant that time.Date finds for that reading. *)
Definition datetime_text (id : nat) (tzid : option bytes) (text : bytes) (t : time) : Prop :=
  exists d c y mo da h mi x ns l, placed id tzid text (d ++ bs "T" ++ c) l /\ date_text d y mo da /\ real_date y mo da /\
    clock_text c h mi x ns /\ t = go_date y mo da h mi x ns l.
(** A time of day, on the first of January of the year 0. *)
Definition time_text (tzid : option bytes) (text : bytes) (t : time) : Prop :=
  exists c h mi x ns l, placed 0 tzid text c l /\ clock_text c h mi x ns /\ t = go_date 0 1 1 h mi x ns l.
End Zones.

(** ** DURATION: RFC 5545 section 3.3.6 *)

Inductive dunit := Week | Day | Hour' | Minute' | Second'.
Definition unit_letter (u : dunit) : bytes :=
  match u with Week => bs "W" | Day => bs "D" | Hour' => bs "H" | Minute' => bs "M" | Second' => bs "S" end.
(** Larger units come first. *)
Definition unit_rank (u : dunit) : Z := match u with Week => 0 | Day => 1 | Hour' => 2 | Minute' => 3 | Second' => 4 end.

(** One number with its unit, perhaps after a T. *)
Record dpart := DPart { dp_T : bool; dp_digits : bytes; dp_num : Z; dp_unit : dunit }.
Definition part_text (p : dpart) : bytes := (if dp_T p then bs "T" else []) ++ dp_digits p ++ unit_letter (dp_unit p).

(** Parts one after the other: the later one is of a smaller unit, or has its own T. *)
Definition part_follows (p q : dpart) : Prop := dp_T q = true \/ unit_rank (dp_unit p) < unit_rank (dp_unit q).
Fixpoint parts_chain (l : list dpart) : Prop :=
  match l with
  | p :: (q :: _) as l' => part_follows p q /\ parts_chain l'
  | _ => True
  end.

(** The number given last for a unit. *)
Fixpoint unit_value (u : dunit) (l : list dpart) (z : Z) : Z :=
  match l with
  | [] => z
  | p :: l' => unit_value u l' (match u, dp_unit p with
                                | Week, Week | Day, Day | Hour', Hour' | Minute', Minute' | Second', Second' => dp_num p
                                | _, _ => z
                                end)
  end.

(** Weeks alone; or parts of other units, days only at the start and without T, seconds only at the end, and
    more than a lone number of seconds without T. *)
Definition parts_read (l : list dpart) : Prop :=
  l <> [] /\ Forall (fun p => decimal (dp_digits p) (dp_num p) /\ dp_num p < 2 ^ 64) l /\
  ((exists p, l = [p] /\ dp_unit p = Week /\ dp_T p = false) \/
   (Forall (fun p => dp_unit p <> Week) l /\ parts_chain l /\
    Forall (fun p => dp_unit p = Day -> dp_T p = false) l /\ Forall (fun p => dp_unit p <> Day) (tl l) /\
    Forall (fun p => dp_unit p <> Second') (removelast l) /\ (forall p, l = [p] -> dp_unit p = Second' -> dp_T p = true))).

Definition duration_text (s : bytes) (d : duration) : Prop := exists sign l, parts_read l /\
  s = sign ++ bs "P" ++ concat (map part_text l) /\
  ((sign = bs "-" /\ d_neg d = true) \/ ((sign = bs "+" \/ sign = []) /\ d_neg d = false)) /\
  d_weeks d = unit_value Week l 0 /\ d_days d = unit_value Day l 0 /\ d_hours d = unit_value Hour' l 0 /\
  d_minutes d = unit_value Minute' l 0 /\ d_seconds d = unit_value Second' l 0.

(** ** PERIOD: RFC 5545 section 3.3.9 *)
Section Periods.
Context {env : Env}.
(** A start, a slash, and an end or a duration that is not written with a minus sign. *)
Definition period_text (tzid : option bytes) (s : bytes) (p : period) : Prop := exists a b, s = a ++ bs "/" ++ b /\
  datetime_text 0 tzid a (p_start p) /\
  ((duration_text b (p_dur p) /\ d_neg (p_dur p) = false /\ p_end p = zero_time) \/
   (datetime_text 1 tzid b (p_end p) /\ p_dur p = zero_duration)).
End Periods.

(** ** Lists of TEXT: RFC 5545 sections 3.1.1 and 3.3.11 *)

(** Texts with commas between them ([reads] takes one text off the front). *)
Inductive texts : bytes -> list bytes -> Prop :=
| Texts_last s t : reads s t [] -> texts s [t]
| Texts_more s t r l : reads s t (","%char :: r) -> texts r l -> texts s (t :: l).

(** ** What RFC 5545 says of date-times and times of day *)
Definition datetime_rfc (tzid : option bytes) (text : bytes) : Prop := exists d c y mo da h mi x,
  (match tzid with Some _ => text = d ++ bs "T" ++ c | None => text = d ++ bs "T" ++ c \/ text = d ++ bs "T" ++ c ++ bs "Z" end) /\
  date_text d y mo da /\ real_date y mo da /\ clock_rfc c h mi x.
Definition time_rfc (tzid : option bytes) (text : bytes) : Prop := exists c h mi x,
  (match tzid with Some _ => text = c | None => text = c \/ text = c ++ bs "Z" end) /\ clock_rfc c h mi x.

(** ** FLOAT and pairs of them: RFC 5545 sections 3.3.7 and 3.8.1.6 *)

(** Two letters that differ at most in case. *)
Definition same_letter (c d : byte) : Prop := c = d \/ (65 <= code c <= 90 /\ code d = code c + 32).
Definition spelled (w : string) (s : bytes) : Prop := Forall2 same_letter s (bs w).
Section Floats.
Context {env : Env}.
(** Not a number, an infinity, or what strconv reads as a finite number. RFC 5545 has only the last. *)
Definition float_text (s : bytes) (f : float) : Prop :=
  (spelled "nan" s /\ f = FNaN) \/
  ((spelled "inf" s \/ spelled "+inf" s \/ spelled "infinity" s \/ spelled "+infinity" s) /\ f = FInf false) \/
  ((spelled "-inf" s \/ spelled "-infinity" s) /\ f = FInf true) \/
  ((forall w, In w ["nan"; "inf"; "+inf"; "infinity"; "+infinity"; "-inf"; "-infinity"]%string -> ~ spelled w s) /\
   exists x, fin_parse s = Some x /\ f = FFin x).
Definition pair_text (s : bytes) (p : float * float) : Prop := exists a b, s = a ++ bs ";" ++ b /\ ~ In ";"%char a /\
  float_text a (fst p) /\ float_text b (snd p).
End Floats.
