(** What Encode writes for a value, said by hand for each value type. *)
From Coq Require Import String Ascii ZArith Bool List.
From Verif Require Import Base Utf8 SpecContent GoTime Types SpecText SpecDuration SpecTime SpecRecur SpecLang SpecRule SpecCal SpecValid.
Import ListNotations.
Local Open Scope Z_scope.

(** ** INTEGER: digits without leading zeros, and a minus sign before them if the number is negative. *)
Definition short_decimal (ds : bytes) (n : Z) : Prop := decimal ds n /\ (n <> 0 -> forall r, ds <> "0"%char :: r) /\ (n = 0 -> ds = bs "0").
Definition integer_says (z : Z) (s : bytes) : Prop :=
  (0 <= z /\ short_decimal s z) \/ (z < 0 /\ exists ds, s = bs "-" ++ ds /\ short_decimal ds (- z)).

(** ** BINARY: RFC 4648 section 4, with the unused bits of the last group zero. *)
Inductive base64_says : bytes -> bytes -> Prop :=
| W64_end : base64_says [] []
| W64_one a b x va vb : sextet a va -> sextet b vb -> 64 * va + vb = 16 * code x -> base64_says [x] ([a; b] ++ bs "==")
| W64_two a b c x y va vb vc : sextet a va -> sextet b vb -> sextet c vc ->
    4096 * va + 64 * vb + vc = 4 * (256 * code x + code y) -> base64_says [x; y] ([a; b; c] ++ bs "=")
| W64_three a b c d x y z va vb vc vd s out : sextet a va -> sextet b vb -> sextet c vc -> sextet d vd ->
    262144 * va + 4096 * vb + 64 * vc + vd = 65536 * code x + 256 * code y + code z -> base64_says out s ->
    base64_says (x :: y :: z :: out) (a :: b :: c :: d :: s).

(** ** UTC-OFFSET: a minus sign if negative, and never a plus sign; seconds only if there are any. *)
Definition offset_says (u : Z) (s : bytes) : Prop := exists sign hh h mm m tail x,
  s = sign ++ hh ++ mm ++ tail /\ digits_of 2 hh h /\ digits_of 2 mm m /\ 0 <= h <= 99 /\ 0 <= m <= 59 /\ 0 <= x <= 59 /\
  Z.abs u = 3600 * h + 60 * m + x /\ ((x = 0 /\ tail = []) \/ (x <> 0 /\ digits_of 2 tail x)) /\
  ((u < 0 /\ sign = bs "-") \/ (0 <= u /\ sign = [])).

(** ** TEXT: line feeds, backslashes, commas and semicolons after a backslash, the rest as it is. *)
Inductive text_says : bytes -> bytes -> Prop :=
| WT_end : text_says [] []
| WT_line t s : text_says t s -> text_says (LF :: t) (bs "\n" ++ s)
| WT_mark c t s : In c ["\"; ","; ";"]%char -> text_says t s -> text_says (c :: t) ("\"%char :: c :: s)
| WT_plain c t s : ~ In c [LF; "\"; ","; ";"]%char -> text_says t s -> text_says (c :: t) (c :: s).
(** Texts with commas between them. *)
Inductive texts_say : list bytes -> bytes -> Prop :=
| WTs_none : texts_say [] []
| WTs_last t s : text_says t s -> texts_say [t] s
| WTs_more t s l r : l <> [] -> text_says t s -> texts_say l r -> texts_say (t :: l) (s ++ bs "," ++ r).

(** ** DURATION: weeks alone, or the other units. A minute of zero is written between hours and seconds, and
    a second of zero if there is nothing else; no other unit of zero is, and no plus sign. *)
Definition amount (there : Prop) (n : Z) (letter : bytes) (s : bytes) : Prop :=
  (there /\ exists ds, short_decimal ds n /\ s = ds ++ letter) \/ (~ there /\ s = []).
Definition clock_part (d : duration) (s : bytes) : Prop := exists h m x, s = bs "T" ++ h ++ m ++ x /\
  amount (d_hours d <> 0) (d_hours d) (bs "H") h /\
  amount (d_minutes d <> 0 \/ (d_hours d <> 0 /\ d_seconds d <> 0)) (d_minutes d) (bs "M") m /\
  amount (d_seconds d <> 0 \/ (d_hours d = 0 /\ d_minutes d = 0)) (d_seconds d) (bs "S") x.
Definition duration_says (d : duration) (s : bytes) : Prop := exists sign body, s = sign ++ bs "P" ++ body /\
  ((d_neg d = true /\ sign = bs "-") \/ (d_neg d = false /\ sign = [])) /\
  ((d_weeks d <> 0 /\ exists ds, short_decimal ds (d_weeks d) /\ body = ds ++ bs "W") \/
   (d_weeks d = 0 /\ exists days clock, body = days ++ clock /\ amount (d_days d <> 0) (d_days d) (bs "D") days /\
      ((d_days d <> 0 /\ d_hours d = 0 /\ d_minutes d = 0 /\ d_seconds d = 0 /\ clock = []) \/
       (~ (d_days d <> 0 /\ d_hours d = 0 /\ d_minutes d = 0 /\ d_seconds d = 0) /\ clock_part d clock)))).

Section Write.
Context {env : Env}.

(** ** DATE, DATE-TIME and TIME: the date and the clock that the location of the time shows. *)
Definition shown (t : time) (y mo d h mi x : Z) : Prop :=
  real_date y mo d /\ 0 <= h <= 23 /\ 0 <= mi <= 59 /\ 0 <= x <= 59 /\
  86400 * day_number y mo d + 3600 * h + 60 * mi + x = t_sec t + offset_at (t_loc t) (t_sec t).
Definition utc_mark (t : time) (s : bytes) : Prop := (t_loc t = LUTC /\ s = bs "Z") \/ (t_loc t <> LUTC /\ s = []).
Definition date_says (t : time) (s : bytes) : Prop := exists y mo d h mi x, shown t y mo d h mi x /\ date_text s y mo d.
Definition datetime_says (t : time) (s : bytes) : Prop := exists y mo d h mi x da c m, shown t y mo d h mi x /\
  s = da ++ bs "T" ++ c ++ m /\ date_text da y mo d /\ clock_digits c h mi x /\ utc_mark t m.
Definition time_says (t : time) (s : bytes) : Prop := exists y mo d h mi x c m, shown t y mo d h mi x /\
  s = c ++ m /\ clock_digits c h mi x /\ utc_mark t m.

(** ** PERIOD: a start, a slash, and the end or else the duration. *)
Definition period_says (p : period) (s : bytes) : Prop := exists a b, s = a ++ bs "/" ++ b /\ datetime_says (p_start p) a /\
  ((year_one (p_end p) /\ duration_says (p_dur p) b) \/ (~ year_one (p_end p) /\ datetime_says (p_end p) b)).

(** ** RECUR: the parts that are set, each once and always in this order. *)
Definition unsigned_says (v : Z) (w : bytes) : Prop := 0 <= v /\ integer_says v w.
Definition day_says (d : dayrecur) (w : bytes) : Prop := exists num word, w = num ++ word /\ In (word, dr_day d) weekdays /\
  ((dr_occ d = 0 /\ num = []) \/ (dr_occ d <> 0 /\ integer_says (dr_occ d) num)).
Definition part_says (p : rpart) (v : bytes) : Prop :=
  match p with
  | RFreq f => In (v, f) frequencies
  | RUntil true t => datetime_says t v
  | RUntil false t => date_says t v
  | RCount n | RInterval n => unsigned_says n v
  | RBySecond l | RByMinute l | RByHour l | RByMonth l => listed ","%char (fun w z => unsigned_says z w) v l
  | RByDay l => listed ","%char (fun w d => day_says d w) v l
  | RByMonthDay l | RByYearDay l | RByWeekNo l | RBySetPos l => listed ","%char (fun w z => integer_says z w) v l
  | RWkst d => In (v, d) weekdays
  end.
(** The parts of a rule: FREQ, then COUNT or else UNTIL, and so on; what is zero, empty or at the first
    moment of the year 1 is not set. *)
Inductive if_set {A} (unset : Prop) (a : A) : list A -> Prop :=
| Not_set : unset -> if_set unset a []
| Is_set : ~ unset -> if_set unset a [a].
Inductive rule_parts (r : recur) : list rpart -> Prop :=
| RP bound iv bse bmi bho bda bmd byd bwn bmo bsp wk :
    (if_set (r_count r = 0) (RCount (r_count r)) bound /\ r_count r <> 0 \/
     if_set (year_one (r_until r)) (RUntil (r_untiltime r) (r_until r)) bound /\ r_count r = 0) ->
    if_set (r_interval r = 0) (RInterval (r_interval r)) iv ->
    if_set (r_bysecond r = []) (RBySecond (r_bysecond r)) bse -> if_set (r_byminute r = []) (RByMinute (r_byminute r)) bmi ->
    if_set (r_byhour r = []) (RByHour (r_byhour r)) bho -> if_set (r_byday r = []) (RByDay (r_byday r)) bda ->
    if_set (r_bymonthday r = []) (RByMonthDay (r_bymonthday r)) bmd -> if_set (r_byyearday r = []) (RByYearDay (r_byyearday r)) byd ->
    if_set (r_byweekno r = []) (RByWeekNo (r_byweekno r)) bwn -> if_set (r_bymonth r = []) (RByMonth (r_bymonth r)) bmo ->
    if_set (r_bysetpos r = []) (RBySetPos (r_bysetpos r)) bsp -> if_set (r_wkst r = 0) (RWkst (r_wkst r)) wk ->
    rule_parts r (RFreq (r_freq r) :: bound ++ iv ++ bse ++ bmi ++ bho ++ bda ++ bmd ++ byd ++ bwn ++ bmo ++ bsp ++ wk).
Definition recur_says (r : recur) (s : bytes) : Prop := exists ps, rule_parts r ps /\
  listed ";"%char (fun w p => exists v, w = rname p ++ bs "=" ++ v /\ part_says p v) s ps.

(** ** FLOAT: the only numbers that are written are none. *)
Definition float_says (f : float) (s : bytes) : Prop :=
  (f = FNaN /\ s = bs "NaN") \/ (f = FInf false /\ s = bs "+Inf") \/ (f = FInf true /\ s = bs "-Inf").

Definition value_says (v : value) (s : bytes) : Prop :=
  match v with
  | VBinary b => base64_says b s
  | VBoolean b => (b = true /\ s = bs "TRUE") \/ (b = false /\ s = bs "FALSE")
  | VCalendarAddress u | VURI u => s = url_string u
  | VDate t => date_says t s
  | VDateTime t => datetime_says t s
  | VDuration d => duration_says d s
  | VFloat f => float_says f s
  | VTFloat (a, b) => exists x y, s = x ++ bs ";" ++ y /\ float_says a x /\ float_says b y
  | VInteger z => integer_says z s
  | VPeriod p => period_says p s
  | VRecur r => recur_says r s
  | VText t => text_says t s
  | VMText l => texts_say l s
  | VTime t => time_says t s
  | VUTCOffset u => offset_says u s
  end.

(** What has to hold besides being accepted: the Go types; years 0 to 9999, which four digits can say;
    texts in UTF-8; offsets of less than a hundred hours. *)
Definition value_writable (v : value) : Prop :=
  match v with
  | VDate t | VDateTime t => in_years t
  | VDuration d => dur_fits d
  | VPeriod p => in_years (p_start p) /\ (year_one (p_end p) -> dur_fits (p_dur p)) /\ (~ year_one (p_end p) -> in_years (p_end p))
  | VRecur r => recur_typed r /\ (r_count r = 0 -> ~ year_one (r_until r) -> in_years (r_until r))
  | VText t => utf8 t
  | VMText l => Forall utf8 l
  | VUTCOffset u => -360000 < u < 360000
  | _ => True
  end.
End Write.

(** ** What RFC 5545 allows *)

(** Section 3.3.7 *)
Definition float_rfc (s : bytes) : Prop := exists sign a f, s = sign ++ a ++ f /\ In sign [[]; bs "+"; bs "-"] /\
  (exists n, decimal a n) /\ (f = [] \/ exists b m, f = bs "." ++ b /\ decimal b m).
(** Section 3.3.11, and lists of texts as in section 3.8.1.2. *)
Inductive text_rfc : bytes -> Prop :=
| TR_end : text_rfc []
| TR_plain c s : value_char c = true -> ~ In c ["\"; ","; ";"]%char -> text_rfc s -> text_rfc (c :: s)
| TR_escape c s : In c ["\"; ","; ";"; "n"; "N"]%char -> text_rfc s -> text_rfc ("\"%char :: c :: s).
Inductive texts_rfc : bytes -> Prop :=
| TRs_last s : text_rfc s -> texts_rfc s
| TRs_more s r : text_rfc s -> texts_rfc r -> texts_rfc (s ++ bs "," ++ r).

Section Rfc.
Context {env : Env}.
Definition date_rfc (s : bytes) : Prop := exists y mo d, date_text s y mo d /\ real_date y mo d.
(** Section 3.3.9: the duration of a period is positive. *)
Definition period_rfc (tz : option bytes) (s : bytes) : Prop := exists a b, s = a ++ bs "/" ++ b /\ datetime_rfc tz a /\
  (datetime_rfc tz b \/ exists w d h m x, dur_value b false w d h m x).
(** Section 3.3.10 *)
Definition part_rfc (tz : option bytes) (v : bytes) (p : rpart) : Prop :=
  match p with
  | RUntil true _ => datetime_rfc tz v
  | RUntil false _ => date_rfc v
  | _ => rvalue day_rfc tz v p
  end.
Definition rule_rfc (tz : option bytes) (s : bytes) : Prop := exists ps,
  listed ";"%char (fun w p => exists v, w = rname p ++ bs "=" ++ v /\ part_rfc tz v p) s ps /\ parts_rfc ps.

(** A text of RFC 5545 for this value. What an address has to look like is not said here. *)
Definition value_rfc (v : value) (s : bytes) : Prop :=
  match v with
  | VBinary b => base64 s b
  | VBoolean b => (b = true /\ s = bs "TRUE") \/ (b = false /\ s = bs "FALSE")
  | VCalendarAddress _ | VURI _ => True
  | VDate _ => date_rfc s
  | VDateTime t => datetime_rfc (zone_of t) s
  | VDuration d => exists w d' h m x, dur_value s (d_neg d) w d' h m x
  | VFloat _ => float_rfc s
  | VTFloat _ => exists a b, s = a ++ bs ";" ++ b /\ float_rfc a /\ float_rfc b
  | VInteger z => integer_text s z
  | VPeriod p => period_rfc (zone_of (p_start p)) s
  | VRecur r => rule_rfc (zone_of (r_until r)) s
  | VText _ => text_rfc s
  | VMText _ => texts_rfc s
  | VTime t => time_rfc (zone_of t) s
  | VUTCOffset u => utcoffset_rfc s u
  end.
(** Values of the Go types. *)
Definition value_typed (v : value) : Prop :=
  match v with
  | VDuration d => dur_fits d
  | VPeriod p => dur_fits (p_dur p)
  | VRecur r => recur_typed r
  | VInteger z => - 2 ^ 31 <= z < 2 ^ 31
  | VUTCOffset u => - 2 ^ 63 <= u < 2 ^ 63
  | _ => True
  end.
(** Those for which a text of RFC 5545 is written: no number and no offset of zero or more is among them. *)
Definition conforms (v : value) : Prop :=
  match v with
  | VDate t | VDateTime t => in_years t
  | VFloat _ | VTFloat _ => False
  | VPeriod p => in_years (p_start p) /\ (~ year_one (p_end p) -> in_years (p_end p))
  | VRecur r => Forall (fun d => -53 <= dr_occ d <= 53) (r_byday r) /\ (r_count r = 0 -> ~ year_one (r_until r) -> in_years (r_until r))
  | VUTCOffset u => -86400 < u < 0
  | _ => True
  end.
End Rfc.
