(** The texts that are read as recurrence rules, and those of RFC 5545 section 3.3.10. *)
From Coq Require Import String Ascii ZArith Bool List.
From Verif Require Import Base GoTime Types SpecDuration SpecTime SpecLang.
Import ListNotations.
Local Open Scope Z_scope.

(** Items with separators between them; no item has the separator in it. *)
Inductive listed {A} (sep : byte) (P : bytes -> A -> Prop) : bytes -> list A -> Prop :=
| L_one w a : P w a -> ~ In sep w -> listed sep P w [a]
| L_more w a s l : P w a -> ~ In sep w -> listed sep P s l -> listed sep P (w ++ sep :: s) (a :: l).

Definition frequencies : list (bytes * Z) :=
  [(bs "SECONDLY", 0); (bs "MINUTELY", 1); (bs "HOURLY", 2); (bs "DAILY", 3); (bs "WEEKLY", 4); (bs "MONTHLY", 5); (bs "YEARLY", 6)].
Definition weekdays : list (bytes * Z) :=
  [(bs "SU", 1); (bs "MO", 2); (bs "TU", 3); (bs "WE", 4); (bs "TH", 5); (bs "FR", 6); (bs "SA", 7)].

(** Numbers of a BY list, without and with a sign. *)
Definition unsigned_item (lo hi : Z) (w : bytes) (v : Z) : Prop := decimal w v /\ lo <= v <= hi.
Definition signed_item (hi : Z) (w : bytes) (v : Z) : Prop := signed_text w v /\ v <> 0 /\ - hi <= v <= hi.

(** A day of the week, perhaps after a number from 1 to 53 with or without a sign: RFC 5545. *)
Definition day_rfc (w : bytes) (d : dayrecur) : Prop := exists num word, w = num ++ word /\ In (word, dr_day d) weekdays /\
  ((num = [] /\ dr_occ d = 0) \/
   (exists ds n, decimal ds n /\ (length ds <= 2)%nat /\ 1 <= n <= 53 /\
     ((num = ds /\ dr_occ d = n) \/ (num = bs "+" ++ ds /\ dr_occ d = n) \/ (num = bs "-" ++ ds /\ dr_occ d = - n)))).
(** What is read: a plus sign need not have a number. *)
Definition day_text (w : bytes) (d : dayrecur) : Prop :=
  day_rfc w d \/ (exists word, w = bs "+" ++ word /\ In (word, dr_day d) weekdays /\ dr_occ d = 0).

Section Rules.
Context {env : Env}.

(** The parts of a rule. *)
Inductive rpart :=
| RFreq (f : Z) | RUntil (timed : bool) (t : time) | RCount (n : Z) | RInterval (n : Z)
| RBySecond (l : list Z) | RByMinute (l : list Z) | RByHour (l : list Z) | RByDay (l : list dayrecur)
| RByMonthDay (l : list Z) | RByYearDay (l : list Z) | RByWeekNo (l : list Z) | RByMonth (l : list Z)
| RBySetPos (l : list Z) | RWkst (d : Z).

Definition rname (p : rpart) : bytes :=
  match p with
  | RFreq _ => bs "FREQ" | RUntil _ _ => bs "UNTIL" | RCount _ => bs "COUNT" | RInterval _ => bs "INTERVAL"
  | RBySecond _ => bs "BYSECOND" | RByMinute _ => bs "BYMINUTE" | RByHour _ => bs "BYHOUR" | RByDay _ => bs "BYDAY"
  | RByMonthDay _ => bs "BYMONTHDAY" | RByYearDay _ => bs "BYYEARDAY" | RByWeekNo _ => bs "BYWEEKNO"
  | RByMonth _ => bs "BYMONTH" | RBySetPos _ => bs "BYSETPOS" | RWkst _ => bs "WKST"
  end.

(** The value of a part; [days] says what a day may look like. *)
Definition rvalue (days : bytes -> dayrecur -> Prop) (tz : option bytes) (v : bytes) (p : rpart) : Prop :=
  match p with
  | RFreq f => In (v, f) frequencies
  | RUntil true t => datetime_text 0 tz v t
  | RUntil false t => exists y mo d, date_text v y mo d /\ real_date y mo d /\ t = Time (86400 * day_number y mo d) 0 LUTC
  | RCount n | RInterval n => decimal v n /\ n < 2 ^ 64
  | RBySecond l => listed ","%char (unsigned_item 0 60) v l
  | RByMinute l => listed ","%char (unsigned_item 0 59) v l
  | RByHour l => listed ","%char (unsigned_item 0 23) v l
  | RByDay l => listed ","%char days v l
  | RByMonthDay l => listed ","%char (signed_item 31) v l
  | RByYearDay l => listed ","%char (signed_item 366) v l
  | RByWeekNo l => listed ","%char (signed_item 53) v l
  | RByMonth l => listed ","%char (unsigned_item 1 12) v l
  | RBySetPos l => listed ","%char (signed_item 366) v l
  | RWkst d => In (v, d) weekdays
  end.

(** A part: its name, an equals sign and its value. *)
Definition rpart_text (days : bytes -> dayrecur -> Prop) (tz : option bytes) (w : bytes) (p : rpart) : Prop :=
  exists v, w = rname p ++ bs "=" ++ v /\ rvalue days tz v p.

(** The rule that the parts describe: for each component, the part given last. *)
Definition add_part (r : recur) (p : rpart) : recur :=
  let '(Recur fr wk ut un co iv bse bmi bho bda bmd byd bwn bmo bsp) := r in
  match p with
  | RFreq f => Recur f wk ut un co iv bse bmi bho bda bmd byd bwn bmo bsp
  | RUntil timed t => Recur fr wk timed t co iv bse bmi bho bda bmd byd bwn bmo bsp
  | RCount n => Recur fr wk ut un n iv bse bmi bho bda bmd byd bwn bmo bsp
  | RInterval n => Recur fr wk ut un co n bse bmi bho bda bmd byd bwn bmo bsp
  | RBySecond l => Recur fr wk ut un co iv l bmi bho bda bmd byd bwn bmo bsp
  | RByMinute l => Recur fr wk ut un co iv bse l bho bda bmd byd bwn bmo bsp
  | RByHour l => Recur fr wk ut un co iv bse bmi l bda bmd byd bwn bmo bsp
  | RByDay l => Recur fr wk ut un co iv bse bmi bho l bmd byd bwn bmo bsp
  | RByMonthDay l => Recur fr wk ut un co iv bse bmi bho bda l byd bwn bmo bsp
  | RByYearDay l => Recur fr wk ut un co iv bse bmi bho bda bmd l bwn bmo bsp
  | RByWeekNo l => Recur fr wk ut un co iv bse bmi bho bda bmd byd l bmo bsp
  | RByMonth l => Recur fr wk ut un co iv bse bmi bho bda bmd byd bwn l bsp
  | RBySetPos l => Recur fr wk ut un co iv bse bmi bho bda bmd byd bwn bmo l
  | RWkst d => Recur fr d ut un co iv bse bmi bho bda bmd byd bwn bmo bsp
  end.
Definition rule_of (ps : list rpart) : recur := fold_left add_part ps zero_recur.

(** RFC 5545: FREQ once, no part twice, and not both UNTIL and COUNT. *)
Definition named (n : string) (p : rpart) : Prop := rname p = bs n.
Definition parts_rfc (ps : list rpart) : Prop :=
  Exists (named "FREQ") ps /\ NoDup (map rname ps) /\ ~ (Exists (named "UNTIL") ps /\ Exists (named "COUNT") ps).
Definition recur_rfc (tz : option bytes) (s : bytes) (r : recur) : Prop := exists ps,
  listed ";"%char (rpart_text day_rfc tz) s ps /\ parts_rfc ps /\ r = rule_of ps.

(** What is read: FREQ may be repeated, and so may COUNT and UNTIL; INTERVAL only after an INTERVAL of 0,
    UNTIL and COUNT together only if the first to be given is 0 or the first moment of the year 1. *)
Definition after_parts (r : recur) (p : rpart) : Prop :=
  match p with
  | RFreq _ => True
  | RUntil _ _ => r_count r = 0
  | RCount _ => is_zero (r_until r) = true
  | RInterval _ => r_interval r = 0
  | RBySecond _ => r_bysecond r = []
  | RByMinute _ => r_byminute r = []
  | RByHour _ => r_byhour r = []
  | RByDay _ => r_byday r = []
  | RByMonthDay _ => r_bymonthday r = []
  | RByYearDay _ => r_byyearday r = []
  | RByWeekNo _ => r_byweekno r = []
  | RByMonth _ => r_bymonth r = []
  | RBySetPos _ => r_bysetpos r = []
  | RWkst _ => r_wkst r = 0
  end.
Definition parts_ordered (ps : list rpart) : Prop := forall before p after, ps = before ++ p :: after -> after_parts (rule_of before) p.
Definition recur_text (tz : option bytes) (s : bytes) (r : recur) : Prop := exists ps,
  listed ";"%char (rpart_text day_text tz) s ps /\ Exists (named "FREQ") ps /\ parts_ordered ps /\ r = rule_of ps.
End Rules.
