(** Calendars that a program has put together, and what is left of their values in the text. *)
From Coq Require Import String Ascii ZArith Bool List.
From Verif Require Import Base GoTime Types Params ParamTable PropTable Props SecTable Sections SpecNormal.
Import ListNotations.
Local Open Scope Z_scope.

Section Built.
Context {env : Env}.
(** A location from the database is loaded anew. *)
Definition reloaded (id : nat) (l : loc) : loc := match l with LZone z _ => LZone z id | _ => l end.
(** Fractions of a second are dropped. *)
Definition second_of (id : nat) (t : time) : time := Time (t_sec t) 0 (reloaded id (t_loc t)).
(** The day that the calendar shows at the location, as midnight UTC. *)
Definition day_of (t : time) : time := Time (86400 * ((t_sec t + offset_at (t_loc t) (t_sec t)) / 86400)) 0 LUTC.
(** A time of day is one of 1 January of the year 0. *)
Definition clock_of (t : time) : time := match t_loc t with LUTC => Time (t_sec t mod 86400 - 62167219200) 0 LUTC | _ => t end.
(** [t'], but not if it is the zero time, which stands for none. *)
Definition unless_zero (t t' : time) : time := if is_zero t' then t else t'.
(** A period with an end has no duration. *)
Definition period_said (p : period) : period :=
  if is_zero (p_end p) then Period (second_of 0 (p_start p)) zero_time (p_dur p)
  else Period (second_of 0 (p_start p)) (unless_zero (p_end p) (second_of 1 (p_end p))) zero_duration.
(** A rule with a count has no last moment. The name of a zone is written with any rule, so that it can be kept for moments only. *)
Definition until_said (r : recur) : bool * time :=
  match t_loc (r_until r) with
  | LZone _ _ => (r_untiltime r, if r_untiltime r then unless_zero (r_until r) (second_of 0 (r_until r)) else r_until r)
  | _ => if negb (r_count r =? 0) || is_zero (r_until r) then (false, zero_time)
         else (r_untiltime r, unless_zero (r_until r) (if r_untiltime r then second_of 0 (r_until r) else day_of (r_until r)))
  end.
Definition recur_said (r : recur) : recur :=
  Recur (r_freq r) (r_wkst r) (fst (until_said r)) (snd (until_said r)) (r_count r) (r_interval r) (r_bysecond r) (r_byminute r) (r_byhour r) (r_byday r)
    (r_bymonthday r) (r_byyearday r) (r_byweekno r) (r_bymonth r) (r_bysetpos r).
Definition value_said (v : value) : value :=
  match v with
  | VDate t => VDate (day_of t)
  | VDateTime t => VDateTime (second_of 0 t)
  | VTime t => VTime (clock_of t)
  | VPeriod p => VPeriod (period_said p)
  | VRecur r => VRecur (recur_said r)
  | VText t => VText (mend t)
  | VMText l => VMText (map mend l)
  | _ => v
  end.
(** Parameters with nothing in them are gone; a number that is no choice is the unknown choice, where there is one. *)
Definition param_said (k : pkind) (v : pval) : option pval :=
  match k, v with
  | PKText _, PVText [] | PKTexts, PVTexts [] | PKAddrs, PVAddrs [] | PKBool, PVBool false => None
  | PKUri, PVUri u => if isnil (url_string u) then None else Some v
  | PKEnum true ws, PVEnum n => Some (PVEnum (if (1 <=? n) && (n <=? Z.of_nat (length ws)) then n else 0))
  | _, _ => Some v
  end.
Fixpoint params_said (ps : list paramid) (l : list (option pval)) : list (option pval) :=
  match ps, l with
  | q :: ps', Some v :: l' => param_said (snd (param_spec q)) v :: params_said ps' l'
  | _ :: ps', None :: l' => None :: params_said ps' l'
  | _, _ => l
  end.
Definition prop_said (pid : propid) (p : prop) : prop :=
  match snd (prop_spec pid), p with
  | MStruct ps _, PStruct l vl => PStruct (params_said ps l) (map (option_map value_said) vl)
  | _, PNew v => PNew (value_said v)
  | _, _ => p
  end.
Fixpoint said (x : sec) : sec :=
  let 'Sec id fs := x in Sec id (map (map val_said) fs)
with val_said (v : fval) : fval :=
  match v with
  | FVProp pid p => FVProp pid (prop_said pid p)
  | FVSec x => FVSec (said x)
  | FVAlarm (Some x) => FVAlarm (Some (said x))
  | FVAlarm None => FVAlarm None
  end.
End Built.
