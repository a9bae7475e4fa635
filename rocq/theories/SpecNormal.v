(** What becomes of a calendar that is read, written and read again. *)
From Coq Require Import String Ascii ZArith Bool List.
From Verif Require Import Base Utf8 GoTime Types Params ParamTable PropTable Props SecTable Sections SpecTree SpecParams SpecProps SpecCal SpecKeep.
Import ListNotations.
Local Open Scope Z_scope.

(** Every octet that is no part of a character is replaced by U+FFFD. *)
Definition mend (s : bytes) : bytes := concat (map encode_rune (runes s)).

Section Normal.
Context {env : Env}.
(** Fractions of a second are dropped. *)
Definition whole (t : time) : time := Time (t_sec t) 0 (t_loc t).
(** An address is what the Go library makes of its text. *)
Definition as_read (u : url) : url := match url_parse (url_string u) with Some u' => u' | None => u end.
Definition value_normal (v : value) : value :=
  match v with
  | VCalendarAddress u => VCalendarAddress (as_read u)
  | VURI u => VURI (as_read u)
  | VDateTime t => VDateTime (whole t)
  | VTime t => VTime (whole t)
  | VPeriod p => VPeriod (Period (whole (p_start p)) (whole (p_end p)) (p_dur p))
  | VRecur (Recur fr wk ut un co iv bse bmi bho bda bmd byd bwn bmo bsp) => VRecur (Recur fr wk ut (whole un) co iv bse bmi bho bda bmd byd bwn bmo bsp)
  | VText t => VText (mend t)
  | VMText l => VMText (map mend l)
  | _ => v
  end.
(** Empty texts, empty addresses and RSVP=FALSE are gone. *)
Definition param_normal (v : pval) : option pval :=
  match v with
  | PVText [] | PVBool false | PVAddrs [] => None
  | PVUri u => if isnil (url_string u) then None else Some v
  | _ => Some v
  end.
Definition prop_normal (p : prop) : prop :=
  match p with
  | PStruct l vl => PStruct (map (fun o => match o with Some v => param_normal v | None => None end) l) (map (option_map value_normal) vl)
  | PEnum n => PEnum n
  | PNew v => PNew (value_normal v)
  end.
Fixpoint normal (x : sec) : sec :=
  let 'Sec id fs := x in Sec id (map (map val_normal) fs)
with val_normal (v : fval) : fval :=
  match v with
  | FVProp pid p => FVProp pid (prop_normal p)
  | FVSec x => FVSec (normal x)
  | FVAlarm (Some x) => FVAlarm (Some (normal x))
  | FVAlarm None => FVAlarm None
  end.

(** The value without its fractions keeps (see [value_keeps]); a time that is not the unset one does not become it. *)
Definition value_settles (v : value) : Prop :=
  value_keeps (value_normal v) /\
  match v with
  | VCalendarAddress u | VURI u => url_string (as_read u) = url_string u
  | VPeriod p => year_one (whole (p_end p)) -> p_end p = zero_time
  | VRecur r => year_one (whole (r_until r)) -> r_until r = zero_time
  | _ => True
  end.
(** Encode does not hang; there is no address among the parameters but empty ones; the values settle. *)
Definition prop_settles (pid : propid) (p : prop) : Prop :=
  ~ needs_escape pid p /\ (forall v, prop_value p v -> value_settles v) /\
  match p with PStruct l _ => forall v, In (Some v) l -> match v with PVUri u => url_string u = [] | PVAddrs l => l = [] | _ => True end | _ => True end.
Definition cal_settles (cal : sec) : Prop := forall pid p, has_prop cal pid p -> prop_settles pid p.
End Normal.
