(** How much there is to write in a calendar, besides what it holds (SpecSize.v). *)
From Coq Require Import String Ascii ZArith Bool List.
From Verif Require Import Base GoTime Types Params ParamTable PropTable Props SecTable Sections SpecTree SpecRules SpecProps SpecSize.
Import ListNotations.

Section Grow.
Context {env : Env}.

(** The numbers of Go, signed or not, are smaller than this. *)
Definition word (z : Z) : Prop := (- 2 ^ 64 < z < 2 ^ 64)%Z.
Definition uword (z : Z) : Prop := (0 <= z < 2 ^ 64)%Z.
(** The seconds of a moment, in its zone. *)
Definition time_word (t : time) : Prop := word (wall t).
Definition value_word (v : value) : Prop :=
  match v with
  | VDate t | VDateTime t | VTime t => time_word t
  | VPeriod p => time_word (p_start p) /\ time_word (p_end p)
  | VInteger z => word z
  | VRecur r => time_word (r_until r) /\ uword (r_count r) /\ uword (r_interval r) /\
      Forall uword (r_bysecond r ++ r_byminute r ++ r_byhour r ++ r_bymonth r) /\
      Forall word (map dr_occ (r_byday r) ++ r_bymonthday r ++ r_byyearday r ++ r_byweekno r ++ r_bysetpos r)
  | _ => True
  end.
Definition prop_word (p : prop) : Prop :=
  match p with
  | PStruct _ vs => forall v, In (Some v) vs -> value_word v
  | PNew v => value_word v
  | PEnum _ => True
  end.
(** All numbers in the calendar are such numbers, as they are in Go. *)
Definition cal_words (cal : sec) : Prop := forall pid p, has_prop cal pid p -> prop_word p.

(** No zone is further than this many seconds from UTC; a day has fewer than 2^17. *)
Definition zones_near : Prop := forall l sec, (Z.abs (offset_at l sec) <= 2 ^ 32)%Z.

(** The bytes of what the standard library writes: addresses, names of zones, numbers with a fraction. *)
Definition zone_named (t : time) : nat := match t_loc t with LZone z _ => length (zone_name z) | _ => 0 end.
Definition value_named (v : value) : nat :=
  match v with
  | VCalendarAddress u | VURI u => length (url_string u)
  | VDateTime t | VTime t => zone_named t
  | VPeriod p => zone_named (p_start p)
  | VRecur r => zone_named (r_until r)
  | VFloat f => length (format_float f)
  | VTFloat f => length (format_float (fst f)) + length (format_float (snd f))
  | _ => 0
  end.
Definition param_named (v : pval) : nat :=
  match v with
  | PVUri u => length (url_string u)
  | PVAddrs l => total (map (fun u => length (url_string u)) l)
  | _ => 0
  end.
Definition prop_named (p : prop) : nat :=
  match p with
  | PStruct ps vs => total (map (opt_held param_named) ps) + total (map (opt_held value_named) vs)
  | PEnum _ => 0
  | PNew v => value_named v
  end.
Fixpoint named_in (s : sec) : nat :=
  match s with Sec _ fs => total (map (fun vs => total (map fval_named vs)) fs) end
with fval_named (v : fval) : nat :=
  match v with
  | FVProp _ p => prop_named p
  | FVSec s => named_in s
  | FVAlarm (Some s) => named_in s
  | FVAlarm None => 0
  end.
End Grow.
