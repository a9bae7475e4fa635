(** Calendars with the same readings of clocks. *)
From Coq Require Import String Ascii ZArith Bool List.
From Verif Require Import Base GoTime Types Params ParamTable PropTable Props SecTable Sections SpecClock.
Import ListNotations.
Local Open Scope Z_scope.

Section Retimed.
Context {env : Env}.
(** [t'] is in UTC or in local time if [t] is, and otherwise in a location with the same name. Clocks show the same there at [t'] as they do
    at [t] where [t] is. *)
Definition same_clock (t t' : time) : Prop :=
  match t_loc t, t_loc t' with LZone z _, LZone z' _ => zone_name z' = zone_name z | l, l' => l' = l end /\
  clock_shows (t_loc t') (t_sec t') (t_sec t + offset_at (t_loc t) (t_sec t)) /\ is_zero t' = is_zero t.

(** A calendar with other times in the place of those it has, wherever they are. *)
Context (f : time -> time).
Definition value_retimed (v : value) : value :=
  match v with
  | VDate t => VDate (f t)
  | VDateTime t => VDateTime (f t)
  | VTime t => VTime (f t)
  | VPeriod p => VPeriod (Period (f (p_start p)) (f (p_end p)) (p_dur p))
  | VRecur r => VRecur (Recur (r_freq r) (r_wkst r) (r_untiltime r) (f (r_until r)) (r_count r) (r_interval r) (r_bysecond r) (r_byminute r) (r_byhour r) (r_byday r)
      (r_bymonthday r) (r_byyearday r) (r_byweekno r) (r_bymonth r) (r_bysetpos r))
  | _ => v
  end.
Definition prop_retimed (p : prop) : prop :=
  match p with
  | PStruct l vl => PStruct l (map (option_map value_retimed) vl)
  | PNew v => PNew (value_retimed v)
  | _ => p
  end.
Fixpoint retimed (x : sec) : sec :=
  let 'Sec id fs := x in Sec id (map (map val_retimed) fs)
with val_retimed (v : fval) : fval :=
  match v with
  | FVProp pid p => FVProp pid (prop_retimed p)
  | FVSec x => FVSec (retimed x)
  | FVAlarm (Some x) => FVAlarm (Some (retimed x))
  | FVAlarm None => FVAlarm None
  end.
End Retimed.
