(** Two machines: the same program with another local time zone and another database of time zones. What
    it means that a text says the same on both. *)
From Coq Require Import String Ascii ZArith Bool List.
From Verif Require Import Base GoStrings GoTime Types Params ParamTable PropTable Props SecTable Sections SpecContent SpecTree.
Import ListNotations.

(** A machine with another local time zone, other zones by the same names, and other rules of these zones. *)
Definition machine (env : Env) (local : Z -> Z * Z * Z) (rules : @zone env -> Z -> Z * Z * Z) (load : bytes -> option (@zone env)) : Env := {|
  url := @url env; url_parse := @url_parse env; url_string := @url_string env;
  zone := @zone env; zone_name := @zone_name env; zone_lookup := rules; load_zone := load; local_lookup := local;
  fin := @fin env; fin_parse := @fin_parse env; fin_format := @fin_format env; up_rune := @up_rune env |}.

(** What a calendar and a clock can show. *)
Definition reading (y mo d h mi s ns : Z) : Prop :=
  (0 <= y <= 9999 /\ 1 <= mo <= 12 /\ 1 <= d <= days_in mo y /\ 0 <= h <= 23 /\ 0 <= mi <= 59 /\ 0 <= s <= 59 /\ 0 <= ns < 10 ^ 9)%Z.

Section Machine.
Context {env : Env} (local : Z -> Z * Z * Z) (rules : zone -> Z -> Z * Z * Z) (load : bytes -> option zone).
Let env' : Env := machine env local rules load.

(** Both know the same names of zones. *)
Definition same_names : Prop := forall n, load_zone n = None <-> load n = None.

(** The same place: UTC, the local zone of each machine, the zone that each has by the same name. *)
Inductive loc_alike : @loc env -> @loc env' -> Prop :=
| LA_utc : loc_alike LUTC (@LUTC env')
| LA_local : loc_alike LLocal (@LLocal env')
| LA_zone n z z' id : load_zone n = Some z -> load n = Some z' -> loc_alike (LZone z id) (@LZone env' z' id).
(** The same reading of the calendar and the clock, taken at the same place. *)
Definition time_alike (t : @time env) (t' : @time env') : Prop := exists y mo d h mi s ns l l',
  reading y mo d h mi s ns /\ loc_alike l l' /\ t = go_date y mo d h mi s ns l /\ t' = @go_date env' y mo d h mi s ns l'.
Definition period_alike (p : @period env) (p' : @period env') : Prop :=
  time_alike (p_start p) (p_start p') /\ time_alike (p_end p) (p_end p') /\ p_dur p' = p_dur p.
Definition recur_alike (r : @recur env) (r' : @recur env') : Prop := exists t', time_alike (r_until r) t' /\
  r' = @Recur env' (r_freq r) (r_wkst r) (r_untiltime r) t' (r_count r) (r_interval r) (r_bysecond r) (r_byminute r) (r_byhour r) (r_byday r)
         (r_bymonthday r) (r_byyearday r) (r_byweekno r) (r_bymonth r) (r_bysetpos r).
(** Numbers and addresses are the same on both. *)
Definition carry_float (f : @float env) : @float env' := match f with FNaN => @FNaN env' | FInf b => @FInf env' b | FFin x => @FFin env' x end.
Definition carry_pval (v : @pval env) : @pval env' :=
  match v with
  | PVUri u => @PVUri env' u | PVText t => @PVText env' t | PVTexts l => @PVTexts env' l | PVAddrs l => @PVAddrs env' l
  | PVEnum n => @PVEnum env' n | PVUnit => @PVUnit env' | PVBool b => @PVBool env' b
  end.
Inductive value_alike : @value env -> @value env' -> Prop :=
| VA_binary b : value_alike (VBinary b) (@VBinary env' b)
| VA_boolean b : value_alike (VBoolean b) (@VBoolean env' b)
| VA_address u : value_alike (VCalendarAddress u) (@VCalendarAddress env' u)
| VA_date t t' : time_alike t t' -> value_alike (VDate t) (@VDate env' t')
| VA_datetime t t' : time_alike t t' -> value_alike (VDateTime t) (@VDateTime env' t')
| VA_duration d : value_alike (VDuration d) (@VDuration env' d)
| VA_float f : value_alike (VFloat f) (@VFloat env' (carry_float f))
| VA_tfloat a b : value_alike (VTFloat (a, b)) (@VTFloat env' (carry_float a, carry_float b))
| VA_integer z : value_alike (VInteger z) (@VInteger env' z)
| VA_period p p' : period_alike p p' -> value_alike (VPeriod p) (@VPeriod env' p')
| VA_recur r r' : recur_alike r r' -> value_alike (VRecur r) (@VRecur env' r')
| VA_text t : value_alike (VText t) (@VText env' t)
| VA_mtext l : value_alike (VMText l) (@VMText env' l)
| VA_time t t' : time_alike t t' -> value_alike (VTime t) (@VTime env' t')
| VA_uri u : value_alike (VURI u) (@VURI env' u)
| VA_offset z : value_alike (VUTCOffset z) (@VUTCOffset env' z).
Inductive opt_alike : option (@value env) -> option (@value env') -> Prop :=
| OA_none : opt_alike None None
| OA_some v v' : value_alike v v' -> opt_alike (Some v) (Some v').
Inductive prop_alike : @prop env -> @prop env' -> Prop :=
| PA_struct ps vs vs' : Forall2 opt_alike vs vs' -> prop_alike (PStruct ps vs) (@PStruct env' (map (option_map carry_pval) ps) vs')
| PA_enum n : prop_alike (PEnum n) (@PEnum env' n)
| PA_new v v' : value_alike v v' -> prop_alike (PNew v) (@PNew env' v').
(** The same calendar, up to where in time the local and zoned moments are. *)
Inductive sec_alike : @sec env -> @sec env' -> Prop :=
| SA id fs fs' : Forall2 (Forall2 fval_alike) fs fs' -> sec_alike (Sec id fs) (@Sec env' id fs')
with fval_alike : @fval env -> @fval env' -> Prop :=
| FA_prop pid p p' : prop_alike p p' -> fval_alike (FVProp pid p) (@FVProp env' pid p')
| FA_sec x x' : sec_alike x x' -> fval_alike (FVSec x) (@FVSec env' x')
| FA_none : fval_alike (FVAlarm None) (@FVAlarm env' None)
| FA_alarm x x' : sec_alike x x' -> fval_alike (FVAlarm (Some x)) (@FVAlarm env' (Some x')).

(** Both read a calendar, and these are alike; or both fail in the same way. *)
Definition same_outcome (r : res (@sec env)) (r' : res (@sec env')) : Prop :=
  match r, r' with
  | Ok cal, Ok cal' => sec_alike cal cal'
  | Err e, Err e' => e = e'
  | Panic, Panic | NoFuel, NoFuel => True
  | _, _ => False
  end.
End Machine.

(** A rule that has both an UNTIL and a COUNT, which RFC 5545 (3.3.10) forbids. *)
Definition mixed_rule (v : bytes) : Prop := exists a b,
  In (bs "UNTIL=" ++ a) (split ";"%char v) /\ In (bs "COUNT=" ++ b) (split ";"%char v).
Definition mixed_line {env : Env} (l : cline) : Prop := line_is (bs "RRULE") l /\ mixed_rule (cl_value l).

(** The moments in a calendar. *)
Section Moments.
Context {env : Env}.
Definition value_times (v : value) : list time :=
  match v with
  | VDate t | VDateTime t | VTime t => [t]
  | VPeriod p => [p_start p; p_end p]
  | VRecur r => [r_until r]
  | _ => []
  end.
Definition prop_times (p : prop) : list time :=
  match p with
  | PStruct _ vs => flat_map (fun o => match o with Some v => value_times v | None => [] end) vs
  | PEnum _ => []
  | PNew v => value_times v
  end.
Fixpoint sec_times (x : sec) : list time := let 'Sec _ fs := x in flat_map (flat_map fval_times) fs
with fval_times (v : fval) : list time :=
  match v with
  | FVProp _ p => prop_times p
  | FVSec x => sec_times x
  | FVAlarm (Some x) => sec_times x
  | FVAlarm None => []
  end.
(** Every moment is in UTC. *)
Definition all_utc (x : sec) : Prop := Forall (fun t => t_loc t = LUTC) (sec_times x).
End Moments.
