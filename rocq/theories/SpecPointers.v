(** What Encode meets on its way through a calendar. *)
From Coq Require Import String Ascii ZArith Bool List.
From Verif Require Import Base GoTime Types Params ParamTable PropTable Props SecTable Sections SpecValid Pointers.
Import ListNotations.

Section Spec.
Context {env : Env}.
(** Properties, and alarms that are nil, in the order of the fields. *)
Inductive seen := SeenProp (pid : propid) (p : prop) | SeenNone | SeenNil (id : secid).
Fixpoint looked (x : gsec) : list seen :=
  let 'GSec _ fs := x in flat_map (flat_map looked_val) fs
with looked_val (v : gval) : list seen :=
  match v with
  | GProp pid p => [SeenProp pid p]
  | GSub x => looked x
  | GAlarm GNone => [SeenNone]
  | GAlarm (GNilOf id) => [SeenNil id]
  | GAlarm (GTo x) => looked x
  end.
(** Encode goes on after it. *)
Definition fine (s : seen) : Prop :=
  match s with SeenProp pid p => prop_ok pid p | SeenNone => False | SeenNil id => id = SAlarmNone end.
(** The calendar without nil pointers: that of an AlarmNone, which has no fields, is as good as one. *)
Fixpoint plain (x : gsec) : sec :=
  let 'GSec id fs := x in Sec id (map (map plain_val) fs)
with plain_val (v : gval) : fval :=
  match v with
  | GProp pid p => FVProp pid p
  | GSub x => FVSec (plain x)
  | GAlarm GNone => FVAlarm None
  | GAlarm (GNilOf id) => FVAlarm (Some (Sec id []))
  | GAlarm (GTo x) => FVAlarm (Some (plain x))
  end.
End Spec.
