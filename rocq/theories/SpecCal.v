(** Calendars that survive being written. *)
From Coq Require Import String Ascii ZArith Bool List.
From Verif Require Import Base Tokeniser SpecContent GoTime Types Params ParamTable PropTable Props SecTable Sections SpecTree SpecRules SpecParams SpecProps.
Import ListNotations.

Section Cal.
Context {env : Env}.

(** Every field has as many values as its Go type allows, of its type and good (see [prop_good]). *)
Inductive cal_good : sec -> Prop :=
| CG id fs : length fs = length (fields_of id) ->
    (forall i fd vs, nth_error (fields_of id) i = Some fd -> nth_error fs i = Some vs ->
       count_ok (fd_mode fd) (length vs) /\ Forall (fval_good (fd_type fd)) vs) ->
    cal_good (Sec id fs)
with fval_good : ftype -> fval -> Prop :=
| VG_prop pid p : prop_good pid p -> fval_good (FTProp pid) (FVProp pid p)
| VG_sec sid fs : cal_good (Sec sid fs) -> fval_good (FTSec sid) (FVSec (Sec sid fs))
| VG_alarm w sid fs : action_is w sid -> cal_good (Sec sid fs) -> fval_good FTAlarm (FVAlarm (Some (Sec sid fs))).

(** The rules between the fields of a component, as Decode has them: in an email or URI alarm exactly
    one of DURATION and REPEAT is present. *)
Definition obeys (x : sec) : Prop :=
  match sec_id x with
  | SEvent => ~ (has_field "DTEND" x /\ has_field "DURATION" x)
  | STodo => ~ (has_field "DUE" x /\ has_field "DURATION" x) /\ (has_field "DURATION" x -> has_field "DTSTART" x)
  | STimezone => has_field "STANDARD" x \/ has_field "DAYLIGHT" x
  | SAlarmAudio | SAlarmDisplay => has_field "GEO-LOCATION" x -> has_field "PROXIMITY" x
  | SAlarmEmail | SAlarmURI => (has_field "GEO-LOCATION" x -> has_field "PROXIMITY" x) /\ (has_field "DURATION" x <-> ~ has_field "REPEAT" x)
  | _ => True
  end.
Definition rules_met (cal : sec) : Prop := forall x, part_of x cal -> obeys x.

(** The calendar without its last-modified times. *)
Definition is_last_modified (fd : field) : bool := beq (fd_key fd) (bs "LAST-MOD").
Fixpoint blank (fds : list field) (fs : list (list fval)) : list (list fval) :=
  match fds, fs with
  | fd :: fds', vs :: fs' => (if is_last_modified fd then [] else vs) :: blank fds' fs'
  | _, _ => []
  end.
Fixpoint forget (x : sec) : sec :=
  let 'Sec id fs := x in Sec id (blank (fields_of id) (map (map forget_val) fs))
with forget_val (v : fval) : fval :=
  match v with
  | FVProp pid p => FVProp pid p
  | FVSec x => FVSec (forget x)
  | FVAlarm (Some x) => FVAlarm (Some (forget x))
  | FVAlarm None => FVAlarm None
  end.

(** A line with the name LAST-MODIFIED, in any case. *)
Definition last_modified_line (i : item) : Prop := exists l, i = ILine l /\ upper (cl_name l) = bs "LAST-MODIFIED".

(** ** What Encode refuses *)
(** The value of a property (its alternatives, of which Decode sets one). *)
Definition prop_value (p : prop) (v : value) : Prop :=
  match p with PStruct _ vl => In (Some v) vl | PNew w => w = v | PEnum _ => False end.
(** Midnight of 1 January of the year 1, UTC. *)
Definition year_one (t : time) : Prop := (t_sec t = -62135596800 /\ t_nsec t = 0)%Z.
Definition later (a b : time) : Prop := (t_sec b < t_sec a \/ (t_sec a = t_sec b /\ t_nsec b < t_nsec a))%Z.
Definition finite (f : float) : Prop := match f with FFin _ => True | _ => False end.
Definition same_clock (a b : time) : Prop := (t_loc a = LUTC /\ t_loc b = LUTC) \/ (t_loc a = LLocal /\ t_loc b = LLocal).
(** The values that Encode refuses among those that Decode returns. *)
Definition refused (v : value) : Prop :=
  match v with
  | VDate t | VDateTime t | VTime t => year_one t
  | VFloat f => finite f
  | VTFloat (a, b) => finite a \/ finite b
  | VPeriod p => year_one (p_start p) \/ (~ year_one (p_end p) /\ (~ later (p_end p) (p_start p) \/ ~ same_clock (p_start p) (p_end p)))
  | _ => False
  end.
End Cal.
