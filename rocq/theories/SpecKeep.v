(** What is kept when a calendar that was read is written and read again. *)
From Coq Require Import String Ascii ZArith Bool List.
From Verif Require Import Base Tokeniser SpecContent GoTime Types Params ParamTable PropTable Props SecTable Sections SpecTime SpecParams SpecProps SpecCal.
Import ListNotations.
Local Open Scope Z_scope.

Section Keep.
Context {env : Env}.

(** A time with whole seconds; outside UTC its clock reading has to name it (see [moment_good]). *)
Definition moment_keeps (id : nat) (t : time) : Prop := t_nsec t = 0 /\ (t_loc t = LUTC \/ moment_good id t).

(** Encode does not refuse the value; the Go library reads a URI as it writes it; times keep; a time of
    the year 1 in a rule or at the end of a period is the unset one. *)
Definition value_keeps (v : value) : Prop :=
  ~ refused v /\
  match v with
  | VCalendarAddress u | VURI u => url_good u
  | VDateTime t => moment_keeps 0 t
  | VPeriod p => moment_keeps 0 (p_start p) /\ moment_keeps 1 (p_end p) /\ (year_one (p_end p) -> p_end p = zero_time)
  | VRecur r => (r_untiltime r = true -> moment_keeps 0 (r_until r)) /\
      (year_one (r_until r) -> r_until r = zero_time /\ r_untiltime r = false)
  | VTime t => value_good v
  | _ => True
  end.

(** No address parameter; no empty text and no false RSVP, which are not written. *)
Definition param_keeps (k : pkind) (v : pval) : Prop :=
  match k, v with
  | PKUri, _ | PKAddrs, _ => False
  | PKText _, PVText s => s <> []
  | PKBool, PVBool b => b = true
  | _, _ => True
  end.

Definition prop_keeps (pid : propid) (p : prop) : Prop :=
  pid <> PrLastModified /\ ~ needs_escape pid p /\ (forall v, prop_value p v -> value_keeps v) /\
  forall ps vs l vl q v, snd (prop_spec pid) = MStruct ps vs -> p = PStruct l vl -> In (q, Some v) (combine ps l) ->
    param_keeps (snd (param_spec q)) v.
Definition cal_keeps (cal : sec) : Prop := forall pid p, has_prop cal pid p -> prop_keeps pid p.
End Keep.
