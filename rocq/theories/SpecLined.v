(** Calendars of which every property is written as one line. *)
From Coq Require Import String Ascii ZArith Bool List.
From Verif Require Import Base SpecContent GoTime Types Params PropTable Props SecTable Sections SpecTree SpecRfc.
Import ListNotations.

Section Lined.
Context {env : Env}.
(** The property [p] is written as the line [l], as RFC 5545 has lines. *)
Definition prop_lined (pid : propid) (p : prop) (l : cline) : Prop :=
  (exists ws, prop_encode pid p = wrs ws /\ concat ws = cline_render l ++ CRLF) /\ cline_wf l = true /\ cl_name l = fst (prop_spec pid).
Inductive cal_lined : sec -> Prop :=
| CL id fs : length fs = length (fields_of id) ->
    (forall i fd vs, nth_error (fields_of id) i = Some fd -> nth_error fs i = Some vs -> Forall (fval_lined (fd_type fd)) vs) -> cal_lined (Sec id fs)
with fval_lined : ftype -> fval -> Prop :=
| VL_prop pid p l : prop_lined pid p l -> fval_lined (FTProp pid) (FVProp pid p)
| VL_sec sid fs : cal_lined (Sec sid fs) -> fval_lined (FTSec sid) (FVSec (Sec sid fs))
| VL_alarm w sid fs : action_is w sid -> cal_lined (Sec sid fs) -> fval_lined FTAlarm (FVAlarm (Some (Sec sid fs))).
(** The property [p] of kind [pid] is the one date-time [t]. *)
Definition zoned (pid : propid) (t : time) (p : prop) : Prop := exists w ks, rfc_types pid = (w, KDateTime) :: ks /\
  (api_struct pid = None /\ p = PNew (VDateTime t) \/ api_struct pid = Some [] /\ p = PStruct [] (Some (VDateTime t) :: map (fun _ => None) ks)).
End Lined.
