(** What is read of a calendar, property by property. *)
From Coq Require Import String Ascii ZArith Bool List.
From Verif Require Import Base SpecContent GoTime Types Params PropTable Props SecTable Sections SpecTree SpecRules SpecRfc SpecLine SpecLined SpecProps.
Import ListNotations.

Section ReadAs.
Context {env : Env}.
(** The property [p] is written as a line that means [q]. *)
Definition prop_as (pid : propid) (p q : prop) : Prop := exists l, prop_lined pid p l /\ line_means pid (cl_params l) (cl_value l) q.
(** [cal_as x y]: the components and properties of [y] are those of [x] in the same places, each property as it is read by itself. Of
    last-modified times, which are not read, only one line is asked. *)
Inductive cal_as : sec -> sec -> Prop :=
| CA id fs fs' : length fs = length (fields_of id) -> length fs' = length (fields_of id) ->
    (forall i fd vs vs', nth_error (fields_of id) i = Some fd -> nth_error fs i = Some vs -> nth_error fs' i = Some vs' ->
       count_ok (fd_mode fd) (length vs) /\ Forall2 (fval_as (fd_type fd)) vs vs') ->
    cal_as (Sec id fs) (Sec id fs')
with fval_as : ftype -> fval -> fval -> Prop :=
| VA_prop pid p q : prop_as pid p q -> fval_as (FTProp pid) (FVProp pid p) (FVProp pid q)
| VA_modified p q l : prop_lined PrLastModified p l -> fval_as (FTProp PrLastModified) (FVProp PrLastModified p) (FVProp PrLastModified q)
| VA_sec sid fs fs' : cal_as (Sec sid fs) (Sec sid fs') -> fval_as (FTSec sid) (FVSec (Sec sid fs)) (FVSec (Sec sid fs'))
| VA_alarm w sid fs fs' : action_is w sid -> cal_as (Sec sid fs) (Sec sid fs') -> fval_as FTAlarm (FVAlarm (Some (Sec sid fs))) (FVAlarm (Some (Sec sid fs'))).
(** As many values in each field as it has room for. *)
Definition counted (x : sec) : Prop := forall y, part_of y x -> forall i fd vs, nth_error (fields_of (sec_id y)) i = Some fd -> nth_error (sec_fields y) i = Some vs -> count_ok (fd_mode fd) (length vs).
End ReadAs.
