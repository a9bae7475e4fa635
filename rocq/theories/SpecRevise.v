(** Calendars that were read and then changed. *)
From Coq Require Import String Ascii ZArith Bool List.
From Verif Require Import Base Utf8 GoTime Types Params ParamTable PropTable Props SecTable Sections Folder Codec EncodeProofs SpecLines SpecTree SpecRules SpecProps SpecCal SpecKeep SpecValid.
Import ListNotations.

Section Revise.
Context {env : Env}.

(** The fields that the rules of RFC 5545 between fields are about. *)
Definition rule_fields : list bytes := map bs ["DTSTART"; "DTEND"; "DUE"; "DURATION"; "REPEAT"; "GEO-LOCATION"; "PROXIMITY"; "STANDARD"; "DAYLIGHT"]%string.
(** New values of a field: some of its old ones, in any order, and good properties that Encode accepts; as many as the field may have.
    A field that the rules are about is not emptied if it was set, and not set if it was empty. *)
Definition new_values (fd : field) (us ws : list fval) : Prop :=
  (forall v, In v ws -> In v us \/ exists pid p, fd_type fd = FTProp pid /\ v = FVProp pid p /\ pid <> PrLastModified /\ prop_good pid p /\ prop_ok pid p) /\
  count_ok (fd_mode fd) (length ws) /\ (In (fd_key fd) rule_fields -> (us = [] <-> ws = [])).
(** [revised x y]: [y] is [x] with new values of one field, of it or of a component or alarm in it, at any depth. *)
Inductive revised : sec -> sec -> Prop :=
| Rev_here id a us ws c fd : nth_error (fields_of id) (length a) = Some fd -> new_values fd us ws -> revised (Sec id (a ++ us :: c)) (Sec id (a ++ ws :: c))
| Rev_comp id a u x y w c : revised x y -> revised (Sec id (a ++ (u ++ FVSec x :: w) :: c)) (Sec id (a ++ (u ++ FVSec y :: w) :: c))
| Rev_alarm id a u x y w c : revised x y -> revised (Sec id (a ++ (u ++ FVAlarm (Some x) :: w) :: c)) (Sec id (a ++ (u ++ FVAlarm (Some y) :: w) :: c)).
(** A calendar put together from others: the version and product of one of them, and components of any of them, as often and in whatever order. *)
Definition assembled (from : sec -> Prop) (z : sec) : Prop := exists x fs, from x /\ z = Sec SCalendar (firstn 2 (sec_fields x) ++ fs) /\ length fs = 5 /\
  forall i vs v, nth_error fs i = Some vs -> In v vs -> exists y ws, from y /\ nth_error (sec_fields y) (2 + i) = Some ws /\ In v ws.
(** What comes of calendars that were read, in any number of such steps. *)
Inductive edited : sec -> Prop :=
| Ed_read s cal : decode_bytes s = Ok cal -> utf8 s -> cal_keeps cal -> edited cal
| Ed_revise x y : edited x -> revised x y -> edited y
| Ed_assemble (from : sec -> Prop) z : (forall x, from x -> edited x) -> assembled from z -> edited z.
(** Encode writes the calendar, and Decode reads it from what was written, in one read or, if no line is folded, in any. *)
Definition comes_back (cal : sec) : Prop := exists out, Encode ok_writer [] cal = EncDone None out /\
  (forall w sizes, (forall i, 1 <= sizes i) -> length (concat out) <= sizes 0 -> exists n, forall fuel, n <= fuel -> Decode fuel sizes [concat out] w = Ok cal) /\
  (~ has_fold (concat out) -> forall chunks sizes, concat chunks = concat out -> (forall i, 2 <= sizes i) -> exists n, forall fuel, n <= fuel -> Decode fuel sizes chunks false = Ok cal).
End Revise.
