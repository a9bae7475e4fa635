(** What a calendar is written as: one line for each property. *)
From Coq Require Import String Ascii ZArith Bool List.
From Verif Require Import Base Tokeniser SpecContent GoTime Types Params ParamTable PropTable Props SecTable Sections SpecTree SpecRules SpecProps SpecRfc.
Import ListNotations.
Local Open Scope Z_scope.

Section Out.
Context {env : Env}.

(** Values of the Go types: as many parameters and values as the struct has, of their types; a value
    that has no alternatives is never nil; an enumeration is a byte. *)
Definition prop_typed (pid : propid) (p : prop) : Prop :=
  match snd (prop_spec pid), p with
  | MStruct ps vs, PStruct l vl =>
    Forall2 (fun q o => forall v, o = Some v -> wt_param (snd (param_spec q)) v = true) ps l /\
    Forall2 (fun t o => forall v, o = Some v -> kind_of v = snd t) vs vl /\ (length vs = 1%nat -> ~ In None vl)
  | MEnum _, PEnum n => 0 <= n < 256
  | MNew k, PNew v => kind_of v = k
  | _, _ => False
  end.
Inductive cal_typed : sec -> Prop :=
| CT id fs : length fs = length (fields_of id) ->
    (forall i fd vs, nth_error (fields_of id) i = Some fd -> nth_error fs i = Some vs ->
       count_ok (fd_mode fd) (length vs) /\ Forall (fval_typed (fd_type fd)) vs) ->
    cal_typed (Sec id fs)
with fval_typed : ftype -> fval -> Prop :=
| VT_prop pid p : prop_typed pid p -> fval_typed (FTProp pid) (FVProp pid p)
| VT_sec sid fs : cal_typed (Sec sid fs) -> fval_typed (FTSec sid) (FVSec (Sec sid fs))
| VT_alarm w sid fs : action_is w sid -> cal_typed (Sec sid fs) -> fval_typed FTAlarm (FVAlarm (Some (Sec sid fs)))
| VT_nil : fval_typed FTAlarm (FVAlarm None).

(** What comes from outside and is written as it is: addresses, names of zones, media types. *)
Definition url_clean (u : url) : Prop := forallb value_char (url_string u) = true.
(** Addresses parsed from texts without control characters, and names of zones, have none. *)
Definition urls_clean : Prop := forall s u, forallb value_char s = true -> url_parse s = Some u -> url_clean u.
Definition zones_clean : Prop := forall n z, load_zone n = Some z -> forallb value_char (zone_name z) = true.
Definition zone_clean (t : time) : Prop := match t_loc t with LZone z _ => forallb value_char (zone_name z) = true | _ => True end.
Definition value_clean (v : value) : Prop :=
  match v with
  | VCalendarAddress u | VURI u => url_clean u
  | VDateTime t | VTime t => zone_clean t
  | VPeriod p => zone_clean (p_start p)
  | VRecur r => zone_clean (r_until r)
  | _ => True
  end.
Definition param_clean (k : pkind) (v : pval) : Prop :=
  match k, v with
  | PKUri, PVUri u => url_clean u
  | PKAddrs, PVAddrs l => Forall url_clean l
  | PKRegex, PVText s => forallb value_char s = true
  | _, _ => True
  end.
Definition prop_clean (pid : propid) (p : prop) : Prop :=
  match snd (prop_spec pid), p with
  | MStruct ps _, PStruct l vl => (forall q v, In (q, Some v) (combine ps l) -> param_clean (snd (param_spec q)) v) /\ forall v, In (Some v) vl -> value_clean v
  | MNew _, PNew v => value_clean v
  | _, _ => True
  end.
Definition cal_clean (cal : sec) : Prop := forall pid p, has_prop cal pid p -> prop_clean pid p.

(** A line with this name and no control characters. *)
Definition line_named (n l : bytes) : Prop :=
  forallb value_char l = true /\ exists r, l = n ++ ";"%char :: r \/ l = n ++ ":"%char :: r.
(** The lines of a component, without the first and the last; [L pid p l] says that the line [l] is right for
    the property [p]. *)
Inductive comp_lines (L : propid -> prop -> bytes -> Prop) : sec -> list bytes -> Prop :=
| CoL id fs ls : vals_lines L (concat fs) ls -> comp_lines L (Sec id fs) ls
with vals_lines (L : propid -> prop -> bytes -> Prop) : list fval -> list bytes -> Prop :=
| VL_nil : vals_lines L [] []
| VL_prop pid p l vs ls : L pid p l -> vals_lines L vs ls -> vals_lines L (FVProp pid p :: vs) (l :: ls)
| VL_sec x a vs b : comp_lines L x a -> vals_lines L vs b ->
    vals_lines L (FVSec x :: vs) ((bs "BEGIN:" ++ comp_name (sec_id x)) :: a ++ (bs "END:" ++ comp_name (sec_id x)) :: b)
| VL_alarm x w a vs b : action_is w (sec_id x) -> comp_lines L x a -> vals_lines L vs b ->
    vals_lines L (FVAlarm (Some x) :: vs) (bs "BEGIN:VALARM" :: (bs "ACTION:" ++ w) :: a ++ bs "END:VALARM" :: b).
(** Lines with the names of their properties. *)
Definition named (pid : propid) (p : prop) (l : bytes) : Prop := line_named (prop_name pid) l.
Definition text_of_lines (ls : list bytes) : bytes := concat (map (fun l => l ++ CRLF) ls).
End Out.
