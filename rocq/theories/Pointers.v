(** Model of the pointers a caller can give to Encode: sections_alarm.go:27-36 and 82-135, encoder.go:15-26. An alarm is an
    interface value: nil, a pointer that is nil, or a pointer to an alarm; the calendar is a pointer. Every other pointer
    of the package is an optional property, parameter or value, and nil means that it is absent. *)
From Coq Require Import String Ascii ZArith Bool List.
From Verif Require Import Base GoTime Types Params ParamTable PropTable Props SecTable Sections Folder Codec.
Import ListNotations.

Section Pointers.
Context {env : Env}.

(** sections_alarm.go:27-36 ([GNone] also stands for a type of another package that embeds one of the alarms: the
    switch of [valid] does not know it) *)
Inductive gsec := GSec (id : secid) (fs : list (list gval))
with gval := GProp (pid : propid) (p : prop) | GSub (x : gsec) | GAlarm (a : galarm)
with galarm := GNone | GNilOf (id : secid) | GTo (x : gsec).

(** What [valid] does *)
Inductive vres := VOk | VErr (e : gerr) | VPanic.
Definition first_bad {A} (f : A -> vres) : list A -> vres :=
  fix go l := match l with [] => VOk | a :: l' => match f a with VOk => go l' | r => r end end.
Definition of_err (o : option gerr) : vres := match o with Some e => VErr e | None => VOk end.

(** sections_alarm.go:102-109 and the [valid] methods of sections.go. Every alarm but AlarmNone looks at its first
    property, which the nil pointer does not have. *)
Fixpoint gsec_valid (x : gsec) : vres :=
  let 'GSec _ fs := x in first_bad (first_bad gval_valid) fs
with gval_valid (v : gval) : vres :=
  match v with
  | GProp pid p => of_err (prop_valid pid p)
  | GSub x => gsec_valid x
  | GAlarm a => galarm_valid a
  end
with galarm_valid (a : galarm) : vres :=
  match a with
  | GNone => VErr ErrInvalidAlarm
  | GNilOf SAlarmNone => VOk                 (* sections.go:4171-4173 *)
  | GNilOf _ => VPanic
  | GTo x => gsec_valid x
  end.

(** What [encode] does: writes, or a panic. Simplification: what is written by an alarm before it panics is left out. *)
Inductive gev := GW (e : wev) | GBoom.
Fixpoint gsec_encode (x : gsec) : list gev :=
  let 'GSec id fs := x in
  let sp := sec_spec id in
  (if sp_own sp then [GW (Wr (begin_line (sp_name sp)))] else []) ++
  flat_map (flat_map gval_encode) fs ++
  (if sp_own sp then [GW (Wr (end_line (sp_name sp)))] else [])
with gval_encode (v : gval) : list gev :=
  match v with
  | GProp pid p => map GW (prop_encode pid p)
  | GSub x => gsec_encode x
  | GAlarm a => GW (Wr (begin_line (bs "VALARM"))) :: galarm_encode a ++ [GW (Wr (end_line (bs "VALARM")))]
  end
with galarm_encode (a : galarm) : list gev :=       (* sections_alarm.go:85-98 *)
  match a with
  | GNone => [GBoom]
  | GNilOf SAlarmNone => [GW (Wr (bs "ACTION:NONE" ++ CRLF))]      (* sections.go:4168-4169 *)
  | GNilOf id => [GW (Wr (bs "ACTION:" ++ alarm_word id ++ CRLF)); GBoom]
  | GTo x => GW (Wr (bs "ACTION:" ++ alarm_word (let 'GSec id _ := x in id) ++ CRLF)) :: gsec_encode x
  end.

Section Run.
Context {W E : Type} (wr : W -> bytes -> W * option E).
Inductive genc := GRes (r : @enc_result W E) | GPanic (w : W).
Fixpoint grun (st : folder * W) (tr : list gev) : genc :=
  match tr with
  | [] => GRes (EncDone (f_err (fst st)) (snd st))
  | GW (Wr b) :: tr' => grun (folder_write wr st b) tr'
  | GW Hang :: _ => GRes (EncHang (snd st))
  | GBoom :: _ => GPanic (snd st)
  end.
(** encoder.go:15-26: [cal.valid()] of a nil pointer looks at its first property *)
Definition GEncode (w : W) (cal : option gsec) : genc :=
  match cal with
  | None => GPanic w
  | Some x =>
    match gsec_valid x with
    | VPanic => GPanic w
    | VErr e => GRes (EncInvalid e w)
    | VOk => grun (new_folder, w) (gsec_encode x)
    end
  end.
End Run.

(** sections_alarm.go:111-135: [Type], a method on the value; [None] if calling it panics *)
Definition alarm_type (a : galarm) : option bytes :=
  match a with
  | GTo (GSec SAlarmAudio _) => Some (bs "AUDIO")
  | GTo (GSec SAlarmDisplay _) => Some (bs "DISPLAY")
  | GTo (GSec SAlarmEmail _) => Some (bs "EMAIL")
  | GTo (GSec SAlarmURI _) => Some (bs "URI")
  | GTo (GSec SAlarmNone _) => Some (bs "NONE")
  | _ => None
  end.

(** What Decode returns, with its pointers *)
Fixpoint lift (x : sec) : gsec :=
  let 'Sec id fs := x in GSec id (map (map lift_val) fs)
with lift_val (v : fval) : gval :=
  match v with
  | FVProp pid p => GProp pid p
  | FVSec x => GSub (lift x)
  | FVAlarm (Some x) => GAlarm (GTo (lift x))
  | FVAlarm None => GAlarm GNone
  end.
End Pointers.
Arguments GRes {W E} _.
Arguments GPanic {W E} _.
