(** Model of sections.go and sections_alarm.go. The table of section types, with line numbers, is
    SecTable.v; the lines cited here are those of one instance of the template (genSections.sh). *)
From Coq Require Import String Ascii ZArith Bool List.
From Verif Require Import Base Utf8 GoStrings Strtok Tokeniser GoTime Types Params ParamTable PropTable Props SecTable.
Import ListNotations.

Section Sections.
Context {env : Env}.

(** A section: its type and, for each field of the Go struct in order, the values of the field.
    A required field holds one value, an optional one at most one. An alarm is an interface
    holding nil or a pointer to one of the alarm sections. *)
Inductive sec := Sec (id : secid) (fs : list (list fval))
with fval := FVProp (pid : propid) (p : prop) | FVSec (s : sec) | FVAlarm (a : option sec).

Definition sec_id (s : sec) : secid := let 'Sec id _ := s in id.
Definition sec_fields (s : sec) : list (list fval) := let 'Sec _ fs := s in fs.
Definition fields_of (id : secid) : list field := sp_fields (sec_spec id).

(** ** Phrase sources: the tokeniser, and [psuedoTokeniser] (sections_alarm.go:10-24) *)
Inductive src := SrcTok (z : tkz) | SrcList (l : list phrase).

Definition get_ph (s : src) : res (phrase * src) :=
  match s with
  | SrcTok z => let! (p, z') := get_phrase z in Ok (p, SrcTok z')
  | SrcList [] => Err ErrUnexpectedEOF
  | SrcList (p :: l) => Ok (p, SrcList l)
  end.

(** [p.Data[0].Data], [p.Data[1:len(p.Data)-1]] and [p.Data[len(p.Data)-1].Data]; fewer than two
    tokens panic. *)
Definition parts (data : list token) : res (bytes * list token * bytes) :=
  match data with
  | t :: (_ :: _) as data' => Ok (t_data t, removelast (tl data), t_data (last data t))
  | _ => Panic
  end.

(** ** sections.go:4176-4198 [decodeDummy] *)
Fixpoint dec_dummy (fuel : nat) (n : bytes) (s : src) : res src :=
  match fuel with
  | O => NoFuel
  | S f =>
    let! (ph, s) := get_ph s in
    match ph with
    | PhraseDone => Err ErrUnexpectedEOF
    | PhraseLine data =>
      let! (name, _, value) := parts data in
      if beq (upper name) (bs "BEGIN") then
        let! s := dec_dummy f value s in dec_dummy f n s
      else if beq (upper name) (bs "END") then
        if beq (upper value) n then Ok s else Err ErrInvalidEnd
      else dec_dummy f n s
    end
  end.

(** ** Alarms *)

(** sections_alarm.go:58-69 *)
Definition alarm_of_word (w : bytes) : option secid :=
  if beq w (bs "AUDIO") then Some SAlarmAudio
  else if beq w (bs "DISPLAY") then Some SAlarmDisplay
  else if beq w (bs "EMAIL") then Some SAlarmEmail
  else if beq w (bs "URI") then Some SAlarmURI
  else if beq w (bs "NONE") then Some SAlarmNone
  else None.

(** sections_alarm.go:41-73: collect the phrases of the alarm. [PhraseDone] has no tokens, so
    [ph.Data[0]] panics at the end of input. *)
Fixpoint gather (fuel : nat) (ty : option secid) (acc : list phrase) (s : src)
  : res (list phrase * option secid * src) :=
  match fuel with
  | O => NoFuel
  | S f =>
    let! (ph, s) := get_ph s in
    match ph with
    | PhraseDone => Panic
    | PhraseLine data =>
      let! (name, _, value) := parts data in
      let acc := acc ++ [ph] in
      if beq name (bs "BEGIN") then Err ErrInvalidStructure
      else if beq name (bs "ACTION") then
        match ty with
        | Some _ => Err ErrInvalidStructure
        | None => gather f (alarm_of_word value) acc s
        end
      else if beq name (bs "END") then Ok (acc, ty, s)
      else gather f ty acc s
    end
  end.

(** ** Fields *)

Definition is_prop_field (n : bytes) (f : field) : bool :=
  match fd_type f with FTProp _ => beq n (fd_key f) | _ => false end.
Definition is_sec_field (n : bytes) (f : field) : bool :=
  match fd_type f with FTProp _ => false | _ => beq n (fd_key f) end.

Fixpoint find_field (p : field -> bool) (l : list field) : option (nat * field) :=
  match l with
  | [] => None
  | f :: l' => if p f then Some (O, f)
               else match find_field p l' with Some (i, g) => Some (S i, g) | None => None end
  end.

(** Store a decoded field: a second value of a required or optional field is an error. *)
Definition full (f : field) (i : nat) (fs : list (list fval)) : bool :=
  match fd_mode f with FMany => false | _ => negb (isnil (nth i fs [])) end.
Definition add_field (i : nat) (v : fval) (fs : list (list fval)) : list (list fval) :=
  set_nth i (nth i fs [] ++ [v]) fs.

(** The checks after the loop (sections.go:549-555 and others). *)
Definition req_ok (fs : list (list fval)) (r : req) : bool :=
  let nil i := isnil (nth i fs []) in
  match r with
  | RAnd a b => negb (Bool.eqb (nil a) (nil b))    (* the Go test is inverted *)
  | ROr a b => negb (nil a && nil b)
  | ROne a b => negb (negb (nil a) && negb (nil b))
  | RErgo a b => negb (negb (nil a) && nil b)
  end.

Fixpoint missing (l : list field) (fs : list (list fval)) : bool :=
  match l, fs with
  | f :: l', v :: fs' =>
    (match fd_mode f with FReq => isnil v | _ => false end) || missing l' fs'
  | _, _ => false
  end.

Definition finish (id : secid) (fs : list (list fval)) : res sec :=
  if missing (fields_of id) fs then Err ErrMissingRequired
  else if forallb (req_ok fs) (sp_reqs (sec_spec id)) then Ok (Sec id fs)
  else Err ErrRequirementNotMet.

Definition no_fields (id : secid) : list (list fval) := map (fun _ => []) (fields_of id).

(** ** sections.go, the [decode] method of every section (Event: 229-558), and
    sections_alarm.go:38-80 *)
Fixpoint dec_sec (fuel : nat) (id : secid) (fs : list (list fval)) (s : src) : res (sec * src) :=
  match fuel with
  | O => NoFuel
  | S f =>
    let! (ph, s) := get_ph s in
    match ph with
    | PhraseDone => Err ErrUnexpectedEOF
    | PhraseLine data =>
      let! (name, params, value) := parts data in
      let name := upper name in
      if beq name (bs "BEGIN") then
        let n := upper value in
        match find_field (is_sec_field n) (fields_of id) with
        | Some (i, fd) =>
          if full fd i fs then Err ErrMultiple
          else
            match fd_type fd with
            | FTSec sid =>
              let! (x, s) := dec_sec f sid (no_fields sid) s in
              dec_sec f id (add_field i (FVSec x) fs) s
            | FTAlarm =>
              let! (pt, ty, s) := gather f None [] s in
              match ty with
              | None => Err ErrMissingAlarmAction
              | Some sid =>
                let! (x, _) := dec_sec f sid (no_fields sid) (SrcList pt) in
                dec_sec f id (add_field i (FVAlarm (Some x)) fs) s
              end
            | FTProp _ => Panic       (* not a section field *)
            end
        | None =>
          let! s := dec_dummy f n s in dec_sec f id fs s
        end
      else
        match find_field (is_prop_field name) (fields_of id) with
        | Some (i, fd) =>
          if full fd i fs then Err ErrMultiple
          else
            match fd_type fd with
            | FTProp pid =>
              let! p := prop_decode pid params value in
              dec_sec f id (add_field i (FVProp pid p) fs) s
            | _ => Panic              (* not a property field *)
            end
        | None =>
          if beq name (bs "END") then
            if beq value (sp_name (sec_spec id)) then let! x := finish id fs in Ok (x, s)
            else Err ErrInvalidEnd
          else dec_sec f id fs s
        end
    end
  end.

(** ** Encoding: sections.go, the [encode] methods (Event: 560-682), sections_alarm.go:82-100 *)
Definition begin_line (n : bytes) : bytes := bs "BEGIN:" ++ n ++ CRLF.
Definition end_line (n : bytes) : bytes := bs "END:" ++ n ++ CRLF.

(** sections_alarm.go:85-96 *)
Definition alarm_word (id : secid) : bytes :=
  match id with
  | SAlarmAudio => bs "AUDIO" | SAlarmDisplay => bs "DISPLAY" | SAlarmEmail => bs "EMAIL"
  | SAlarmURI => bs "URI" | SAlarmNone => bs "NONE" | _ => []
  end.

Fixpoint sec_encode (s : sec) : list wev :=
  let 'Sec id fs := s in
  let sp := sec_spec id in
  (if sp_own sp then [Wr (begin_line (sp_name sp))] else []) ++
  flat_map (flat_map fval_encode) fs ++
  (if sp_own sp then [Wr (end_line (sp_name sp))] else [])
with fval_encode (v : fval) : list wev :=
  match v with
  | FVProp pid p => prop_encode pid p
  | FVSec s => sec_encode s
  | FVAlarm (Some s) =>
    [Wr (begin_line (bs "VALARM")); Wr (bs "ACTION:" ++ alarm_word (sec_id s) ++ CRLF)] ++
    sec_encode s ++ [Wr (end_line (bs "VALARM"))]
  | FVAlarm None => []                (* panics in Go; [valid] refuses it first *)
  end.

(** ** Validation: sections.go, the [valid] methods (Event: 684-868), sections_alarm.go:102-109 *)
Definition first_err {A} (f : A -> option gerr) : list A -> option gerr :=
  fix go l := match l with
              | [] => None
              | a :: l' => match f a with Some e => Some e | None => go l' end
              end.

Fixpoint sec_valid (s : sec) : option gerr :=
  let 'Sec _ fs := s in first_err (first_err fval_valid) fs
with fval_valid (v : fval) : option gerr :=
  match v with
  | FVProp pid p => prop_valid pid p
  | FVSec s => sec_valid s
  | FVAlarm (Some s) => sec_valid s
  | FVAlarm None => Some ErrInvalidAlarm
  end.

End Sections.
