(** Model of the error messages: the calls of [fmt.Errorf] in types.go, params.go, properties.go and sections.go,
    around the errors of Types.v, Params.v, Props.v, Sections.v and Codec.v. The names in them are in LabelTable.v.

    Simplifications: [Decode] is taken on the bytes that come out of the unfolder (as in Codec.v); an error of the standard
    library is [ErrStd], without its text. *)
From Coq Require Import String Ascii ZArith Bool List.
From Verif Require Import Base Utf8 GoStrings Strtok Tokeniser GoTime Types Params ParamTable PropTable Props SecTable Sections Codec LabelTable.
Import ListNotations.

(** A format with one %w: params.go:1249-1250 (the two texts are the same), properties.go:4321-4322, and the texts of types.go. *)
Inductive wrapper :=
| DecodingType (a : bytes) | ValidatingType (a : bytes) | DecodingProp (a b : bytes) | ValidatingProp (a b : bytes) | Says (t : bytes).
(** An error: one made by [errors.New] or by the standard library, one that wraps another, and one of errMultiple
    (sections.go:4208), which wraps none. *)
Inductive gmsg := Root (e : gerr) | Wrap (w : wrapper) (m : gmsg) | Multiple (a b : bytes).

(** [Error()]; [std] is the text of an error of the standard library. *)
Definition wrapper_text (w : wrapper) : bytes :=
  match w with
  | DecodingType a | ValidatingType a => bs "error decoding " ++ a ++ bs ": "
  | DecodingProp a b => bs "error decoding " ++ a ++ bs "->" ++ b ++ bs ": "
  | ValidatingProp a b => bs "error validating " ++ a ++ bs "->" ++ b ++ bs ": "
  | Says t => t ++ bs ": "
  end.
Fixpoint msg_text (std : bytes) (m : gmsg) : bytes :=
  match m with
  | Root ErrStd => std
  | Root e => error_text e
  | Wrap w m => wrapper_text w ++ msg_text std m
  | Multiple a b => bs "error decoding " ++ a ++ bs ": multiple " ++ b
  end.
(** [errors.Is], for one of the errors that the package exports or io.ErrUnexpectedEOF. *)
Fixpoint errors_is (m : gmsg) (e : gerr) : Prop :=
  match m with Root e' => e' = e | Wrap _ m => errors_is m e | Multiple _ _ => False end.

(** Outcome of a Go call, with the message. *)
Inductive mres (A : Type) := MOk (a : A) | MErr (m : gmsg) | MPanic | MNoFuel.
Arguments MOk {A} _.
Arguments MErr {A} _.
Arguments MPanic {A}.
Arguments MNoFuel {A}.
Definition mbind {A B} (r : mres A) (f : A -> mres B) : mres B :=
  match r with MOk a => f a | MErr m => MErr m | MPanic => MPanic | MNoFuel => MNoFuel end.
Notation "'let?' p ':=' r 'in' k" := (mbind r (fun p => k))
  (at level 200, p pattern, r at level 100, k at level 200).
(** The message made from the error of a call, and [fmt.Errorf] around it. *)
Definition lift {A} (mk : gerr -> gmsg) (r : res A) : mres A :=
  match r with Ok a => MOk a | Err e => MErr (mk e) | Panic => MPanic | NoFuel => MNoFuel end.
Definition wrap {A} (w : wrapper) (r : mres A) : mres A :=
  match r with MErr m => MErr (Wrap w m) | _ => r end.

Section Messages.
Context {env : Env}.

(** ** types.go. The only errors that are wrapped are those of the standard library. *)
Definition std_says (t : string) (e : gerr) : gmsg :=
  match e with ErrStd => Wrap (Says (bs t)) (Root e) | _ => Root e end.
(** types.go:158-184 and 1378-1404 *)
Definition datetime_msg (m : pmap) (data : bytes) (e : gerr) : gmsg :=
  match pmap_get m (bs "TZID") with
  | Some tz =>
    match load_location 0 tz with
    | None => std_says "error loading timezone for DateTime" e
    | Some _ => std_says "error parsing time in location for DateTime" e
    end
  | None =>
    if ends_with "Z"%char data then std_says "error parsing time in UTC for DateTime" e
    else std_says "error parsing local time for DateTime" e
  end.
Definition clock_msg (m : pmap) (data : bytes) (e : gerr) : gmsg :=
  match pmap_get m (bs "TZID") with
  | Some tz =>
    match load_location 0 tz with
    | None => std_says "error loading timezone for Time" e
    | Some _ => std_says "error parsing time in location for Time" e
    end
  | None =>
    if ends_with "Z"%char data then std_says "error parsing time in UTC for Time" e
    else std_says "error parsing local time for Time" e
  end.
(** types.go:252 *)
Definition duration_msg (e : gerr) : gmsg := std_says "error decoding duration" e.
(** types.go:434-450 *)
Definition tfloat_msg (data : bytes) (e : gerr) : gmsg :=
  match cut ";"%char data with
  | None => Root e
  | Some (a, _) =>
    match parse_float a with
    | None => std_says "error parsing TFloat[0]" e
    | Some _ => std_says "error parsing TFloat[1]" e
    end
  end.
(** types.go:515-531 *)
Definition period_msg (m : pmap) (data : bytes) (e : gerr) : gmsg :=
  match cut "/"%char data with
  | None => Root e
  | Some (_, []) => Root e
  | Some (a, (c :: _) as b) =>
    match datetime_decode 0 m a with
    | Ok _ =>
      if beqc c "P" || beqc c "+" then Wrap (Says (bs "error while decoding Period")) (duration_msg e)
      else Wrap (Says (bs "error while decoding Period End")) (datetime_msg m b e)
    | _ => Wrap (Says (bs "error while decoding Period Start")) (datetime_msg m a e)
    end
  end.
(** types.go:31, 97, 126, 404, 1447; Boolean, Integer, Recur, Text, MText and UTCOffset wrap nothing. *)
Definition value_msg (k : vkind) (m : pmap) (data : bytes) (e : gerr) : gmsg :=
  match k with
  | KBinary => std_says "error while decoding binary data" e
  | KCalendarAddress => std_says "error parsing CalendarAddress" e
  | KDate => std_says "error parsing Date" e
  | KDateTime => datetime_msg m data e
  | KDuration => duration_msg e
  | KFloat => std_says "error parsing Float" e
  | KTFloat => tfloat_msg data e
  | KPeriod => period_msg m data e
  | KTime => clock_msg m data e
  | KURI => std_says "error decoding URI" e
  | KBoolean | KInteger | KRecur | KText | KMText | KUTCOffset => Root e
  end.
Definition value_decode_m (k : vkind) (m : pmap) (data : bytes) : mres value :=
  lift (value_msg k m data) (value_decode k m data).

(** ** params.go: every error of [decode] is wrapped in errDecodingType, with the name of the parameter (31-46, 75-77);
    that of an URI or an address has its own text first. *)
Definition param_msg (k : pkind) (e : gerr) : gmsg :=
  match k with
  | PKUri => std_says "error decoding URI" e
  | PKAddrs => std_says "error parsing CalendarAddress" e
  | _ => Root e
  end.
Definition param_decode_m (p : paramid) (vs : list token) : mres pval :=
  wrap (DecodingType (param_label p)) (lift (param_msg (pkind_of p)) (param_decode (pkind_of p) vs)).

(** ** properties.go:96-129 *)
Definition struct_param_m (pid : propid) (ps : list paramid) (vs : list (bytes * vkind)) (st : pstate)
    (g : bytes * list token) : mres pstate :=
  let '(n, tv) := g in
  match param_index n ps with
  | Some i =>
    let p := nth i ps PmAgentID in
    match nth i (ps_params st) None with
    | Some _ => MErr (Wrap (DecodingProp (prop_label pid) (param_label p)) (Root ErrDuplicateParam))
    | None =>
      let? v := wrap (DecodingProp (prop_label pid) (param_label p)) (param_decode_m p tv) in
      MOk (PState (set_nth i (Some v) (ps_params st)) (ps_vtype st) (ps_other st))
    end
  | None =>
    if Nat.ltb 1 (length vs) && beq n (bs "VALUE") then
      match tv with
      | [t] =>
        match ps_vtype st with
        | Some _ => MErr (Wrap (DecodingProp (prop_label pid) value_label) (Root ErrDuplicateParam))
        | None =>
          match index_of (upper (t_data t)) (map fst vs) with
          | Some i => MOk (PState (ps_params st) (Some i) (ps_other st))
          | None => MErr (Wrap (DecodingType (prop_label pid)) (Root ErrInvalidValue))
          end
        end
      | _ => MErr (Wrap (DecodingProp (prop_label pid) value_label) (Root ErrInvalidValue))
      end
    else MOk (PState (ps_params st) (ps_vtype st) ((n, join_values tv) :: ps_other st))
  end.
Fixpoint struct_params_m (pid : propid) (ps : list paramid) (vs : list (bytes * vkind)) (st : pstate)
    (gs : list (bytes * list token)) : mres pstate :=
  match gs with
  | [] => MOk st
  | g :: gs' => let? st' := struct_param_m pid ps vs st g in struct_params_m pid ps vs st' gs'
  end.
(** properties.go:77-152 (struct), 29-42 (enumeration), 761-793 (renamed value type) *)
Definition prop_decode_m (pid : propid) (params : list token) (data : bytes) : mres prop :=
  match snd (prop_spec pid) with
  | MStruct ps vs =>
    let? st := struct_params_m pid ps vs (PState (map (fun _ => None) ps) None []) (groups params) in
    let i := match ps_vtype st with Some i => i | None => O end in
    let k := snd (nth i vs ([], KText)) in
    let? v := wrap (DecodingProp (prop_label pid) (kind_label k)) (value_decode_m k (ps_other st) data) in
    MOk (PStruct (ps_params st) (set_nth i (Some v) (map (fun _ => None) vs)))
  | MEnum ws =>
    match index_of (upper data) ws with
    | Some n => MOk (PEnum (Z.of_nat n))
    | None => MErr (Wrap (DecodingType (prop_label pid)) (Root ErrInvalidValue))
    end
  | MNew k =>
    let m := fold_left (fun m g => (fst g, join_values (snd g)) :: m) (groups params) [] in
    let? v := wrap (DecodingType (prop_label pid)) (value_decode_m k m data) in MOk (PNew v)
  end.

(** ** sections.go, the [decode] methods (Event: 229-558), and sections_alarm.go:38-80. The errors of [GetPhrase], of
    [decodeDummy] and of the checks after the loop get the name of the section, those of a field its name as well;
    [Alarm.decode] wraps nothing. *)
Definition field_label (t : ftype) : bytes :=
  match t with FTProp pid => prop_label pid | FTSec sid => sec_label sid | FTAlarm => alarm_label end.
Fixpoint dec_sec_m (fuel : nat) (id : secid) (fs : list (list fval)) (s : src) : mres (sec * src) :=
  match fuel with
  | O => MNoFuel
  | S f =>
    let? (ph, s) := wrap (DecodingType (sec_label id)) (lift Root (get_ph s)) in
    match ph with
    | PhraseDone => MErr (Wrap (DecodingType (sec_label id)) (Root ErrUnexpectedEOF))
    | PhraseLine data =>
      let? (name, params, value) := lift Root (parts data) in
      let name := upper name in
      if beq name (bs "BEGIN") then
        let n := upper value in
        match find_field (is_sec_field n) (fields_of id) with
        | Some (i, fd) =>
          let w := DecodingProp (sec_label id) (field_label (fd_type fd)) in
          if full fd i fs then MErr (Multiple (sec_label id) (field_label (fd_type fd)))
          else
            match fd_type fd with
            | FTSec sid =>
              let? (x, s) := wrap w (dec_sec_m f sid (no_fields sid) s) in
              dec_sec_m f id (add_field i (FVSec x) fs) s
            | FTAlarm =>
              let? (pt, ty, s) := wrap w (lift Root (gather f None [] s)) in
              match ty with
              | None => MErr (Wrap w (Root ErrMissingAlarmAction))
              | Some sid =>
                let? (x, _) := wrap w (dec_sec_m f sid (no_fields sid) (SrcList pt)) in
                dec_sec_m f id (add_field i (FVAlarm (Some x)) fs) s
              end
            | FTProp _ => MPanic
            end
        | None =>
          let? s := wrap (DecodingType (sec_label id)) (lift Root (dec_dummy f n s)) in dec_sec_m f id fs s
        end
      else
        match find_field (is_prop_field name) (fields_of id) with
        | Some (i, fd) =>
          if full fd i fs then MErr (Multiple (sec_label id) (field_label (fd_type fd)))
          else
            match fd_type fd with
            | FTProp pid =>
              let? p := wrap (DecodingProp (sec_label id) (field_label (fd_type fd))) (prop_decode_m pid params value) in
              dec_sec_m f id (add_field i (FVProp pid p) fs) s
            | _ => MPanic
            end
        | None =>
          if beq name (bs "END") then
            if beq value (sp_name (sec_spec id)) then
              let? x := wrap (DecodingType (sec_label id)) (lift Root (finish id fs)) in MOk (x, s)
            else MErr (Wrap (DecodingType (sec_label id)) (Root ErrInvalidEnd))
          else dec_sec_m f id fs s
        end
    end
  end.

(** ** decoder.go:16-38: nothing is wrapped here. *)
Definition decode_m (s : bytes) : mres sec :=
  let? (ph, s1) := lift Root (get_ph (SrcTok (new_tokeniser s))) in
  match ph with
  | PhraseDone => MErr (Root ErrUnexpectedEOF)
  | PhraseLine data =>
    let? (name, _, value) := lift Root (parts data) in
    if beq (upper name) (bs "BEGIN") && beq (upper value) (bs "VCALENDAR") then
      let? (c, _) := dec_sec_m (S (S (length s))) SCalendar (no_fields SCalendar) s1 in MOk c
    else MErr (Root ErrInvalidCalendar)
  end.

(** ** The [valid] methods: the messages with which Encode refuses a calendar (encoder.go:16-18) *)
Definition wrap_o (w : wrapper) (o : option gmsg) : option gmsg := option_map (Wrap w) o.

(** params.go:52-58 and others *)
Definition param_valid_m (p : paramid) (v : pval) : option gmsg :=
  wrap_o (ValidatingType (param_label p)) (option_map Root (param_valid (pkind_of p) v)).
Fixpoint params_valid_m (pid : propid) (ps : list paramid) (l : list (option pval)) : option gmsg :=
  match ps, l with
  | p :: ps', Some v :: l' =>
    match param_valid_m p v with
    | Some m => Some (Wrap (ValidatingProp (prop_label pid) (param_label p)) m)
    | None => params_valid_m pid ps' l'
    end
  | _ :: ps', None :: l' => params_valid_m pid ps' l'
  | _, _ => None
  end.
(** [vs]: the kinds of the values, in the order of the struct. *)
Fixpoint values_valid_m (pid : propid) (vs : list (bytes * vkind)) (l : list (option value)) : option gmsg :=
  match l with
  | [] => None
  | o :: l' =>
    let k := snd (hd ([], KText) vs) in
    match match o with Some v => value_valid v | None => None end with
    | Some e => Some (Wrap (ValidatingProp (prop_label pid) (kind_label k)) (Root e))
    | None => values_valid_m pid (tl vs) l'
    end
  end.
(** properties.go:173-204, 59-68, 804-811 *)
Definition prop_valid_m (pid : propid) (p : prop) : option gmsg :=
  match snd (prop_spec pid), p with
  | MStruct ps vs, PStruct l vl =>
    match params_valid_m pid ps l with
    | Some m => Some m
    | None =>
      match values_valid_m pid vs vl with
      | Some m => Some m
      | None =>
        if Nat.ltb 1 (length vs) && negb (Nat.eqb (length (filter is_some vl)) 1)
        then Some (Wrap (ValidatingType (prop_label pid)) (Root ErrInvalidValue)) else None
      end
    end
  | MEnum ws, PEnum n =>
    if in_range 0 (Z.of_nat (length ws) - 1) n then None
    else Some (Wrap (ValidatingType (prop_label pid)) (Root ErrInvalidValue))
  | MNew _, PNew v => wrap_o (ValidatingType (prop_label pid)) (option_map Root (value_valid v))
  | _, _ => None
  end.

(** sections.go, the [valid] methods (Event: 684-868), and sections_alarm.go:102-109. The name of a field is that of its
    type, which in a Go struct is the type of the value. *)
Definition fval_label (v : fval) : bytes :=
  match v with FVProp pid _ => prop_label pid | FVSec s => sec_label (sec_id s) | FVAlarm _ => alarm_label end.
Definition first_msg {A} (f : A -> option gmsg) : list A -> option gmsg :=
  fix go l := match l with
              | [] => None
              | a :: l' => match f a with Some e => Some e | None => go l' end
              end.
Fixpoint sec_valid_m (s : sec) : option gmsg :=
  let 'Sec id fs := s in
  first_msg (first_msg (fun v => wrap_o (ValidatingProp (sec_label id) (fval_label v)) (fval_valid_m v))) fs
with fval_valid_m (v : fval) : option gmsg :=
  match v with
  | FVProp pid p => prop_valid_m pid p
  | FVSec s => sec_valid_m s
  | FVAlarm (Some s) => sec_valid_m s
  | FVAlarm None => Some (Root ErrInvalidAlarm)
  end.

End Messages.
