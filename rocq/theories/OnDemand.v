(** Model of Decode (decoder.go:16-38) reading on demand: the tokeniser asks the unfolder for more bytes only
    when it needs one that it does not have. Sections.v and Codec.v read from a text that is there; here the
    source of phrases is a parameter, and the reader, the unfolder and the tokeniser are run together. *)
From Coq Require Import String Ascii ZArith Bool List.
From Verif Require Import Base Utf8 GoStrings Strtok Tokeniser GoTime Types Params ParamTable PropTable Props SecTable Sections Unfolder.
Import ListNotations.

Section OnDemand.
Context {env : Env}.

(** ** The decoders of Sections.v for any source of phrases *)
Section Source.
Context {St : Type} (get : St -> res (phrase * St)).

(** The tokeniser, and [psuedoTokeniser] (sections_alarm.go:10-24). *)
Inductive gsrc := GTok (st : St) | GList (l : list phrase).

Definition g_get (s : gsrc) : res (phrase * gsrc) :=
  match s with
  | GTok z => let! (p, z') := get z in Ok (p, GTok z')
  | GList [] => Err ErrUnexpectedEOF
  | GList (p :: l) => Ok (p, GList l)
  end.

(** sections.go:4176-4198 [decodeDummy] *)
Fixpoint g_dummy (fuel : nat) (n : bytes) (s : gsrc) : res gsrc :=
  match fuel with
  | O => NoFuel
  | S f =>
    let! (ph, s) := g_get s in
    match ph with
    | PhraseDone => Err ErrUnexpectedEOF
    | PhraseLine data =>
      let! (name, _, value) := parts data in
      if beq (upper name) (bs "BEGIN") then
        let! s := g_dummy f value s in g_dummy f n s
      else if beq (upper name) (bs "END") then
        if beq (upper value) n then Ok s else Err ErrInvalidEnd
      else g_dummy f n s
    end
  end.

(** sections_alarm.go:41-73 *)
Fixpoint g_gather (fuel : nat) (ty : option secid) (acc : list phrase) (s : gsrc)
  : res (list phrase * option secid * gsrc) :=
  match fuel with
  | O => NoFuel
  | S f =>
    let! (ph, s) := g_get s in
    match ph with
    | PhraseDone => Panic
    | PhraseLine data =>
      let! (name, _, value) := parts data in
      let acc := acc ++ [PhraseLine data] in
      if beq name (bs "BEGIN") then Err ErrInvalidStructure
      else if beq name (bs "ACTION") then
        match ty with
        | Some _ => Err ErrInvalidStructure
        | None => g_gather f (alarm_of_word value) acc s
        end
      else if beq name (bs "END") then Ok (acc, ty, s)
      else g_gather f ty acc s
    end
  end.

(** sections.go, the [decode] method of every section (Event: 229-558), and sections_alarm.go:38-80 *)
Fixpoint g_sec (fuel : nat) (id : secid) (fs : list (list fval)) (s : gsrc) : res (sec * gsrc) :=
  match fuel with
  | O => NoFuel
  | S f =>
    let! (ph, s) := g_get s in
    match ph with
    | PhraseDone => Err ErrUnexpectedEOF
    | PhraseLine data =>
      let! (name, params, value) := parts data in
      let name := upper name in
      if beq name (bs "BEGIN") then
        let n := upper value in
        match find_field (is_sec_field n) (fields_of id) with
        | Some (i, fd) =>
          if full fd i fs then Err ErrMultiple
          else
            match fd_type fd with
            | FTSec sid =>
              let! (x, s) := g_sec f sid (no_fields sid) s in
              g_sec f id (add_field i (FVSec x) fs) s
            | FTAlarm =>
              let! (pt, ty, s) := g_gather f None [] s in
              match ty with
              | None => Err ErrMissingAlarmAction
              | Some sid =>
                let! (x, _) := g_sec f sid (no_fields sid) (GList pt) in
                g_sec f id (add_field i (FVAlarm (Some x)) fs) s
              end
            | FTProp _ => Panic       (* not a section field *)
            end
        | None =>
          let! s := g_dummy f n s in g_sec f id fs s
        end
      else
        match find_field (is_prop_field name) (fields_of id) with
        | Some (i, fd) =>
          if full fd i fs then Err ErrMultiple
          else
            match fd_type fd with
            | FTProp pid =>
              let! p := prop_decode pid params value in
              g_sec f id (add_field i (FVProp pid p) fs) s
            | _ => Panic              (* not a property field *)
            end
        | None =>
          if beq name (bs "END") then
            if beq value (sp_name (sec_spec id)) then let! x := finish id fs in Ok (x, s)
            else Err ErrInvalidEnd
          else g_sec f id fs s
        end
    end
  end.

(** decoder.go:16-38 *)
Definition g_decode (fuel : nat) (s : gsrc) : res (sec * gsrc) :=
  let! (ph, s) := g_get s in
  match ph with
  | PhraseDone => Err ErrUnexpectedEOF
  | PhraseLine data =>
    let! (name, _, value) := parts data in
    if beq (upper name) (bs "BEGIN") && beq (upper value) (bs "VCALENDAR") then g_sec fuel SCalendar (no_fields SCalendar) s
    else Err ErrInvalidCalendar
  end.

End Source.
Arguments GTok {St} _.
Arguments GList {St} _.

(** ** The tokeniser on the bytes that are there so far *)

(** A token function that looks for a byte after the last one there is ends in a state other than [SName]
    (tokeniser.go:38-147): the line feed that ends a value is the only last byte that a token
    function takes without looking at what follows. *)
Definition touched (z : tkz) : bool :=
  isnil (trest (z_tok z)) && match z_state z with SName => false | _ => true end.

(** Whether tokeniser.go:158-164 needs a byte that is not there. *)
Fixpoint rest_blocks (fuel : nat) (inval : bool) (z : tkz) : bool :=
  match fuel with
  | O => true
  | S f =>
    let '(tk, z) := next_token z in
    touched z ||
    match t_type tk with
    | tokenParamName =>
      let '(tv, z) := next_token z in
      touched z ||
      match t_type tv with
      | tokenParamValue | tokenParamQuotedValue => rest_blocks f true z
      | _ => false
      end
    | tokenParamValue | tokenParamQuotedValue => if inval then rest_blocks f true z else false
    | _ => false
    end
  end.

(** Whether tokeniser.go:149-171 needs a byte that is not there. *)
Definition blocks (z : tkz) : bool :=
  let '(tk, z1) := next_token z in
  touched z1 ||
  match t_type tk with
  | tokenName => rest_blocks (S (S (length (trest (z_tok z))))) false z1
  | _ => false
  end.

(** More bytes have come. *)
Definition feed (z : tkz) (d : bytes) : tkz := Tkz (z_state z) (Tok (tbuf (z_tok z)) (trest (z_tok z) ++ d)).

(** ** The reader, the unfolder and the tokeniser together *)

(** [o_i]: the number of calls of the unfolder's [Read] so far; [o_buf]: what the unfolder holds back;
    [o_end]: the unfolder has returned an error, which the tokeniser takes for the end of the text. *)
Record ostate := OState { o_z : tkz; o_i : nat; o_buf : bytes; o_r : rdr; o_end : bool }.

Definition is_some {A} (o : option A) : bool := match o with Some _ => true | None => false end.

(** parser.Parser.GetPhrase: as long as the phrase needs a byte that is not there, read more. The phrase is
    read again from its start when more bytes have come, which needs the same bytes. *)
Fixpoint od_phrase (fuel : nat) (sizes : nat -> nat) (o : ostate) : res (phrase * ostate) :=
  match fuel with
  | O => NoFuel
  | S f =>
    if o_end o || negb (blocks (o_z o)) then
      let! (p, z) := get_phrase (o_z o) in Ok (p, OState z (o_i o) (o_buf o) (o_r o) (o_end o))
    else
      let! (d, e, buf, r) := unf_read fuel (o_buf o) (o_r o) (sizes (o_i o)) in
      od_phrase f sizes (OState (feed (o_z o) d) (S (o_i o)) buf r (is_some e))
  end.

(** decoder.go:17 *)
Definition od_start (r : rdr) : ostate := OState (new_tokeniser []) 0 [] r false.

(** decoder.go:16-38: the calendar, and the reader as Decode leaves it. The reader ends with any error. *)
Definition DecodeOD (fuel : nat) (sizes : nat -> nat) (r : rdr) : res (sec * rdr) :=
  let! (c, s) := g_decode (od_phrase fuel sizes) fuel (GTok (od_start r)) in
  match s with GTok o => Ok (c, o_r o) | GList _ => Panic end.

End OnDemand.
Arguments GTok {St} _.
Arguments GList {St} _.
