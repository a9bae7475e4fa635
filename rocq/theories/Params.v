(** Model of params.go: the parameter templates (genParams.sh) and RFC 6868 text.

    Every parameter type of params.go is an instance of one of the [pkind] templates; the table of
    instances, with line numbers, is ParamTable.v. The lines cited here are those of one instance. *)
From Coq Require Import String Ascii ZArith Bool List.
From Verif Require Import Base Utf8 GoStrings Strtok Tokeniser GoTime Types.
Import ListNotations.
Local Open Scope Z_scope.

(** What an encoder does, in order: [Write] calls, or a computation that never ends. *)
Inductive wev := Wr (b : bytes) | Hang.
Definition wrs (l : list bytes) : list wev := map Wr l.

(** params.go:1184-1215 [decode6868]. After an escape the Go code does not call [Get], so the
    escape itself is copied by the next [Get]. The default case appends the rune in [c], which is
    the caret. *)
Fixpoint decode6868_loop (fuel : nat) (d : bytes) (t : tok) : bytes :=
  match fuel with
  | O => d
  | S f =>
    let '(c, t) := except_run (bs "^") t in
    let '(s, t) := get t in
    let d := d ++ s in
    match c with
    | None => d
    | Some _ =>
      let '(_, t) := accept (bs "^") t in
      let '(c, t) := next t in
      match c with
      | None => d ++ bs "^"
      | Some r =>
        if r =? 110 then decode6868_loop f (d ++ [LF]) t
        else if r =? 39 then decode6868_loop f (d ++ [DQ]) t
        else if r =? 94 then decode6868_loop f (d ++ bs "^") t
        else decode6868_loop f (d ++ bs "^" ++ encode_rune 94) t
      end
    end
  end.
Definition decode6868 (s : bytes) : bytes := decode6868_loop (S (length s)) [] (new_tok s).

(** params.go:1217-1236 [encode6868]. The Go loop never reads past the character that stopped
    [ExceptRun]. [None] is fuel exhaustion; see [encode6868_hangs] in the proofs: with the fuel
    given by [encode6868] it happens only when no amount of fuel is enough. *)
Fixpoint encode6868_loop (fuel : nat) (d : bytes) (t : tok) : option bytes :=
  match fuel with
  | O => None
  | S f =>
    let '(c, t) := except_run ([LF] ++ bs "^" ++ [DQ]) t in
    let '(s, t) := get t in
    let d := d ++ s in
    match c with
    | None => Some d
    | Some c =>
      if beqc c LF then encode6868_loop f (d ++ bs "^n") t
      else if beqc c "^" then encode6868_loop f (d ++ bs "^^") t
      else encode6868_loop f (d ++ bs "^'") t
    end
  end.
Definition encode6868 (s : bytes) : option bytes := encode6868_loop (S (length s)) [] (new_tok s).

(** [w.Write(encode6868(s))] *)
Definition write6868 (s : bytes) : list wev :=
  match encode6868 s with Some b => [Wr b] | None => [Hang] end.

(** The parameter templates: an URI (ALTREP, 15-58), a text, always quoted or quoted when needed
    (CN, 60-100; DIR, 260-300), a list of quoted texts (MEMBER, 505-551), a list of addresses
    (DELEGATED-FROM, 162-209), a word list with or without an Unknown choice (CUTYPE, 102-160;
    ENCODING, 302-353), one word (RANGE, 628-651), a text with a pattern (FMTTYPE, 355-401), a
    boolean (RSVP, 821-859). *)
Inductive pkind :=
| PKUri | PKText (quoted : bool) | PKTexts | PKAddrs | PKEnum (free : bool) (ws : list bytes)
| PKUnit (w : bytes) | PKRegex | PKBool.

(** params.go:1238-1240: one class character, a slash, one class character, anywhere in the text.
    The class has the range from plus to caret. *)
Definition fmt_class (c : byte) : bool :=
  existsb (Z.eqb (code c)) [33; 35; 36; 38; 95] || in_range 43 94 (code c) || in_range 97 122 (code c).
Fixpoint regex_match (s : bytes) : bool :=
  match s with
  | a :: ((b :: c :: _) as s') => (fmt_class a && beqc b "/" && fmt_class c) || regex_match s'
  | _ => false
  end.

Section Params.
Context {env : Env}.

Definition upper (s : bytes) : bytes := to_upper up_rune s.

(** Values of parameter types; an enumeration is its number. *)
Inductive pval :=
| PVUri (u : url) | PVText (t : bytes) | PVTexts (l : list bytes) | PVAddrs (l : list url)
| PVEnum (n : Z) | PVUnit | PVBool (b : bool).

(** One quoted value (params.go:509-515). *)
Definition quoted_data (t : token) : res bytes :=
  if ttype_eqb (t_type t) tokenParamQuotedValue then Ok (t_data t) else Err ErrInvalidParam.

(** The single value of a non-list parameter (params.go:27-29). *)
Definition one_value (vs : list token) : res token :=
  match vs with [t] => Ok t | _ => Err ErrInvalidParam end.

(** Number of the first named choice: Unknown comes first when there is one. *)
Definition enum_base (free : bool) : Z := if free then 1 else 0.

(** [decode] *)
Definition param_decode (k : pkind) (vs : list token) : res pval :=
  match k with
  | PKUri =>
    let! t := one_value vs in let! d := quoted_data t in let! u := url_decode d in Ok (PVUri u)
  | PKText quoted =>
    let! t := one_value vs in
    let! d := if quoted then quoted_data t else Ok (t_data t) in
    Ok (PVText (decode6868 d))
  | PKTexts =>
    let! l := mapM (fun t => let! d := quoted_data t in Ok (decode6868 d)) vs in Ok (PVTexts l)
  | PKAddrs =>
    let! l := mapM (fun t => let! d := quoted_data t in url_decode d) vs in Ok (PVAddrs l)
  | PKEnum free ws =>
    let! t := one_value vs in
    match index_of (upper (t_data t)) ws with
    | Some n => Ok (PVEnum (Z.of_nat n + enum_base free))
    | None => if free then Ok (PVEnum 0) else Err ErrInvalidParam
    end
  | PKUnit w =>
    let! t := one_value vs in
    if beq (upper (t_data t)) w then Ok PVUnit else Err ErrInvalidParam
  | PKRegex =>
    let! t := one_value vs in
    if regex_match (t_data t) then Ok (PVText (t_data t)) else Err ErrInvalidParam
  | PKBool =>
    let! t := one_value vs in let! b := boolean_decode (t_data t) in Ok (PVBool b)
  end.

(** A text between double quotes, always (params.go:286-288) or when it needs them
    (params.go:84-90). *)
Definition write_quoted (s : bytes) : list wev := Wr [DQ] :: write6868 s ++ [Wr [DQ]].
Definition write_text (s : bytes) : list wev :=
  if contains_any s needquote then write_quoted s else write6868 s.

(** The choices of an enumeration written by [encode]: the word of the choice, UNKNOWN for any
    other value when there is an Unknown choice, and nothing otherwise. *)
Definition enum_word (free : bool) (ws : list bytes) (n : Z) : list wev :=
  if enum_base free <=? n then
    match nth_error ws (Z.to_nat (n - enum_base free)) with
    | Some w => [Wr w]
    | None => if free then [Wr (bs "UNKNOWN")] else []
    end
  else if free then [Wr (bs "UNKNOWN")] else [].

(** [encode] of the parameter with keyword [key] *)
Definition param_encode (key : bytes) (k : pkind) (v : pval) : list wev :=
  let hd := Wr (bs ";" ++ key ++ bs "=") in
  match k, v with
  | PKUri, PVUri u => if isnil (url_string u) then [] else hd :: wrs (url_encode u)
  | PKText quoted, PVText s =>
    if isnil s then [] else hd :: (if quoted then write_quoted s else write_text s)
  | PKTexts, PVTexts l =>
    match l with
    | [] => []
    | s :: l' => hd :: write_quoted s ++ flat_map (fun s => Wr (bs ",") :: write_quoted s) l'
    end
  | PKAddrs, PVAddrs l =>
    match l with
    | [] => []
    | u :: l' => hd :: wrs (url_encode u) ++ flat_map (fun u => Wr (bs ",") :: wrs (url_encode u)) l'
    end
  | PKEnum free ws, PVEnum n => hd :: enum_word free ws n
  | PKUnit w, PVUnit => [hd; Wr w]
  | PKRegex, PVText s => if isnil s then [] else hd :: write_text s
  | PKBool, PVBool b => if b then hd :: wrs (boolean_encode b) else []
  | _, _ => []     (* not a value of the type *)
  end.

(** [valid] *)
Definition param_valid (k : pkind) (v : pval) : option gerr :=
  match k, v with
  | PKText _, PVText s => if contains_any s nonsafe31 then Some ErrInvalidText else None
  | PKTexts, PVTexts l => if existsb (fun s => contains_any s nonsafe31) l then Some ErrInvalidText else None
  | PKEnum free ws, PVEnum n =>
    if free then None
    else if in_range 0 (Z.of_nat (length ws) - 1) n then None else Some ErrInvalidValue
  | PKRegex, PVText s => if regex_match s then None else Some ErrInvalidValue
  | _, _ => None
  end.

(** Values of the Go type (enumerations are bytes). *)
Definition wt_param (k : pkind) (v : pval) : bool :=
  match k, v with
  | PKUri, PVUri _ | PKText _, PVText _ | PKTexts, PVTexts _ | PKAddrs, PVAddrs _
  | PKUnit _, PVUnit | PKRegex, PVText _ | PKBool, PVBool _ => true
  | PKEnum _ _, PVEnum n => in_range 0 255 n
  | _, _ => false
  end.

End Params.
