(** Model of tokeniser.go: the token state functions and the phraser, over the unfolded input. *)
From Coq Require Import String Ascii ZArith Bool List.
From Verif Require Import Base Strtok.
Import ListNotations.

(** tokeniser.go:10-16, plus the library's TokenDone and TokenError. *)
Inductive ttype := tokenName | tokenParamName | tokenParamQuotedValue | tokenParamValue | tokenValue
                 | TokenDone | TokenError.
Record token := Token { t_type : ttype; t_data : bytes }.

Definition ttype_eqb (a b : ttype) : bool :=
  match a, b with
  | tokenName, tokenName | tokenParamName, tokenParamName
  | tokenParamQuotedValue, tokenParamQuotedValue | tokenParamValue, tokenParamValue
  | tokenValue, tokenValue | TokenDone, TokenDone | TokenError, TokenError => true
  | _, _ => false
  end.

(** tokeniser.go:21 *)
Definition ianaToken : bytes :=
  bs "ABCDEFGHIJKLMNOPQRSTUVWXYZabcdefghijklmnopqrstuvwxyz0123456789-".

(** tokeniser.go:22 *)
Definition nonsafeChars : bytes :=
  map chr [0;1;2;3;4;5;6;7;8;11;12;13;14;15;16;17;18;19;20;21;22;23;24;25;26;27;28;29;30;31;127;10]%Z
  ++ [DQ] ++ bs ";:,".

(** The slices of [nonsafeChars] that the package uses. *)
Definition nonsafe31 : bytes := firstn 31 nonsafeChars.  (* control characters but TAB and LF *)
Definition nonsafe32 : bytes := firstn 32 nonsafeChars.  (* control characters but TAB *)
Definition nonsafe33 : bytes := firstn 33 nonsafeChars.  (* ... and the double quote *)
Definition needquote : bytes := skipn 32 nonsafeChars.   (* double quote, semicolon, colon, comma *)

(** The state function to run next. *)
Inductive tstate := SName | SParamName | SParamValue | SValue | SDone | SError (e : gerr).

(** tokeniser.go:38-67 *)
Definition parseName (t : tok) : token * tstate * tok :=
  let '(nxt, t) := accept_run ianaToken t in
  let '(name, t) := get t in
  match name with
  | [] =>
    match nxt with
    | None => (Token TokenDone [], SDone, t)
    | Some _ => (Token TokenError [], SError ErrInvalidContentLine, t)
    end
  | _ =>
    match nxt with
    | Some c =>
      if beqc c ";" then (Token tokenName name, SParamName, t)
      else if beqc c ":" then (Token tokenName name, SValue, t)
      else (Token TokenError [], SError ErrInvalidContentLineName, t)
    | None => (Token TokenError [], SError ErrInvalidContentLineName, t)
    end
  end.

(** tokeniser.go:69-80 *)
Definition parseParamName (t : tok) : token * tstate * tok :=
  let '(_, t) := accept (bs ";") t in
  let '(_, t) := get t in
  let '(nxt, t) := accept_run ianaToken t in
  match nxt with
  | Some c =>
    if beqc c "=" then let '(d, t) := get t in (Token tokenParamName d, SParamValue, t)
    else (Token TokenError [], SError ErrInvalidContentLineParamName, t)
  | None => (Token TokenError [], SError ErrInvalidContentLineParamName, t)
  end.

(** tokeniser.go:108-119 *)
Definition afterParamValue (tk : token) (t : tok) : token * tstate * tok :=
  match peek t with
  | Some c =>
    if beqc c "," then (tk, SParamValue, t)
    else if beqc c ";" then (tk, SParamName, t)
    else if beqc c ":" then (tk, SValue, t)
    else (Token TokenError [], SError ErrInvalidContentLineParamValue, t)
  | None => (Token TokenError [], SError ErrInvalidContentLineParamValue, t)
  end.

(** tokeniser.go:82-120 *)
Definition parseParamValue (t : tok) : token * tstate * tok :=
  let '(_, t) := accept (bs "=,") t in
  let '(_, t) := get t in
  let '(q, t) := accept [DQ] t in
  if q then
    let '(_, t) := get t in
    let '(nxt, t) := except_run nonsafe33 t in
    match nxt with
    | Some c =>
      if beqc c DQ then
        let '(d, t) := get t in
        let '(_, t) := accept [DQ] t in
        afterParamValue (Token tokenParamQuotedValue d) t
      else (Token TokenError [], SError ErrInvalidContentLineQuotedParamValue, t)
    | None => (Token TokenError [], SError ErrInvalidContentLineQuotedParamValue, t)
    end
  else
    let '(_, t) := except_run nonsafeChars t in
    let '(d, t) := get t in
    afterParamValue (Token tokenParamValue d) t.

(** tokeniser.go:122-147 *)
Definition parseValue (t : tok) : token * tstate * tok :=
  let '(_, t) := accept (bs ":") t in
  let '(_, t) := get t in
  let '(nxt, t) := except_run nonsafe32 t in
  match nxt with
  | None => let '(d, t) := get t in (Token tokenValue d, SDone, t)
  | Some c =>
    if beqc c CR then
      let '(d, t) := get t in
      let '(_, t) := accept [CR] t in
      let '(ok, t) := accept [LF] t in
      if ok then let '(_, t) := get t in (Token tokenValue d, SName, t)
      else (Token TokenError [], SError ErrInvalidContentLineValue, t)
    else (Token TokenError [], SError ErrInvalidContentLineValue, t)
  end.

(** The library's token loop: run the current state function. *)
Record tkz := Tkz { z_state : tstate; z_tok : tok }.

Definition next_token (z : tkz) : token * tkz :=
  let '(tk, s, t) :=
    match z_state z with
    | SName => parseName (z_tok z)
    | SParamName => parseParamName (z_tok z)
    | SParamValue => parseParamValue (z_tok z)
    | SValue => parseValue (z_tok z)
    | SDone => (Token TokenDone [], SDone, z_tok z)
    | SError e => (Token TokenError [], SError e, z_tok z)
    end in
  (tk, Tkz s t).

(** A phrase: a content line with its tokens (name, parameters, value), or the end of input. *)
Inductive phrase := PhraseLine (data : list token) | PhraseDone.

(** The error of a tokeniser in the error state (parser.Parser.Err). *)
Definition state_err (z : tkz) : gerr :=
  match z_state z with SError e => e | _ => ErrStd end.

(** tokeniser.go:158-164: parameters, then the value. [pk] is the token read ahead by the failed
    [Accept]; [acc] the tokens of the phrase so far. [AcceptRun] of values is [inval = true]. *)
Fixpoint phrase_rest (fuel : nat) (inval : bool) (acc : list token) (z : tkz) : res (phrase * tkz) :=
  match fuel with
  | O => NoFuel
  | S f =>
    let '(tk, z) := next_token z in
    match t_type tk with
    | tokenParamName =>
      (* line 158 accepts the name; line 159 needs a value next *)
      let '(tv, z) := next_token z in
      match t_type tv with
      | tokenParamValue | tokenParamQuotedValue => phrase_rest f true (acc ++ [tk; tv]) z
      | _ => Err (state_err z)
      end
    | tokenParamValue | tokenParamQuotedValue =>
      if inval then phrase_rest f true (acc ++ [tk]) z else Err (state_err z)
    | tokenValue => Ok (PhraseLine (acc ++ [tk]), z)
    | _ => Err (state_err z)
    end
  end.

(** tokeniser.go:149-171 with parser.Parser.GetPhrase. *)
Definition get_phrase_fuel (fuel : nat) (z : tkz) : res (phrase * tkz) :=
  let '(tk, z) := next_token z in
  match t_type tk with
  | tokenName => phrase_rest fuel false [tk] z
  | TokenDone => Ok (PhraseDone, z)
  | _ => Err (state_err z)
  end.

(** Every token reads at least one byte, except the last two of the input. *)
Definition get_phrase (z : tkz) : res (phrase * tkz) :=
  get_phrase_fuel (S (S (length (trest (z_tok z))))) z.

(** tokeniser.go:29-36 *)
Definition new_tokeniser (s : bytes) : tkz := Tkz SName (new_tok s).
