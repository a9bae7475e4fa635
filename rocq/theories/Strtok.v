(** Model of the string side of vimagination.zapto.org/parser (v1.0.3): [Tokeniser].

    The library is not part of the repository. Its behaviour as relied on here:
    [Accept], [AcceptRun], [ExceptRun] and [Peek] leave the rune that stopped them unread;
    [Next] reads one rune; [Get] returns everything read since the previous [Get].

    Simplification: all character sets used by the package are ASCII, so scanning byte by byte
    reads the same bytes as scanning rune by rune (no byte of a multi-byte or invalid sequence is
    below 128). The rune returned by the run functions and [Peek] is only ever compared with ASCII
    characters or -1, so it is represented by the next byte ([None] for -1). RuneTok.v reads rune by
    rune, and C107 says that it makes no difference. *)
From Coq Require Import String Ascii ZArith Bool List.
From Verif Require Import Base Utf8.
Import ListNotations.

(** [tbuf]: bytes read since the last [Get]; [trest]: bytes not read yet. *)
Record tok := Tok { tbuf : bytes; trest : bytes }.

(** parser.NewStringTokeniser *)
Definition new_tok (s : bytes) : tok := Tok [] s.

(** Tokeniser.Peek *)
Definition peek (t : tok) : option byte :=
  match trest t with [] => None | c :: _ => Some c end.

(** Tokeniser.Accept *)
Definition accept (set : bytes) (t : tok) : bool * tok :=
  match trest t with
  | c :: r => if inset c set then (true, Tok (tbuf t ++ [c]) r) else (false, t)
  | [] => (false, t)
  end.

(** Tokeniser.AcceptRun *)
Definition accept_run (set : bytes) (t : tok) : option byte * tok :=
  let '(a, r) := span (fun c => inset c set) (trest t) in
  let t' := Tok (tbuf t ++ a) r in (peek t', t').

(** Tokeniser.ExceptRun *)
Definition except_run (set : bytes) (t : tok) : option byte * tok :=
  let '(a, r) := span (fun c => negb (inset c set)) (trest t) in
  let t' := Tok (tbuf t ++ a) r in (peek t', t').

(** Tokeniser.Next: the next rune, [None] for -1 at the end of input. *)
Definition next (t : tok) : option Z * tok :=
  match trest t with
  | [] => (None, t)
  | _ => let '(r, w) := decode_rune (trest t) in
         (Some r, Tok (tbuf t ++ firstn w (trest t)) (skipn w (trest t)))
  end.

(** Tokeniser.Get *)
Definition get (t : tok) : bytes * tok := (tbuf t, Tok [] (trest t)).

Definition digits_set : bytes := bs "0123456789".
