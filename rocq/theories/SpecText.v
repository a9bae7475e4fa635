(** Specification of escaped text (RFC 5545 section 3.3.11), independent of the decoder. *)
From Coq Require Import String Ascii ZArith Bool List.
From Verif Require Import Base Utf8.
Import ListNotations.
Local Open Scope Z_scope.

Definition is_sep (c : byte) : bool := beqc c "," || beqc c ";".
Definition is_bsl (c : byte) : bool := beqc c "\".

(** [reads s t rest]: the text [t] is read from [s] up to a separator or the end, [rest] remains.
    A backslash before a backslash, comma or semicolon stands for that character, before n or N for a
    line feed; before any other character it is kept, with that character (an invalid UTF-8 byte
    becomes U+FFFD, as does the missing character after a backslash at the end). *)
Inductive reads : bytes -> bytes -> bytes -> Prop :=
| T_end : reads [] [] []
| T_stop c s : is_sep c = true -> reads (c :: s) [] (c :: s)
| T_plain c s t rest : is_sep c = false -> is_bsl c = false -> reads s t rest -> reads (c :: s) (c :: t) rest
| T_escape e s t rest : is_sep e = true \/ is_bsl e = true -> reads s t rest ->
    reads ("\"%char :: e :: s) (e :: t) rest
| T_newline e s t rest : e = "n"%char \/ e = "N"%char -> reads s t rest ->
    reads ("\"%char :: e :: s) (LF :: t) rest
| T_other c s t rest : is_sep c = false -> is_bsl c = false -> c <> "n"%char -> c <> "N"%char ->
    reads (skipn (snd (decode_rune (c :: s))) (c :: s)) t rest ->
    reads ("\"%char :: c :: s) ("\"%char :: encode_rune (fst (decode_rune (c :: s))) ++ t) rest
| T_lone : reads (bs "\") ("\"%char :: encode_rune RuneError) [].

(** A comma or semicolon that no backslash escapes. [esc]: the previous character was an escaping
    backslash. *)
Fixpoint open_sep (esc : bool) (s : bytes) : bool :=
  match s with
  | [] => false
  | c :: s' => if esc then open_sep false s' else is_sep c || open_sep (is_bsl c) s'
  end.
