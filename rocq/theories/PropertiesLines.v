(** Properties C12 and C13: content lines. *)
From Coq Require Import String List Bool.
From Verif Require Import Base SpecContent Strtok Tokeniser TokeniserProofs.
Import ListNotations.

(** C12: from [s] the parser yields a line only if [s] starts with a grammatical line that it spells
    exactly and that is ended by CR LF (which is read) or by the end of input; it reports the end only
    at the end; and it never panics or loops. *)
Theorem C12_accepted_lines_are_grammatical z s : ready z s ->
  match get_phrase z with
  | Ok (PhraseLine data, z') => exists l e, cline_wf l = true /\ data = cline_tokens l /\ line_end e z' /\ s = cline_render l ++ e
  | Ok (PhraseDone, z') => s = [] /\ ready z' []
  | Err _ => s <> []
  | Panic | NoFuel => False
  end.
Proof. exact (get_phrase_sound z s). Qed.
Print Assumptions C12_accepted_lines_are_grammatical.

(** C13: every grammatical line, ended by CR LF or by the end of input, is yielded, and the rest of
    the input is left. *)
Theorem C13_grammatical_lines_are_accepted l e z : cline_wf l = true -> line_end e z ->
  get_phrase (Tkz SName (Tok [] (cline_render l ++ e))) = Ok (PhraseLine (cline_tokens l), z).
Proof. exact (get_phrase_complete l e z). Qed.
Print Assumptions C13_grammatical_lines_are_accepted.

(** A line with quoted and plain parameter values, followed by another line. *)
Example C13_applies :
  let l := CLine (bs "ATTENDEE") [CParam (bs "CN") (Quoted (bs "Doe; J")) []; CParam (bs "X-A") (Plain (bs "1")) [Plain []; Quoted (bs "b,c")]] (bs "mailto:j@town") in
  cline_wf l = true /\
  cline_render l = bs "ATTENDEE;CN=""Doe; J"";X-A=1,,""b,c"":mailto:j@town" /\
  line_end (CRLF ++ bs "X:1") (Tkz SName (Tok [] (bs "X:1"))).
Proof. repeat split; constructor. Qed.
