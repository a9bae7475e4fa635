(** The two things that can make Decode panic. *)
From Coq Require Import String Ascii ZArith Bool List.
From Verif Require Import Base GoStrings Tokeniser SpecContent GoTime Types Params SpecTree.
Import ListNotations.

Section Panic.
Context {env : Env}.
(** A plus sign and one digit. *)
Definition bad_day (w : bytes) : Prop := exists d, is_digit d = true /\ w = ["+"%char; d].
(** A rule with a BYDAY list that has such an element. *)
Definition bad_rule (s : bytes) : Prop := exists v w,
  In (bs "BYDAY=" ++ v) (split ";"%char s) /\ In w (split ","%char v) /\ bad_day w.
Definition alarm_line (l : cline) : Prop := is_begin l /\ upper (cl_value l) = bs "VALARM".
(** Lines that do not end the reading of an alarm's lines: the name is compared as it is written. *)
Definition open_alarm (ls : list cline) : Prop := Forall (fun l => cl_name l <> bs "BEGIN" /\ cl_name l <> bs "END") ls.
Definition rule_line (l : cline) : Prop := line_is (bs "RRULE") l /\ bad_rule (cl_value l).
End Panic.
