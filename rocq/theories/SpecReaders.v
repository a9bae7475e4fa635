(** Readers that give their data in small pieces. *)
From Coq Require Import List Bool.
From Verif Require Import Base SpecLines.
Import ListNotations.

(** One byte at a time, like testing/iotest.OneByteReader. *)
Definition byte_by_byte (s : bytes) : list bytes := map (fun c => [c]) s.

(** Line by line. A line has something in it, and a continuation more than its space. *)
Definition line_like (l : bytes) : Prop := l <> [] /\ ~ In CR l /\ ~ In LF l /\ l <> [SP].
Definition line_by_line (ls : list bytes) : list bytes := map (fun l => l ++ CRLF) ls.
(** The text with the line ends before continuations left out, but not their spaces. *)
Fixpoint after_line (ls : list bytes) : bytes :=
  match ls with
  | [] => CRLF
  | l :: ls => match l with c :: _ => if beqc c SP then [] else CRLF | [] => CRLF end ++ l ++ after_line ls
  end.
Definition joined (ls : list bytes) : bytes := match ls with [] => [] | l :: ls => l ++ after_line ls end.

(** [s] holds two carriage returns in a row. *)
Definition double_cr (s : bytes) : Prop := exists a b, s = a ++ [CR; CR] ++ b.
