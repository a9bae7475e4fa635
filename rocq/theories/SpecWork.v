(** Adding up over the lines of a text. *)
From Coq Require Import String Ascii ZArith Bool List.
From Verif Require Import Base GoStrings Tokeniser SpecContent GoTime Types Params Props Sections.
Import ListNotations.

Definition over (f : cline -> nat) (ls : list cline) : nat := list_sum (map f ls).
Definition begins_alarm {env : Env} (l : cline) : Prop := upper (cl_name l) = bs "BEGIN" /\ upper (cl_value l) = bs "VALARM".
(** The tokens of a line, and the bytes in them. *)
Definition token_size (d : list token) : nat := list_sum (map (fun t => 1 + length (t_data t)) d).
