(** Calendars put together and taken apart. *)
From Coq Require Import String Ascii ZArith Bool List.
From Verif Require Import Base Tokeniser SpecContent GoTime Types Params ParamTable PropTable Props SecTable Sections SpecTree Codec.
Import ListNotations.

Section Merge.
Context {env : Env}.

(** The lines of a calendar's own, and its components. *)
Definition is_line (i : item) : bool := match i with ILine _ => true | _ => false end.
Definition own_lines (items : list item) : list item := filter is_line items.
Definition components (items : list item) : list item := filter (fun i => negb (is_line i)) items.

(** The version and product of the first, the components of both: those of the first come first. *)
Fixpoint join_fields (a b : list (list fval)) : list (list fval) :=
  match a, b with x :: a', y :: b' => (x ++ y) :: join_fields a' b' | _, _ => [] end.
Definition merged (x y : sec) : sec := Sec SCalendar (firstn 2 (sec_fields x) ++ join_fields (skipn 2 (sec_fields x)) (skipn 2 (sec_fields y))).
(** Decode returns a calendar. *)
Definition readable (s : bytes) : Prop := exists cal, decode_bytes s = Ok cal.
End Merge.
