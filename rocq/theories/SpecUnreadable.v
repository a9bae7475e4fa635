(** Recurrence rules on which Decode panics, and components that end an alarm. *)
From Coq Require Import String Ascii ZArith Bool List.
From Verif Require Import Base GoStrings Tokeniser SpecContent GoTime Types Params PropTable Props SecTable Sections SpecTree SpecLine SpecAlone SpecPlace.
Import ListNotations.

Section Unreadable.
Context {env : Env}.
(** A list of parts with a semicolon after each, and a list of days with a comma after each. *)
Definition all_ended (c : byte) (s : bytes) : Prop := s = [] \/ exists s', s = s' ++ [c].
(** [s] is a rule that is good up to a plus sign and one digit, in BYDAY: with MO in place of the two, with nothing else
    after that, and with a frequency, it can be read. *)
Definition fatal_rule (cps : list cparam) (s : bytes) : Prop := exists a b d rest,
  s = a ++ bs "BYDAY=" ++ b ++ ["+"%char; d] ++ rest /\ all_ended ";" a /\ all_ended "," b /\ ~ In ";"%char b /\ is_digit d = true /\
  (rest = [] \/ exists r, rest = bs "," ++ r \/ rest = bs ";" ++ r) /\
  exists p, line_means PrRecurrenceRule cps (a ++ bs "BYDAY=" ++ b ++ bs "MO;FREQ=DAILY") p.

(** The lines before a place; whether it is in an alarm, after its action. *)
Fixpoint lines_before (q : place) : list cline :=
  match q with
  | Here pre _ => flat_map ilines pre
  | InComp pre b q' _ _ => flat_map ilines pre ++ b :: lines_before q'
  | InAlarm pre b ls _ _ _ => flat_map ilines pre ++ b :: ls
  end.
Fixpoint after_action (q : place) : Prop :=
  match q with Here _ _ => False | InComp _ _ q' _ _ => after_action q' | InAlarm _ _ ls _ _ _ => exists id, alarm_kind ls id end.
(** A component with nothing in it, begun in lower or mixed case. *)
Definition small_box (x y : cline) : Prop := is_begin x /\ cl_name x <> bs "BEGIN" /\ cl_name y = bs "END" /\ upper (cl_value y) = upper (cl_value x).
End Unreadable.
