(** A calendar with one more value. *)
From Coq Require Import List.
From Verif Require Import Base GoTime Props Sections.
Import ListNotations.

Section Insert.
Context {env : Env}.
(** [inserted v x y]: [y] is [x] with the value [v] put into a field of it, or of a component in it, at any depth. *)
Inductive inserted (v : fval) : sec -> sec -> Prop :=
| Ins_here id a u w c : inserted v (Sec id (a ++ (u ++ w) :: c)) (Sec id (a ++ (u ++ v :: w) :: c))
| Ins_comp id a u x y w c : inserted v x y -> inserted v (Sec id (a ++ (u ++ FVSec x :: w) :: c)) (Sec id (a ++ (u ++ FVSec y :: w) :: c))
| Ins_alarm id a u x y w c : inserted v x y -> inserted v (Sec id (a ++ (u ++ FVAlarm (Some x) :: w) :: c)) (Sec id (a ++ (u ++ FVAlarm (Some y) :: w) :: c)).
End Insert.
(** Whole lines. *)
Definition whole_lines (s : bytes) : Prop := s = [] \/ exists o, s = o ++ CRLF.
