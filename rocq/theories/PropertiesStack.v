(** Property C108: how many calls of Decode wait for each other, and with them the stack. [decode_calls s] (Stack.v): the largest
    number of calls that have not returned at the same time, Decode included; [cut_into s ls en]: [ls] are the lines of [s]
    (SpecFail.v); [nested_within n ls]: no stretch of [ls] has more than [n] lines BEGIN more than lines END; [box n]: a
    component called X with [n] others inside each other. *)
From Coq Require Import String Ascii ZArith Bool List.
From Verif Require Import Base SpecContent GoTime Types Params Props SecTable Sections SpecTree SpecRules SpecFail Codec Stack SpecStack StackProofs SampleTree SampleStack.
Import ListNotations.

(** C108: there is no bound. In any calendar, a component that is skipped may hold any number of others inside each other, 16 bytes
    each, and there is a call for each. *)
Theorem C108_stack_refuted {env : Env} b items e tail cal n : framed b items e -> rest_ok tail -> decode_bytes (frame_text b items e ++ tail) = Ok cal ->
  framed b (box n :: items) e /\ decode_bytes (frame_text b (box n :: items) e ++ tail) = Ok cal /\
  3 + n <= decode_calls (frame_text b (box n :: items) e ++ tail) /\
  length (frame_text b (box n :: items) e ++ tail) = length (frame_text b items e ++ tail) + 16 * S n.
Proof. exact (calls_boxes b items e tail cal n). Qed.
Print Assumptions C108_stack_refuted.
(** They need not end: a line BEGIN after another is enough, whatever comes then. *)
Theorem C108_begins_refuted {env : Env} s b m rest en : cut_into s (b :: m ++ rest) en -> opens_calendar b -> Forall is_begin m ->
  (forall x m', m = x :: m' -> ~ In (upper (cl_value x)) (map fst (children SCalendar))) -> 2 + length m <= decode_calls s.
Proof. exact (calls_deep s b m rest en). Qed.
Print Assumptions C108_begins_refuted.
(** What there is: no more calls than the text is deep, and five. *)
Theorem C108_stack_partial {env : Env} s ls en n : cut_into s ls en -> nested_within n ls -> decode_calls s <= 5 + n.
Proof. exact (calls_bound s ls en n). Qed.
Print Assumptions C108_stack_partial.
Example C108_applies {env : Env} : cut_into (lines_text s_lines) s_lines AtEnd /\ nested_within 3 s_lines /\ decode_calls (lines_text s_lines) = 5 /\
  exists cal, decode_bytes (lines_text s_lines) = Ok cal.
Proof. exact stack_case. Qed.
Example C108_begins_applies {env : Env} : exists s m, cut_into s (t_begin :: m ++ []) AtEnd /\ opens_calendar t_begin /\ Forall is_begin m /\ length m = 3 /\ decode_calls s = 5 /\
  (forall x m', m = x :: m' -> ~ In (upper (cl_value x)) (map fst (children SCalendar))).
Proof. exact stack_begins. Qed.
