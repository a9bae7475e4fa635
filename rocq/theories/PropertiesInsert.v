(** Property C115: the text of a calendar, value by value. [inserted v x y]: [y] is [x] with the value [v] (a property, a
    component or an alarm) put into a field of it, or of a component or alarm in it, at any depth; a list of whole lines is
    nothing or ends with a line end. *)
From Coq Require Import String Ascii ZArith Bool List.
From Verif Require Import Base GoTime Types Params PropTable Props SecTable Sections Folder Codec EncodeProofs SpecInsert InsertProofs SampleCal SampleInsert.
Import ListNotations.

(** C115: each value has a text of its own, of whole lines. If a calendar is written, so is the one with one value less, and
    the two outputs differ in the text of that value alone, which stands between two lines. *)
Theorem C115_value_by_value {env : Env} : exists text : fval -> bytes, forall v x y out, inserted v x y -> Encode ok_writer [] y = EncDone None out ->
  exists out0 a c, Encode ok_writer [] x = EncDone None out0 /\ concat out0 = a ++ c /\ concat out = a ++ text v ++ c /\ whole_lines a /\ whole_lines (text v) /\ whole_lines c.
Proof. exact value_by_value. Qed.
Print Assumptions C115_value_by_value.
(** C115: a value that is written somewhere is written anywhere: whether Encode can write a value does not depend on what
    is around it. *)
Theorem C115_written_anywhere {env : Env} v x y out x' y' out' : inserted v x y -> Encode ok_writer [] y = EncDone None out -> inserted v x' y' -> Encode ok_writer [] x' = EncDone None out' ->
  exists out1, @Encode env _ Empty_set ok_writer [] y' = EncDone None out1.
Proof. exact (inserted_writes v x y out x' y' out'). Qed.
Print Assumptions C115_written_anywhere.
Example C115_applies {env : Env} : inserted modified cal_plain cal_modified /\ exists out, @Encode env _ Empty_set ok_writer [] cal_modified = EncDone None out.
Proof. exact (conj insert_case insert_written). Qed.
