(** Properties C112 and C113: nil pointers, and the types of alarms. *)
From Coq Require Import String Ascii List.
From Verif Require Import Base Types Params Props Tokeniser SpecContent GoTime SecTable Sections Folder Codec SpecLines SpecTree SpecRules EncodeProofs SampleKeep Pointers SpecPointers PointersProofs SamplePointers.
Import ListNotations.

(** C112 is false: Encode panics on a nil calendar, and on an alarm that is a nil pointer. *)
Theorem C112_encode_panics_refuted {env : Env} : @GEncode env _ Empty_set ok_writer [] (Some (nil_cal SAlarmAudio)) = GPanic [] /\ @GEncode env _ Empty_set ok_writer [] None = GPanic [].
Proof. exact nil_panics. Qed.
Print Assumptions C112_encode_panics_refuted.
(** Exactly when it does: for a nil calendar, or if the pointer, of any type but AlarmNone, comes before everything
    that is refused. Nothing has been written then. *)
Theorem C112_encode_panics_iff {env : Env} {W E} (wr : W -> bytes -> W * option E) w c w' :
  GEncode wr w c = GPanic w' <-> w' = w /\ (c = None \/ exists x a id b, c = Some x /\ looked x = a ++ SeenNil id :: b /\ id <> SAlarmNone /\ Forall fine a).
Proof. exact (encode_panics wr w c w'). Qed.
Print Assumptions C112_encode_panics_iff.
Example C112_iff_applies {env : Env} : exists a b, looked (nil_cal SAlarmAudio) = a ++ SeenNil SAlarmAudio :: b /\ SAlarmAudio <> SAlarmNone /\ Forall fine a /\ a <> [].
Proof. exact nil_seen. Qed.
(** Without such pointers it does not, and does what the other theorems say about Encode: *)
Theorem C112_no_nil_partial {env : Env} {W E} (wr : W -> bytes -> W * option E) w x : (forall id, In (SeenNil id) (looked x) -> id = SAlarmNone) -> GEncode wr w (Some x) = GRes (Encode wr w (plain x)).
Proof. exact (encode_plain wr w x). Qed.
Print Assumptions C112_no_nil_partial.
Example C112_applies {env : Env} : exists out, @GEncode env _ Empty_set ok_writer [] (Some (nil_cal SAlarmNone)) = GRes (EncDone None out) /\ (forall id, In (SeenNil id) (looked (nil_cal SAlarmNone)) -> id = SAlarmNone) /\ In (SeenNil SAlarmNone) (looked (nil_cal SAlarmNone)).
Proof. exact none_fine. Qed.
(** for one, on every calendar that Decode returns. *)
Theorem C112_decoded_partial {env : Env} {W E} (wr : W -> bytes -> W * option E) w cal : GEncode wr w (Some (lift cal)) = GRes (Encode wr w cal).
Proof. exact (encode_lift wr w cal). Qed.
Print Assumptions C112_decoded_partial.

(** C113: the type of a decoded alarm is the value of an ACTION line of the text, letter by letter, and it is the action
    that Encode writes. *)
Theorem C113_alarm_type {env : Env} s cal x vs a : decode_bytes s = Ok cal -> part_of x cal -> In vs (sec_fields x) -> In (FVAlarm (Some a)) vs ->
  exists ls l tail t, s = lines_text ls ++ tail /\ In l ls /\ cl_name l = bs "ACTION" /\ cl_value l = t /\ alarm_type (GTo (lift a)) = Some t /\
  fval_encode (FVAlarm (Some a)) = Wr (begin_line (bs "VALARM")) :: Wr (bs "ACTION:" ++ t ++ CRLF) :: sec_encode a ++ [Wr (end_line (bs "VALARM"))].
Proof. exact (decoded_type s cal x vs a). Qed.
Print Assumptions C113_alarm_type.
Example C113_applies {env : Env} : exists cal x vs a, decode_bytes text_keep = Ok cal /\ part_of x cal /\ In vs (sec_fields x) /\ In (FVAlarm (Some a)) vs /\ alarm_type (GTo (lift a)) = Some (bs "DISPLAY").
Proof. exact type_case. Qed.
