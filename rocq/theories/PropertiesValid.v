(** Property C60: what Encode accepts. [cal_ok] is written out in SpecValid.v, value by value. *)
From Coq Require Import String List ZArith.
From Verif Require Import Base Folder GoTime EncodeProofs Types Props Sections Codec SpecProps SpecValid ValidProofs RoundProofs SampleCal.
Import ListNotations.

(** C60: Encode refuses exactly the calendars with an unacceptable value, and then writes nothing. *)
Theorem C60_encode_refuses_exactly {env : Env} {W E} (wr : W -> bytes -> W * option E) w cal :
  ((exists e, Encode wr w cal = EncInvalid e w) <-> ~ cal_ok cal) /\ ((forall e w', Encode wr w cal <> EncInvalid e w') <-> cal_ok cal).
Proof. exact (encode_refuses wr w cal). Qed.
Print Assumptions C60_encode_refuses_exactly.

Example C60_applies {env : Env} : cal_ok cal_plain /\ ~ cal_ok cal_year1.
Proof. exact (conj (proj1 (sec_valid_iff cal_plain) (proj2 (proj2 (proj2 (proj2 plain_case))))) (proj1 (proj1 (encode_refuses ok_writer [] cal_year1)) (proj2 year1_refused _ _ ok_writer []))). Qed.
