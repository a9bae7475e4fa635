(** Property C124: the calls that a writer gets from Encode. [calls r]: the texts given to the writer, one for each call; [one_line_call q]:
    [q] is a fold, or has at most 75 bytes and after them at most a line break (SpecCalls.v); [cal_typed] and [cal_clean] are as in C61. *)
From Coq Require Import String Ascii ZArith Bool List.
From Verif Require Import Base Utf8 Folder GoTime Types Params Props Sections Codec SpecOut Sample SampleWritten SpecCalls CallProofs SampleCalls.
Import ListNotations.

(** C124: whatever the writer does and whatever the calendar is, no call is without a byte, so there are no more calls than bytes ... *)
Theorem C124_never_empty {env : Env} {W E} (wr : W -> bytes -> W * option E) w cal :
  Forall (fun q => q <> []) (calls (Encode (logging wr) (w, []) cal)) /\
  length (calls (Encode (logging wr) (w, []) cal)) <= length (concat (calls (Encode (logging wr) (w, []) cal))).
Proof. exact (encode_filled wr w cal). Qed.
Print Assumptions C124_never_empty.
(** ... and no call has more than a line, so nothing needs to be held back however long the values are. *)
Theorem C124_one_line {env : Env} {W E} (wr : W -> bytes -> W * option E) w cal : cal_typed cal -> cal_clean cal ->
  Forall one_line_call (calls (Encode (logging wr) (w, []) cal)).
Proof. exact (encode_short wr w cal). Qed.
Print Assumptions C124_one_line.
(** A writer that fails in its sixth call; with one that does not, there are folds and long calls. *)
Example C124_applies : @cal_typed env0 cal1 /\ @cal_clean env0 cal1 /\ (exists w, @Encode env0 _ _ (logging (fails_at 5)) (0, []) cal1 = EncDone (Some 5) w) /\
  length (calls (@Encode env0 _ _ (logging (fails_at 5)) (0, []) cal1)) = 6 /\
  existsb (beq eol) (calls (@Encode env0 _ _ (logging (fails_at 1000)) (0, []) cal1)) = true /\
  existsb (fun q => Nat.leb 50 (length q)) (calls (@Encode env0 _ _ (logging (fails_at 1000)) (0, []) cal1)) = true.
Proof. exact calls_case. Qed.
