(** The calls that a writer gets for a sample calendar. *)
From Coq Require Import String Ascii ZArith Bool List.
From Verif Require Import Base Utf8 Folder GoTime Types Params Props Sections Codec SpecOut Sample SampleWritten SpecCalls.
Import ListNotations.

Definition fails_at (k n : nat) (q : bytes) : nat * option nat := (S n, if Nat.leb k n then Some n else None).
Theorem calls_case : @cal_typed env0 cal1 /\ @cal_clean env0 cal1 /\ (exists w, @Encode env0 _ _ (logging (fails_at 5)) (0, []) cal1 = EncDone (Some 5) w) /\
  length (calls (@Encode env0 _ _ (logging (fails_at 5)) (0, []) cal1)) = 6 /\
  existsb (beq eol) (calls (@Encode env0 _ _ (logging (fails_at 1000)) (0, []) cal1)) = true /\
  existsb (fun q => Nat.leb 50 (length q)) (calls (@Encode env0 _ _ (logging (fails_at 1000)) (0, []) cal1)) = true.
Proof.
  destruct cal1_case as (out & _ & _ & _ & _ & T & C & _). split; [exact T|]. split; [exact C|]. split; [eexists; vm_compute; reflexivity|]. repeat split; vm_compute; reflexivity.
Qed.
