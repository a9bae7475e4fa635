(** Property C125: how much is written. [held cal] counts components, properties, parameters, the members of lists, and the bytes of texts and of
    binary data (SpecSize.v); [named_in cal]: the bytes of addresses, names of zones and numbers with a fraction, which the standard library
    writes; [cal_words cal]: all numbers in it are less than 2^64, as they are in Go;
    [zones_near]: no zone is more than 2^32 seconds away from UTC. *)
From Coq Require Import String Ascii ZArith Bool List.
From Verif Require Import Base Utf8 Folder GoTime Types Params Props Sections Codec SpecSize SpecGrow GrowProofs WordProofs Sample SampleFull SampleGrow.
Import ListNotations.

(** C125: what is written is at most 251 times what the calendar holds, however its texts are escaped and its lines are folded, ... *)
Theorem C125_written {env : Env} cal e out : cal_words cal -> Encode ok_writer [] cal = EncDone e out -> length (concat out) <= 251 * (held cal + named_in cal).
Proof. exact (encode_grows cal e out). Qed.
Print Assumptions C125_written.
(** ... and so a text that is read and written again grows by no more than a factor: the numbers that are read are less than 2^64. *)
Theorem C125_read_and_written {env : Env} s cal e out : zones_near -> decode_bytes s = Ok cal -> Encode ok_writer [] cal = EncDone e out ->
  length (concat out) <= 502 * length s + 251 * named_in cal.
Proof. exact (fun Z => read_grows Z s cal e out). Qed.
Print Assumptions C125_read_and_written.
Theorem C125_read_numbers {env : Env} s cal : zones_near -> decode_bytes s = Ok cal -> cal_words cal.
Proof. exact (fun Z => decoded_words Z s cal). Qed.
Print Assumptions C125_read_numbers.
(** Each value by itself: a text is written with at most four bytes for one of its own, and any value in proportion to what it holds. *)
Theorem C125_text {env : Env} t : length (concat (value_encode (VText t))) <= 4 * length t.
Proof. exact (text_value_length t). Qed.
Print Assumptions C125_text.
Theorem C125_value {env : Env} v : value_word v -> length (concat (value_encode v)) <= 240 * value_held v + 17 + value_named v.
Proof. exact (value_encode_length v). Qed.
Print Assumptions C125_value.
Example C125_applies : exists out, @zones_near env0 /\ @decode_bytes env0 text1 = Ok cal1 /\ @cal_words env0 cal1 /\ @Encode env0 _ _ ok_writer [] cal1 = EncDone None out /\
  (length text1, length (concat (out_of cal1)), @held env0 cal1, @named_in env0 cal1) = (780, 779, 206, 37).
Proof. exact grow_case. Qed.
