(** Property C104: how much a decoded calendar holds. [held cal] counts components, properties, parameters, the members
    of lists, and the bytes of texts and of binary data; [tame s]: no caret in [s], and a printable ASCII character
    after every backslash. *)
From Coq Require Import String Ascii ZArith Bool List.
From Verif Require Import Base Unfolder GoTime Sections SpecTree Codec OnDemand SpecSize SampleDemand SizeProofs SampleSize.
Import ListNotations.

(** C104: a calendar never holds more than twice its text, ... *)
Theorem C104_held_partial {env : Env} s cal : decode_bytes s = Ok cal -> held cal <= 2 * length s.
Proof. exact (held_twice s cal). Qed.
Print Assumptions C104_held_partial.
(** ... from whatever reader it comes, ... *)
Theorem C104_held_read {env : Env} fuel sizes r cal : result fuel sizes r = Ok cal -> held cal <= 2 * length (concat (r_chunks r)).
Proof. exact (held_read fuel sizes r cal). Qed.
Print Assumptions C104_held_read.
Theorem C104_held_decode {env : Env} fuel sizes chunks w cal : Decode fuel sizes chunks w = Ok cal -> held cal <= 2 * length (concat chunks).
Proof. exact (held_decode fuel sizes chunks w cal). Qed.
Print Assumptions C104_held_decode.
(** ... and no more than the text if it is tame. *)
Theorem C104_held_tame {env : Env} s cal : tame s -> decode_bytes s = Ok cal -> held cal <= length s.
Proof. exact (held_once s cal). Qed.
Print Assumptions C104_held_tame.
(** But it may hold more than the text: an escape that is not known is kept and, if the byte after it is not UTF-8, put
    in other words; a caret in a parameter is written again with what it stands for. *)
Theorem C104_held_refuted {env : Env} : exists s cal, decode_bytes s = Ok cal /\ length s < held cal.
Proof. exact held_more. Qed.
Print Assumptions C104_held_refuted.
Theorem C104_held_params_refuted {env : Env} : exists cal, decode_bytes (size_text bad_carets) = Ok cal /\ length (size_text bad_carets) < held cal.
Proof. exact held_more_params. Qed.
Print Assumptions C104_held_params_refuted.
Example C104_applies {env : Env} : (exists cal, decode_bytes (size_text good_desc) = Ok cal) /\ tame (size_text good_desc) /\ (exists cal, decode_bytes (size_text bad_escapes) = Ok cal).
Proof. exact size_case. Qed.
Example C104_counts {env : Env} : exists cal, decode_bytes (size_text good_desc) = Ok cal /\ held cal = 68.
Proof. exact held_example. Qed.
