(** Property C107: no octet of a character outside ASCII is taken for a delimiter. The [r_] functions scan character by character
    (UTF-8, an invalid octet by itself), the others octet by octet. [looks]: no comparison with an ASCII character tells
    the results apart. *)
From Coq Require Import String Ascii ZArith Bool List.
From Verif Require Import Base Utf8 Strtok Tokeniser GoTime Types Params Sections Codec RuneTok SpecRune RuneProofs.
Import ListNotations.

(** C107: with a set of ASCII characters, the scans stop at the same place and have read the same octets. *)
Theorem C107_accept set t : all_ascii set -> r_accept set t = accept set t.
Proof. exact (accept_same set t). Qed.
Print Assumptions C107_accept.
Theorem C107_accept_run set t : all_ascii set ->
  looks (fst (r_accept_run set t)) (fst (accept_run set t)) /\ snd (r_accept_run set t) = snd (accept_run set t).
Proof. exact (accept_run_same set t). Qed.
Print Assumptions C107_accept_run.
Theorem C107_except_run set t : all_ascii set ->
  looks (fst (r_except_run set t)) (fst (except_run set t)) /\ snd (r_except_run set t) = snd (except_run set t).
Proof. exact (except_run_same set t). Qed.
Print Assumptions C107_except_run.
Theorem C107_peek t : looks (r_peek t) (peek t).
Proof. exact (peek_looks t). Qed.
Print Assumptions C107_peek.
(** All sets that are used are such. *)
Theorem C107_sets : Forall all_ascii sets_used.
Proof. exact sets_ascii. Qed.
Print Assumptions C107_sets.
(** A value with a letter of two octets, an invalid octet and a letter of three *)
Example C107_applies : r_except_run nonsafe32 (Tok [] (map chr [99; 195; 169; 169; 226; 130; 172; 13; 10]%Z)) =
  (Some 13%Z, Tok (map chr [99; 195; 169; 169; 226; 130; 172]%Z) [CR; LF]).
Proof. vm_compute. reflexivity. Qed.

(** C107: the tokeniser gives the same phrases, and so Decode the same calendar or error. *)
Theorem C107_phrases z : r_get_phrase z = get_phrase z.
Proof. exact (phrase_same z). Qed.
Print Assumptions C107_phrases.
Theorem C107_decode {env : Env} s : r_decode_bytes s = decode_bytes s.
Proof. exact (decode_same s). Qed.
Print Assumptions C107_decode.
(** C107: and so do the values that are scanned in the same way. *)
Theorem C107_values {env : Env} s :
  r_text_decode s = text_decode s /\ r_mtext_decode s = mtext_decode s /\ r_duration_decode s = duration_decode s /\
  r_utcoffset_decode s = utcoffset_decode s /\ r_decode6868 s = decode6868 s /\ r_encode6868 s = encode6868 s.
Proof. exact (conj (text_same s) (conj (mtext_same s) (conj (duration_same s) (conj (utcoffset_same s) (conj (decode6868_same s) (encode6868_same s)))))). Qed.
Print Assumptions C107_values.
(** A text with the letters of [C107_applies] in it *)
Example C107_text {env : Env} : r_text_decode (map chr [99; 195; 169; 92; 44; 169; 92; 226; 130; 172]%Z) =
  Ok (map chr [99; 195; 169; 44; 169; 92; 226; 130; 172]%Z).
Proof. vm_compute. reflexivity. Qed.
