(** Properties C109 and C110: UTF-8. [values_utf8 cal]: the texts of the properties of [cal] are UTF-8; [params_utf8 cal]: the texts of
    their parameters are; [outside_utf8 cal]: the addresses and the names of time zones that they are written with are;
    [world_utf8]: addresses parsed from UTF-8 are written in UTF-8, and names of the machine's time zones are UTF-8 (SpecUtf.v);
    [phys_lines]: the lines before unfolding (SpecLines.v). *)
From Coq Require Import String Ascii ZArith Bool List.
From Verif Require Import Base Utf8 GoTime Types Params ParamTable PropTable Props SecTable Sections SpecTree SpecRules SpecProps Folder Codec SpecLines EncodeProofs SpecUtf UtfProofs UtfReadProofs Sample SampleFull SampleUtf.
Import ListNotations.

(** C109: Decode makes UTF-8 of UTF-8. No text is cut inside a character, with its escapes or without. *)
Theorem C109_decode {env : Env} s cal : decode_bytes s = Ok cal -> utf8 s -> values_utf8 cal /\ params_utf8 cal /\ (world_utf8 -> outside_utf8 cal).
Proof. exact (decoded_utf8 s cal). Qed.
Print Assumptions C109_decode.
(** Encode does: each of its writes, all that reaches the writer, and each line of it. *)
Theorem C109_encode {env : Env} cal e out : Encode ok_writer [] cal = EncDone e out -> outside_utf8 cal -> params_utf8 cal ->
  Forall utf8 (pieces (sec_encode cal)) /\ utf8 (concat out) /\ Forall utf8 (phys_lines (concat out)).
Proof. exact (encode_out_utf8 cal e out). Qed.
Print Assumptions C109_encode.
(** So do both, one after the other. *)
Theorem C109_through {env : Env} s cal e out : world_utf8 -> decode_bytes s = Ok cal -> utf8 s -> Encode ok_writer [] cal = EncDone e out ->
  utf8 (concat out) /\ Forall utf8 (phys_lines (concat out)).
Proof. exact (through_utf8 s cal e out). Qed.
Print Assumptions C109_through.
Example C109_applies {env : Env} : utf8 (u_text e_acute letters) /\ exists cal out, decode_bytes (u_text e_acute letters) = Ok cal /\ Encode ok_writer [] cal = EncDone None out /\
  has_prop cal PrDescription (PStruct [None; Some (PVText e_acute)] [Some (VText letters)]).
Proof. exact utf_case. Qed.
Example C109_world_applies : @world_utf8 env0.
Proof. exact world_case. Qed.

(** C110: what is not UTF-8 is neither refused by Decode nor by Encode. In a parameter it is kept, and written; *)
Theorem C110_only_utf8_refuted {env : Env} : ~ utf8 (u_text broken (bs "x")) /\ exists cal out, decode_bytes (u_text broken (bs "x")) = Ok cal /\ Encode ok_writer [] cal = EncDone None out /\
  ~ utf8 (concat out).
Proof. exact broken_param. Qed.
Print Assumptions C110_only_utf8_refuted.
(** in a text it is kept by Decode, and replaced by Encode without a word. *)
Theorem C110_texts_kept_refuted {env : Env} : ~ utf8 (u_text (bs "en") broken) /\ exists cal out cal', decode_bytes (u_text (bs "en") broken) = Ok cal /\
  has_prop cal PrDescription (PStruct [None; Some (PVText (bs "en"))] [Some (VText broken)]) /\ Encode ok_writer [] cal = EncDone None out /\
  utf8 (concat out) /\ decode_bytes (concat out) = Ok cal' /\ has_prop cal' PrDescription (PStruct [None; Some (PVText (bs "en"))] [Some (VText [chr 239; chr 191; chr 189])]).
Proof. exact broken_text. Qed.
Print Assumptions C110_texts_kept_refuted.
(** What there is: whatever octets a text has, it is written in UTF-8. *)
Theorem C110_texts_partial {env : Env} t l : Forall utf8 (value_encode (VText t)) /\ Forall utf8 (value_encode (VMText l)).
Proof. exact (conj (Forall_cons _ (text_bytes_utf8 t) (Forall_nil _)) (texts_utf8 l true)). Qed.
Print Assumptions C110_texts_partial.
Example C110_applies {env : Env} : ~ utf8 broken /\ value_encode (VText broken) = [[chr 239; chr 191; chr 189]].
Proof. exact (conj (not_utf8 broken eq_refl) eq_refl). Qed.
