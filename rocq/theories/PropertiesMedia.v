(** Property C127: media types. [media_type t]: [t] is a media type of RFC 4288 (SpecMedia.v); [media_like t]: somewhere in [t] there is a
    slash between two characters of a set (SpecValid.v); [with_type q t]: the parameter FMTTYPE with the text [t], in quotes or not. *)
From Coq Require Import String Ascii ZArith Bool List.
From Verif Require Import Base Tokeniser GoTime Types Params ParamTable PropTable Props Sections Folder Codec SpecContent SpecProps SpecValid SpecMedia MediaProofs Sample SampleMedia.
Import ListNotations.
Local Open Scope Z_scope.

(** C127: every media type is read as it is, and accepted by Encode; ... *)
Theorem C127_media_types_partial {env : Env} q t d u : url_parse d = Some u -> media_type t ->
  prop_decode PrAttachment (params_tokens (with_type q t)) d = Ok (PStruct [Some (PVText t)] [Some (VURI u); None]) /\
  prop_valid PrAttachment (PStruct [Some (PVText t)] [Some (VURI u); None]) = None.
Proof. exact (fun U M => conj (proj2 (attach_types q t d u _ U) (conj (media_type_like t M) eq_refl)) (proj2 (attach_valid t u) (media_type_like t M))). Qed.
Print Assumptions C127_media_types_partial.
(** ... what else is read and accepted; ... *)
Theorem C127_types_read {env : Env} q t d u p : url_parse d = Some u ->
  (prop_decode PrAttachment (params_tokens (with_type q t)) d = Ok p <-> media_like t /\ p = PStruct [Some (PVText t)] [Some (VURI u); None]).
Proof. exact (attach_types q t d u p). Qed.
Print Assumptions C127_types_read.
Theorem C127_types_accepted {env : Env} t u : prop_valid PrAttachment (PStruct [Some (PVText t)] [Some (VURI u); None]) = None <-> media_like t.
Proof. exact (attach_valid t u). Qed.
Print Assumptions C127_types_accepted.
(** ... any text with three slashes is, and is no media type; ... *)
Theorem C127_only_media_types_refuted a b : media_like (a ++ bs "///" ++ b) /\ ~ media_type (a ++ bs "///" ++ b).
Proof. exact (slashes a b). Qed.
Print Assumptions C127_only_media_types_refuted.
(** ... and a media type with a caret, which RFC 4288 allows, makes Encode run for ever. *)
Theorem C127_carets_refuted {env : Env} {W E : Type} (wr : W -> bytes -> W * option E) w cal t u : sec_valid cal = None ->
  has_prop cal PrAttachment (PStruct [Some (PVText t)] [Some (VURI u); None]) -> In "^"%char t -> exists w', Encode wr w cal = EncHang w'.
Proof. exact (caret_types wr w cal t u). Qed.
Print Assumptions C127_carets_refuted.
Example C127_applies : media_type (bs "application/vnd.a^b") /\ In "^"%char (bs "application/vnd.a^b") /\
  @prop_decode env0 PrAttachment (params_tokens (with_type false (bs "application/vnd.a^b"))) (bs "http://a") = Ok (PStruct [Some (PVText (bs "application/vnd.a^b"))] [Some (VURI (bs "http://a" : @url env0)); None]) /\
  @prop_decode env0 PrAttachment (params_tokens (with_type false (bs "x ///"))) (bs "http://a") = Ok (PStruct [Some (PVText (bs "x ///"))] [Some (VURI (bs "http://a" : @url env0)); None]).
Proof. exact media_cases. Qed.
