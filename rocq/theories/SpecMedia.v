(** Media types, as RFC 4288 has them. *)
From Coq Require Import String Ascii ZArith Bool List.
From Verif Require Import Base SpecContent SpecLetters.
Import ListNotations.
Local Open Scope Z_scope.

(** RFC 4288, section 4.2: letters, digits and nine marks, and 127 of them at most. *)
Definition reg_char (c : byte) : Prop := (exists d, In (c, d) letters \/ In (d, c) letters) \/ In c (bs "0123456789!#$&.+-^_").
Definition reg_name (s : bytes) : Prop := (1 <= length s <= 127)%nat /\ Forall reg_char s.
Definition media_type (s : bytes) : Prop := exists t u, s = t ++ bs "/" ++ u /\ reg_name t /\ reg_name u.
(** The parameter FMTTYPE, in quotes or not. *)
Definition with_type (q : bool) (t : bytes) : list cparam := [CParam (bs "FMTTYPE") (if q then Quoted t else Plain t) []].
