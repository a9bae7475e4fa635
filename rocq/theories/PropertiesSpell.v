(** Property C116: the spelling of a calendar. [isame]: the same lines in the same order, up to the letter case of names (as
    in C47), the order of the parameters of a line, and quotes around parameter values; nine parameters are always in
    quotes ([quoted_params]). *)
From Coq Require Import String Ascii ZArith Bool List.
From Verif Require Import Base Tokeniser SpecContent GoTime Types Params PropTable Props SecTable Sections Codec SpecTree SpecRules SpecProps SpecEdits SpecSpell SpellProofs SampleTree SampleSpell.
Import ListNotations.

(** C116: both spellings are read as the same calendar, or neither is read. *)
Theorem C116_spelling {env : Env} b items e b' items' e' tail : framed b items e -> framed b' items' e' -> rest_ok tail ->
  begin_like b b' -> Forall2 isame items items' -> line_same e e' ->
  forall cal, decode_bytes (frame_text b items e ++ tail) = Ok cal <-> decode_bytes (frame_text b' items' e' ++ tail) = Ok cal.
Proof. exact (decode_same b items e b' items' e' tail). Qed.
Print Assumptions C116_spelling.
(** C116: what [isame] allows for the parameters of a line: that two with different names change places, that a value gets
    quotes, and any number of such steps. *)
Theorem C116_steps {env : Env} :
  (forall a x y b, upper (cp_name x) <> upper (cp_name y) -> params_same (a ++ x :: y :: b) (a ++ y :: x :: b)) /\
  (forall a n t more b, ~ In (upper n) quoted_params -> params_same (a ++ CParam n (Plain t) more :: b) (a ++ CParam n (Quoted t) more :: b)) /\
  (forall a b c, params_same a b -> params_same b c -> params_same a c).
Proof. exact (conj swapped_same (conj quoted_value_same params_same_trans)). Qed.
Print Assumptions C116_steps.
Example C116_applies {env : Env} : framed t_begin (w_cal w_line) t_end /\ framed t_begin (w_cal w_line') t_end /\ Forall2 isame (w_cal w_line) (w_cal w_line') /\ exists cal, decode_bytes (frame_text t_begin (w_cal w_line) t_end) = Ok cal.
Proof. exact spell_case. Qed.
