(** A calendar in two spellings. *)
From Coq Require Import String Ascii ZArith Bool List.
From Verif Require Import Base Lib Tokeniser SpecContent GoTime Types Params ParamTable PropTable Props SecTable Sections Codec SpecTree SpecRules SpecProps SpecEdits SpecSpell SpellProofs Sample SampleTree.
Import ListNotations.

Section S.
Context {env : Env}.
Definition w_line : cline := CLine (bs "SUMMARY") [CParam (bs "LANGUAGE") (Plain (bs "en")) []; CParam (bs "X-A") (Quoted (bs "b;c")) []; CParam (bs "x-d") (Plain (bs "e")) []] (bs "Fair").
Definition w_line' : cline := CLine (bs "summary") [CParam (bs "X-A") (Quoted (bs "b;c")) []; CParam (bs "LANGUAGE") (Quoted (bs "en")) []; CParam (bs "X-D") (Plain (bs "e")) []] (bs "Fair").
Definition w_cal (l : cline) : list item := [ILine (ln "VERSION" "2.0"); ILine (ln "PRODID" "x"); IComp (ln "BEGIN" "VEVENT") [ILine (ln "UID" "1"); ILine l; ILine (ln "DTSTAMP" "20240229T101500Z")] (ln "END" "VEVENT")].
Lemma line_same_refl l : line_same l l.
Proof. split; [reflexivity|]. split; [reflexivity|]. apply params_same_refl. Qed.
Lemma spell_case : framed t_begin (w_cal w_line) t_end /\ framed t_begin (w_cal w_line') t_end /\ Forall2 isame (w_cal w_line) (w_cal w_line') /\ exists cal, decode_bytes (frame_text t_begin (w_cal w_line) t_end) = Ok cal.
Proof.
  split; [apply framed_b; vm_compute; reflexivity|]. split; [apply framed_b; vm_compute; reflexivity|]. split.
  - constructor; [constructor; apply line_same_refl|]. constructor; [constructor; apply line_same_refl|]. constructor; [|constructor]. constructor; [split; reflexivity| |apply line_same_refl].
    constructor; [constructor; apply line_same_refl|]. constructor; [|constructor; [constructor; apply line_same_refl|constructor]]. constructor. split; [reflexivity|]. split; [reflexivity|].
    cbn [w_line w_line' cl_params]. eapply params_same_trans; [apply (swapped_same []); discriminate|]. eapply params_same_trans; [apply (quoted_value_same [_] (bs "LANGUAGE") (bs "en") [] [_]); cbn; intuition discriminate|].
    intros n. unfold given. cbn [filter app cp_name]. change (upper (bs "x-d")) with (upper (bs "X-D")). destruct (beq (upper (bs "X-A")) n), (beq (upper (bs "LANGUAGE")) n), (beq (upper (bs "X-D")) n); repeat constructor.
  - eexists. vm_compute. reflexivity.
Qed.
End S.
