(** Media types for the theorems of PropertiesMedia.v. *)
From Coq Require Import String Ascii ZArith Bool List Lia.
From Verif Require Import Base GoTime Types Params PropTable Props SpecContent SpecProps SpecLetters SpecMedia MediaProofs LetterProofs Sample.
Import ListNotations.
Local Open Scope Z_scope.

Lemma letter_reg c : Utf8.in_range 97 122 (code c) = true -> reg_char c.
Proof. intros H. left. eexists. left. apply letter_up, H. Qed.
Theorem media_cases : media_type (bs "application/vnd.a^b") /\ In "^"%char (bs "application/vnd.a^b") /\
  @prop_decode env0 PrAttachment (params_tokens (with_type false (bs "application/vnd.a^b"))) (bs "http://a") = Ok (PStruct [Some (PVText (bs "application/vnd.a^b"))] [Some (VURI (bs "http://a" : @url env0)); None]) /\
  @prop_decode env0 PrAttachment (params_tokens (with_type false (bs "x ///"))) (bs "http://a") = Ok (PStruct [Some (PVText (bs "x ///"))] [Some (VURI (bs "http://a" : @url env0)); None]).
Proof.
  split; [|split; [cbn; tauto|split; [vm_compute; reflexivity|vm_compute; reflexivity]]].
  exists (bs "application"), (bs "vnd.a^b"). split; [reflexivity|]. split; (split; [cbn; lia|]); repeat (constructor; [first [apply letter_reg; reflexivity|right; cbn; tauto]|]); constructor.
Qed.
