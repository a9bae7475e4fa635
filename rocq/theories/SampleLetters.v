(** Texts for the theorems of PropertiesLetters.v. *)
From Coq Require Import String Ascii ZArith Bool List Lia.
From Verif Require Import Base GoTime Types Params SpecEdits SpecLetters LetterProofs.
Import ListNotations.
Local Open Scope Z_scope.

Theorem letters_case {env : Env} : same_but_case (bs "Dtstart") (bs "dTSTART") /\ like (bs "Dtstart") (bs "dTSTART") /\ ~ same_but_case (bs "DTSTART") (bs "DTSTAMP") /\ ~ same_but_case (bs "a{") (bs "A[").
Proof.
  assert (A : same_but_case (bs "Dtstart") (bs "dTSTART")) by (apply (@like_letters env); [repeat constructor|repeat constructor|reflexivity]).
  split; [exact A|]. split; [exact (letters_like _ _ A)|].
  split; intros H; apply (@letters_like env) in H; vm_compute in H; discriminate H.
Qed.
(** An e with an accent, an octet that begins nothing, and the overlong form of a slash. *)
Definition e_and_bad : bytes := [chr 195; chr 169; chr 255; chr 224; chr 128; chr 175].
Theorem ranges_case {env : Env} : ranges e_and_bad [233; 65533; 65533; 65533; 65533] /\
  value_encode (VText e_and_bad) = [[chr 195; chr 169] ++ concat (repeat [chr 239; chr 191; chr 189] 4)].
Proof. split; [apply ranges_iff|]; reflexivity. Qed.
