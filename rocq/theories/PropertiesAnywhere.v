(** Property C117: folds at any place of a text. [folded ps]: the pieces [ps] with CR LF SP between each two; [concat ps]: the
    same text without folds. The pieces may be empty, and cut names, values and letters. *)
From Coq Require Import String Ascii List Bool.
From Verif Require Import Base SpecLines Unfolder Tokeniser GoTime PropTable Props SecTable Sections Codec SpecCuts SpecAnywhere AnywhereProofs SampleAnywhere.
Import ListNotations.

(** C117: a text that comes in one read may be folded anywhere. *)
Theorem C117_fold_anywhere {env : Env} ps w sizes : ~ has_fold (concat ps) -> ~ bad_tail (folded ps) -> (forall i, 1 <= sizes i) -> length (folded ps) <= sizes 0 ->
  exists n, forall fuel, n <= fuel -> Decode fuel sizes [folded ps] w = decode_bytes (concat ps).
Proof. exact (folded_read ps w sizes). Qed.
Print Assumptions C117_fold_anywhere.
(** C117: and one that comes in many reads, if none of them ends within a fold, or like one after another fold. *)
Theorem C117_fold_anywhere_in_reads {env : Env} ps sizes chunks ds : ~ has_fold (concat ps) -> concat chunks = folded ps -> (forall i, 2 <= sizes i) ->
  reads sizes 0 [] (Rdr chunks false REOF) ds -> no_cut ds -> Forall (fun d => ~ stuck d) ds ->
  exists n, forall fuel, n <= fuel -> Decode fuel sizes chunks false = decode_bytes (concat ps).
Proof. exact (folded_reads ps sizes chunks ds). Qed.
Print Assumptions C117_fold_anywhere_in_reads.
Example C117_applies {env : Env} : ~ has_fold (concat some_pieces) /\ ~ bad_tail (folded some_pieces) /\ length (folded some_pieces) <= 4096 /\ exists cal, decode_bytes (concat some_pieces) = Ok cal.
Proof. exact anywhere_case. Qed.
