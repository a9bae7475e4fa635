(** What becomes of a calendar that is written, and read in any number of reads. *)
From Coq Require Import List Arith.
From Verif Require Import Base Unfolder GoTime SecTable Sections Folder Codec SpecCuts EncodeProofs.
Import ListNotations.

(** Encode writes [cal], and Decode, given the text in reads of which none ends inside a fold, or ends like a fold after one, ends with [r]. *)
Definition read_in_parts {env : Env} (cal : sec) (r : res sec) : Prop := exists out, Encode ok_writer [] cal = EncDone None out /\
  forall chunks sizes ds, concat chunks = concat out -> (forall i, 2 <= sizes i) -> reads sizes 0 [] (Rdr chunks false REOF) ds -> no_cut ds -> Forall (fun d => ~ stuck d) ds ->
  exists n, forall fuel, n <= fuel -> Decode fuel sizes chunks false = r.
