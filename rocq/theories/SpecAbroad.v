(** What becomes of a calendar that is written and read. *)
From Coq Require Import String Ascii ZArith Bool List.
From Verif Require Import Base GoTime Types PropTable Props SecTable Sections Folder Codec ShapeProofs EncodeProofs.
Import ListNotations.

(** Encode writes [cal], and Decode, given the text in one read, ends with [r]. *)
Definition read_again {env : Env} (cal : sec) (r : res sec) : Prop := exists out, Encode ok_writer [] cal = EncDone None out /\
  forall w sizes, (forall i, 1 <= sizes i) -> length (concat out) <= sizes 0 -> exists n, forall fuel, n <= fuel -> Decode fuel sizes [concat out] w = r.
