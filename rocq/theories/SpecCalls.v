(** The calls that a writer gets. *)
From Coq Require Import List ZArith.
From Verif Require Import Base Folder Codec.
Import ListNotations.

(** A text in which CR and LF occur at most once each, as the line break that ends it. *)
Definition break_last (q : bytes) : Prop := exists l, (q = l \/ q = l ++ CRLF) /\ Forall (fun b => b <> CR /\ b <> LF) l.

(** A call is a fold, or gives a text of one line: at most 75 bytes, and the line break if it ends there. *)
Definition one_line_call (q : bytes) : Prop := q = eol \/ (break_last q /\ length q <= 77 /\ ((forall l, q <> l ++ CRLF) -> length q <= 75)).

(** The texts that a writer got in its calls, whatever became of Encode. *)
Definition calls {W E} (r : enc_result (W := W * list (bytes * option E)) (E := E)) : list bytes :=
  map fst (match r with EncInvalid _ w => snd w | EncHang w => snd w | EncDone _ w => snd w end).
