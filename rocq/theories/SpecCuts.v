(** Which reads the unfolder asks for, and where they end. *)
From Coq Require Import List Bool Arith.
From Verif Require Import Base SpecLines Unfolder.
Import ListNotations.

(** [fills n r ds ended r']: with [n] bytes of room, reads from [r] give the pieces [ds] until the room is full or
    the reader ends. Removing folds makes room again. *)
Inductive fills : nat -> rdr -> list bytes -> bool -> rdr -> Prop :=
| Fills_full r : fills 0 r [] false r
| Fills_end n r d e r' : 0 < n -> rd r n = (d, Some e, r') -> fills n r [d] true r'
| Fills_more n r d r' ds en r'' : 0 < n -> rd r n = (d, None, r') -> fills (length d - length (unfold d)) r' ds en r'' -> fills n r (d :: ds) en r''.

(** After a CR two more bytes are asked for, after CR LF one. *)
Definition asks (q : bytes) : nat :=
  match rev q with
  | [] => 0
  | c :: q' => if beqc c CR then 2 else match q' with c' :: _ => if beqc c LF && beqc c' CR then 1 else 0 | [] => 0 end
  end.

(** [reads sizes i held r ds]: the pieces that are read in the calls number [i] and following, with room for [sizes i], ...
    bytes, when [held] is held back from the call before. *)
Inductive reads (sizes : nat -> nat) : nat -> bytes -> rdr -> list bytes -> Prop :=
| Reads_end i held r ds r' : fills (sizes i - length held) r ds true r' -> reads sizes i held r ds
| Reads_next i held r ds r' more : fills (sizes i - length held) r ds false r' ->
    asks (held ++ concat (map unfold ds)) = 0 -> reads sizes (S i) [] r' more -> reads sizes i held r (ds ++ more)
| Reads_ahead i held r ds r' k d r'' more : fills (sizes i - length held) r ds false r' ->
    asks (held ++ concat (map unfold ds)) = S k -> rd r' (S k) = (d, None, r'') -> reads sizes (S i) d r'' more -> reads sizes i held r (ds ++ d :: more)
| Reads_ahead_end i held r ds r' k d e r'' : fills (sizes i - length held) r ds false r' ->
    asks (held ++ concat (map unfold ds)) = S k -> rd r' (S k) = (d, Some e, r'') -> reads sizes i held r (ds ++ [d]).

(** No fold lies across the end of a piece. *)
Definition no_cut (ds : list bytes) : Prop := forall xs ys, ds = xs ++ ys ->
  (forall a b, concat (map unfold xs) = a ++ [CR] -> concat ys <> LF :: SP :: b) /\
  (forall a b, concat (map unfold xs) = a ++ CRLF -> concat ys <> SP :: b).
(** A piece with a fold that ends like one. *)
Definition stuck (d : bytes) : Prop := has_fold d /\ bad_tail d.
