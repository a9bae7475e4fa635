(** Properties C07-C09, C53 and the negative part of C10: how Decode reads its input. *)
From Coq Require Import String List Arith Bool.
From Verif Require Import Base SpecLines Unfolder GoTime Sections Codec DecodeProofs Sample.
Import ListNotations.

(** C07 is false: the same bytes give two different calendars, depending on where the first read ends. *)
Theorem C07_read_boundaries_refuted {env : Env} : exists s k size c1 c2, c1 <> c2 /\
  exists n, forall fuel, n <= fuel ->
    Decode fuel (fun _ => size) [s] false = Ok c1 /\
    Decode fuel (fun _ => size) [firstn k s; skipn k s] false = Ok c2.
Proof. exact decode_cut_ex. Qed.
Print Assumptions C07_read_boundaries_refuted.

(** C08: input without folds is parsed as it is, however it is read. *)
Theorem C08_fold_free_input_is_unchanged {env : Env} chunks sizes :
  (forall i, 2 <= sizes i) -> ~ has_fold (concat chunks) ->
  exists n, forall fuel, n <= fuel -> Decode fuel sizes chunks false = decode_bytes (concat chunks).
Proof. exact (decode_fold_free chunks sizes). Qed.
Print Assumptions C08_fold_free_input_is_unchanged.

(** C09: input in one read has its folds removed. *)
Theorem C09_one_read_is_unfolded {env : Env} s w sizes :
  (has_fold s -> ~ bad_tail s) -> (forall i, 1 <= sizes i) -> length s <= sizes 0 ->
  exists n, forall fuel, n <= fuel -> Decode fuel sizes [s] w = decode_bytes (unfold s).
Proof. exact (decode_one_read s w sizes). Qed.
Print Assumptions C09_one_read_is_unfolded.

(** C10 is false: input in one read that has a fold and ends in CR LF SP, LF SP CR or SP CR LF is
    never decoded. With C09 this settles termination for input in one read. *)
Theorem C10_decode_terminates_refuted {env : Env} s w sizes :
  has_fold s -> bad_tail s -> length s <= sizes 0 -> forall fuel, Decode fuel sizes [s] w = NoFuel.
Proof. exact (decode_hangs s w sizes). Qed.
Print Assumptions C10_decode_terminates_refuted.

(** C53 is false: data that the reader gives together with io.EOF can be lost. *)
Theorem C53_data_with_eof_refuted {env : Env} : exists chunks size c,
  exists n, forall fuel, n <= fuel ->
    Decode fuel (fun _ => size) chunks false = Ok c /\
    is_ok (Decode fuel (fun _ => size) chunks true) = false.
Proof. exact decode_eof_ex. Qed.
Print Assumptions C53_data_with_eof_refuted.

(** Fold-free input in many reads, folded input in one read, and an input that hangs. *)
Example C08_applies : ~ has_fold (concat [bs "BEGIN:V"; bs "CALENDAR" ++ [CR]; [LF]; bs "X:1"]).
Proof. apply no_fold_by. vm_compute. reflexivity. Qed.
Example C09_applies : ~ bad_tail cut_text /\ unfold cut_text <> cut_text.
Proof. exact cut_text_ok. Qed.
Example C10_applies : has_fold (bs "X:" ++ [CR; LF; SP]) /\ bad_tail (bs "X:" ++ [CR; LF; SP]).
Proof. exact hang_ok. Qed.
