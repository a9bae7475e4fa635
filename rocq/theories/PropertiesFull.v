(** Property C106: lines are folded as late as possible. [folded_late ls out]: the lines [out] are those of the content lines
    [ls], each cut where the next character does not fit into 75 octets, the space of the fold counted; [no_space_first ls]:
    no line but the first begins with a space. *)
From Coq Require Import String Ascii ZArith Bool List.
From Verif Require Import Base Utf8 GoTime Types Params Props Sections Folder Codec SpecLines SpecFull EncodeProofs FullProofs Sample SampleFull.
Import ListNotations.

(** C106: where the folds of the output are. *)
Theorem C106_folded_late {env : Env} cal e out : Encode ok_writer [] cal = EncDone e out ->
  no_bare (content cal) -> Forall utf8 (pieces (sec_encode cal)) -> folded_late (phys_lines (content cal)) (phys_lines (concat out)).
Proof. exact (encode_late cal e out). Qed.
Print Assumptions C106_folded_late.
(** There is one such way to fold only. *)
Theorem C106_one_way ls out out' : folded_late ls out -> folded_late ls out' -> out = out'.
Proof. exact (folded_late_unique ls out out'). Qed.
Print Assumptions C106_one_way.
(** A line that goes on in the next has at least 72 octets. *)
Theorem C106_full_lines {env : Env} cal e out a l l' b : Encode ok_writer [] cal = EncDone e out ->
  no_bare (content cal) -> Forall utf8 (pieces (sec_encode cal)) -> no_space_first (phys_lines (content cal)) ->
  phys_lines (concat out) = a ++ l :: (SP :: l') :: b -> 72 <= length l <= 75.
Proof. exact (encode_full cal e out a l l' b). Qed.
Print Assumptions C106_full_lines.
(** Whatever the contents: three octets for each fold, and no more than one fold in 71 octets. *)
Theorem C106_overhead {env : Env} cal e out : Encode ok_writer [] cal = EncDone e out ->
  exists n, length (concat out) = length (content cal) + 3 * n /\ 71 * n <= length (content cal).
Proof. exact (encode_overhead cal e out). Qed.
Print Assumptions C106_overhead.
Example C106_applies : late_hyps cal1 /\ @Encode env0 _ _ ok_writer [] cal1 = EncDone None (out_of cal1) /\
  exists a l l' b, phys_lines (concat (out_of cal1)) = a ++ l :: (SP :: l') :: b.
Proof. exact full_case. Qed.
(** A fold before a letter of two octets that does not fit: its line has 74. *)
Example C106_letters : late_hyps cal2 /\ @Encode env0 _ _ ok_writer [] cal2 = EncDone None (out_of cal2) /\
  map (@length _) (phys_lines (content cal2)) = [15; 11; 30; 12; 24; 10; 24; 88; 10; 13; 0] /\
  map (@length _) (phys_lines (concat (out_of cal2))) = [15; 11; 30; 12; 24; 10; 24; 74; 15; 10; 13; 0].
Proof. exact full_letters. Qed.
