(** Property C66: a calendar that is read, written and read again. *)
From Coq Require Import List.
From Verif Require Import Base Utf8 SpecLines Folder GoTime PropTable SecTable Sections Codec SpecProps SpecKeep.
From Verif Require Import SampleCal SampleKeep.
Import ListNotations.

(** C66, for texts in UTF-8 and calendars without what is lost: last-modified times (C44), address
    parameters (C37), parameter texts to escape (C35), empty parameter texts, RSVP=FALSE, values that
    Encode refuses (C51), fractions of seconds, and times outside UTC whose clock reading is not theirs
    alone (C28). [s] is the text with the folds removed. *)
Theorem C66_read_write_read_partial {env : Env} s cal : decode_bytes s = Ok cal -> utf8 s -> cal_keeps cal ->
  exists out, Encode ok_writer [] cal = EncDone None out /\
    (forall w sizes, (forall i, 1 <= sizes i) -> length (concat out) <= sizes 0 -> exists n, forall fuel, n <= fuel -> Decode fuel sizes [concat out] w = Ok cal) /\
    (~ has_fold (concat out) -> forall chunks sizes, concat chunks = concat out -> (forall i, 2 <= sizes i) -> exists n, forall fuel, n <= fuel -> Decode fuel sizes chunks false = Ok cal).
Proof. exact (read_write_read s cal). Qed.
Print Assumptions C66_read_write_read_partial.

Example C66_applies {env : Env} : decode_bytes text_keep = Ok cal_keep /\ utf8 text_keep /\ cal_keeps cal_keep.
Proof. exact keep_case. Qed.

(** C66 is false in general, for one more reason than those above: a fraction of a second is read but not
    written. *)
Theorem C66_read_write_read_refuted {env : Env} : exists out,
  (forall chunks sizes, concat chunks = text_half -> (forall i, 2 <= sizes i) -> exists n, forall fuel, n <= fuel -> Decode fuel sizes chunks false = Ok cal_half) /\
  Encode ok_writer [] cal_half = EncDone None out /\
  (forall chunks sizes, concat chunks = concat out -> (forall i, 2 <= sizes i) -> exists n, forall fuel, n <= fuel -> Decode fuel sizes chunks false = Ok cal_small) /\
  cal_small <> cal_half.
Proof. exact half_lost. Qed.
Print Assumptions C66_read_write_read_refuted.
