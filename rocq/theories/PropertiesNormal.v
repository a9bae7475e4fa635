(** Property C111: a calendar that was read and written is written the same from then on. *)
From Coq Require Import List.
From Verif Require Import Base Utf8 SpecLines Folder GoTime PropTable SecTable Sections Codec SpecProps SpecCal SpecNormal.
From Verif Require Import SampleNormal.
Import ListNotations.

(** C111, for calendars whose values settle: see [cal_settles]. What is read back is known exactly: it is
    the calendar with whole seconds, mended texts, and without the parameters that are not written
    ([normal]); fields for the last-modified time are empty ([forget], C44). Encode writes it, to any
    writer, as it wrote the first calendar. The text [s] need not be UTF-8. *)
Theorem C111_written_again_partial {env : Env} s cal : decode_bytes s = Ok cal -> cal_settles cal -> exists out, Encode ok_writer [] cal = EncDone None out /\
  (forall w sizes, (forall i, 1 <= sizes i) -> length (concat out) <= sizes 0 -> exists n, forall fuel, n <= fuel -> Decode fuel sizes [concat out] w = Ok (forget (normal cal))) /\
  (~ has_fold (concat out) -> forall chunks sizes, concat chunks = concat out -> (forall i, 2 <= sizes i) -> exists n, forall fuel, n <= fuel -> Decode fuel sizes chunks false = Ok (forget (normal cal))) /\
  ((forall p, ~ has_prop cal PrLastModified p) -> forget (normal cal) = normal cal) /\
  forall W E (wr : W -> bytes -> W * option E) w, Encode wr w (normal cal) = Encode wr w cal.
Proof. exact (settled s cal). Qed.
Print Assumptions C111_written_again_partial.

Example C111_applies {env : Env} : decode_bytes text_rough = Ok cal_rough /\ cal_settles cal_rough /\ (forall p, ~ has_prop cal_rough PrLastModified p) /\ normal cal_rough <> cal_rough /\
  Encode ok_writer [] cal_rough <> EncDone None [] /\ decode_bytes text_smooth = Ok (normal cal_rough) /\
  (forall out, Encode ok_writer [] cal_rough = EncDone None out -> concat out = text_smooth).
Proof. exact rough_case. Qed.

(** C111 is false in general: a time in the first second of the year 1 is read and written; what is then
    read is refused by Encode. *)
Theorem C111_written_again_refuted {env : Env} : exists cal out cal' e, decode_bytes text_dawn = Ok cal /\ Encode ok_writer [] cal = EncDone None out /\ decode_bytes (concat out) = Ok cal' /\
  Encode ok_writer [] cal' = EncInvalid e [].
Proof. exact dawn_lost. Qed.
Print Assumptions C111_written_again_refuted.
