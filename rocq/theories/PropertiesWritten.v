(** Property C79: exactly which text Encode writes for a calendar, and what follows for C78. [cal_says] and
    [cal_writable] are in SpecWritten.v, [cal_typed] and [cal_clean] are as in C61, [unfold] takes the folds
    out (C01). *)
From Coq Require Import String ZArith List.
From Verif Require Import Base Utf8 SpecLines Folder Unfolder GoTime Types Params PropTable Props SecTable Sections Codec SpecTree SpecProps SpecRfc SpecOut SpecLang SpecWrite SpecWritten.
From Verif Require Import WrittenProofs WrittenDecodedProofs Sample SampleWritten.
Import ListNotations.
Local Open Scope Z_scope.

(** C79 *)
Theorem C79_lines_written {env : Env} cal e out s :
  sec_id cal = SCalendar -> cal_typed cal -> cal_clean cal -> cal_writable cal -> Encode ok_writer [] cal = EncDone e out ->
  (cal_says cal s <-> s = unfold (concat out)).
Proof. exact (cal_written cal e out s). Qed.
Print Assumptions C79_lines_written.

(** What was decoded needs less: a text in UTF-8 and clocks that show years of four digits. *)
Theorem C79_decoded_lines_written {env : Env} text cal e out s :
  urls_clean -> zones_clean -> decode_bytes text = Ok cal -> utf8 text -> cal_years cal -> Encode ok_writer [] cal = EncDone e out ->
  (cal_says cal s <-> s = unfold (concat out)).
Proof. exact (decoded_written text cal e out s). Qed.
Print Assumptions C79_decoded_lines_written.

(** C78: a calendar with an offset of zero or more has a line that RFC 5545 does not allow. *)
Theorem C78_calendars_refuted {env : Env} cal e out pid u :
  sec_id cal = SCalendar -> cal_typed cal -> cal_clean cal -> cal_writable cal -> Encode ok_writer [] cal = EncDone e out ->
  has_prop cal pid (PNew (VUTCOffset u)) -> 0 <= u ->
  exists ls s, unfold (concat out) = text_of_lines ls /\ In (prop_name pid ++ bs ":" ++ s) ls /\ forall u', ~ utcoffset_rfc s u'.
Proof. exact (offset_lines cal e out pid u). Qed.
Print Assumptions C78_calendars_refuted.

Example C79_applies : exists out, @decode_bytes env0 text1 = Ok cal1 /\ utf8 text1 /\ @cal_years env0 cal1 /\
  sec_id cal1 = SCalendar /\ @cal_typed env0 cal1 /\ @cal_clean env0 cal1 /\ @cal_writable env0 cal1 /\ @Encode env0 _ _ ok_writer [] cal1 = EncDone None out /\
  @has_prop env0 cal1 PrTimezoneOffsetTo (PNew (VUTCOffset 3600)).
Proof. exact cal1_case. Qed.
