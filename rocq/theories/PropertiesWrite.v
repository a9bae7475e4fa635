(** Properties C77 and C78: what is written for a value, and when that is a text of RFC 5545.
    [value_ok] is what validation accepts (C60); [value_says], [value_rfc], [value_writable], [value_typed]
    and [conforms] are in SpecWrite.v. *)
From Coq Require Import String Ascii ZArith Bool List.
From Verif Require Import Base GoTime Types SpecLang SpecCal SpecValid SpecWrite WriteProofs WriteOneProofs WriteRfcProofs SampleWrite.
Import ListNotations.
Local Open Scope Z_scope.

(** C77 *)
Theorem C77_values_written {env : Env} v s : value_ok v -> value_writable v -> (value_says v s <-> s = concat (value_encode v)).
Proof. exact (value_written_exact v s). Qed.
Print Assumptions C77_values_written.
Example C77_applies {env : Env} : value_ok (VRecur rule1) /\ value_writable (VRecur rule1) /\ value_typed (VRecur rule1) /\ conforms (VRecur rule1) /\
  concat (value_encode (VRecur rule1)) = bs "FREQ=MONTHLY;UNTIL=20161231T120000Z;INTERVAL=2;BYDAY=1FR,-1FR;WKST=MO".
Proof. exact rule1_ok. Qed.
Example C77_applies_to_periods {env : Env} : value_ok (VPeriod period1) /\ value_writable (VPeriod period1) /\
  concat (value_encode (VPeriod period1)) = bs "20161231T120000Z/P1DT30S".
Proof. exact period1_ok. Qed.
Example C77_applies_to_offsets {env : Env} : value_ok (VUTCOffset (-5400)) /\ value_writable (VUTCOffset (-5400)) /\ concat (value_encode (VUTCOffset (-5400))) = bs "-0130".
Proof. exact offset1_ok. Qed.

(** C78: of the values that are accepted, exactly these are written as RFC 5545 demands: ... *)
Theorem C78_conforming_values_partial {env : Env} v : value_ok v -> value_typed v -> (value_rfc v (concat (value_encode v)) <-> conforms v).
Proof. exact (value_rfc_iff v). Qed.
Print Assumptions C78_conforming_values_partial.

(** ... no offset of zero or more, ... *)
Theorem C78_offsets_refuted {env : Env} u u' : 0 <= u -> ~ utcoffset_rfc (concat (value_encode (VUTCOffset u))) u'.
Proof. exact (offset_never_rfc u u'). Qed.
Print Assumptions C78_offsets_refuted.

(** ... and no number. *)
Theorem C78_numbers_refuted {env : Env} f : value_ok (VFloat f) -> ~ float_rfc (concat (value_encode (VFloat f))).
Proof. exact (float_never_rfc f). Qed.
Print Assumptions C78_numbers_refuted.
