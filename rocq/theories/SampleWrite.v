(** Values of each kind that are written, for PropertiesWrite.v. *)
From Coq Require Import String Ascii ZArith Bool List Lia.
From Verif Require Import Base Utf8 GoTime Types SpecText SpecDuration SpecTime SpecRecur SpecLang SpecRule SpecCal SpecValid SpecWrite.
Import ListNotations.
Local Open Scope Z_scope.

Section S.
Context {env : Env}.
(** Every month on the first and the last Friday, until noon on the last day of 2016. *)
Definition rule1 : recur := Recur 5 2 true (Time 1483185600 0 LUTC) 0 2 [] [] [] [DayRecur 6 1; DayRecur 6 (-1)] [] [] [] [] [].
Definition period1 : period := Period (Time 1483185600 0 LUTC) zero_time (Duration false 0 1 0 0 30).
Lemma rule1_ok : value_ok (VRecur rule1) /\ value_writable (VRecur rule1) /\ value_typed (VRecur rule1) /\ conforms (VRecur rule1) /\
  concat (value_encode (VRecur rule1)) = bs "FREQ=MONTHLY;UNTIL=20161231T120000Z;INTERVAL=2;BYDAY=1FR,-1FR;WKST=MO".
Proof.
  assert (T : recur_typed rule1).
  { unfold recur_typed, within. cbn -[Z.pow]. repeat apply conj; try lia; repeat constructor; cbn; lia. }
  assert (Y : in_years (r_until rule1)) by (unfold in_years, wall; cbn; lia).
  split; [|split; [|split; [|split]]].
  - unfold value_ok, recur_ok, upto, signed_upto. cbn. repeat apply conj; try lia; repeat constructor; cbn; lia.
  - split; [exact T|]. intros _ _. exact Y.
  - exact T.
  - split; [|intros _ _; exact Y]. repeat constructor; cbn; lia.
  - vm_compute. reflexivity.
Qed.
Lemma period1_ok : value_ok (VPeriod period1) /\ value_writable (VPeriod period1) /\
  concat (value_encode (VPeriod period1)) = bs "20161231T120000Z/P1DT30S".
Proof.
  assert (Y1 : year_one (p_end period1)) by (split; reflexivity).
  split; [|split].
  - split; [intros [Q _]; discriminate Q|]. left. split; [exact Y1|reflexivity].
  - split; [unfold in_years, wall; cbn; lia|]. split; [|intros N; contradiction]. intros _. unfold dur_fits. cbn -[Z.pow]. lia.
  - vm_compute. reflexivity.
Qed.
Lemma offset1_ok : value_ok (VUTCOffset (-5400)) /\ value_writable (VUTCOffset (-5400)) /\ concat (value_encode (VUTCOffset (-5400))) = bs "-0130".
Proof. split; [exact Logic.I|]. split; [cbn; lia|]. vm_compute. reflexivity. Qed.
End S.
