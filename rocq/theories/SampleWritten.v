(** The calendar of Sample.v is one of those that PropertiesWrite.v speaks of. *)
From Coq Require Import String Ascii ZArith Bool List Lia.
From Verif Require Import Base Lib Utf8 Utf8Proofs GoTime Types Params ParamTable PropTable Props SecTable Sections Folder Unfolder Codec SpecLines SpecTree SpecRules SpecText SpecDuration SpecTime SpecRecur SpecProps SpecLang PropProofs HangProofs SpecCal CalProofs SpecOut OutProofs DecodedProofs SpecRfc SpecWrite SpecWritten WrittenProofs WrittenDecodedProofs Sample SampleOut.
Import ListNotations.
Local Open Scope Z_scope.

Section S.
Context {env : Env}.
Definition val_writable (v : fval) : Prop := match v with FVProp _ p => prop_writable p | FVSec x | FVAlarm (Some x) => cal_writable x | FVAlarm None => True end.
Lemma cal_writable_by id fs : Forall val_writable (concat fs) -> cal_writable (Sec id fs).
Proof.
  rewrite Forall_forall. intros F pid p H. apply has_prop_eq in H as [(vs & I & J)|(vs & x & I & J & P)].
  - apply (F (FVProp pid p)). apply in_concat. eauto.
  - destruct J as [J|J].
    + assert (K : val_writable (FVSec x)) by (apply F, in_concat; eauto). exact (K pid p P).
    + assert (K : val_writable (FVAlarm (Some x))) by (apply F, in_concat; eauto). exact (K pid p P).
Qed.
Definition prop_years (p : prop) : Prop := forall v t, prop_value p v -> In t (value_times v) -> t_loc t <> LUTC -> in_years t.
Definition val_years (v : fval) : Prop := match v with FVProp _ p => prop_years p | FVSec x | FVAlarm (Some x) => cal_years x | FVAlarm None => True end.
Lemma cal_years_by id fs : Forall val_years (concat fs) -> cal_years (Sec id fs).
Proof.
  rewrite Forall_forall. intros F pid p v t H. apply has_prop_eq in H as [(vs & I & J)|(vs & x & I & J & P)].
  - apply (F (FVProp pid p)). apply in_concat. eauto.
  - destruct J as [J|J].
    + assert (K : val_years (FVSec x)) by (apply F, in_concat; eauto). exact (K pid p v t P).
    + assert (K : val_years (FVAlarm (Some x))) by (apply F, in_concat; eauto). exact (K pid p v t P).
Qed.
End S.
Ltac small_text := apply Utf8Proofs.utf8_ascii; repeat (apply Forall_cons; [vm_compute; reflexivity|]); apply Forall_nil.
Ltac small_value := match goal with
  | |- value_writable (VText _) => cbn [value_writable]; small_text
  | |- value_writable (VMText _) => cbn [value_writable]; repeat (apply Forall_cons; [small_text|]); apply Forall_nil
  | |- value_writable (VDuration _) => cbn [value_writable]; unfold dur_fits; cbn; lia
  | |- value_writable (VDate _) => cbn [value_writable]; unfold in_years, wall; vm_compute; split; congruence
  | |- value_writable (VDateTime _) => cbn [value_writable]; unfold in_years, wall; vm_compute; split; congruence
  | |- value_writable (VUTCOffset _) => cbn [value_writable]; lia
  | |- value_writable (VRecur _) => cbn [value_writable]; split; [unfold recur_typed, within; cbn -[Z.pow]; repeat apply conj; try lia; repeat constructor; cbn; lia|intros Q; discriminate Q]
  | |- value_writable _ => exact Logic.I
  end.
Ltac small_prop := match goal with
  | |- val_writable (FVProp _ (PEnum _)) => exact Logic.I
  | |- val_writable (FVProp _ (PNew _)) => cbn [val_writable prop_writable]; small_value
  | |- val_writable (FVProp _ (PStruct _ _)) => cbn [val_writable prop_writable]; intros v J; cbn [In] in J; repeat destruct J as [J|J]; try discriminate J; try contradiction; injection J as <-; small_value
  | |- val_writable (FVSec _) => cbn [val_writable]; small_comp
  | |- val_writable (FVAlarm (Some _)) => cbn [val_writable]; small_comp
  end
with small_comp := apply cal_writable_by; cbn [concat app]; repeat (apply Forall_cons; [small_prop|]); apply Forall_nil.
Definition cal1_normal : { c : @sec env0 | @decode_bytes env0 text1 = Ok c }.
Proof.
  let c := eval vm_compute in (ok_or (Sec SAlarmNone []) (@decode_bytes env0 text1)) in
  exists c; exact (@eq_refl (res sec) (Ok c) <: @decode_bytes env0 text1 = Ok c).
Defined.
Lemma cal1_writable : @cal_writable env0 (proj1_sig cal1_normal).
Proof.
  unfold cal1_normal. cbn [proj1_sig]. small_comp.
Qed.
Ltac year_times := let t := fresh "t" in let J := fresh "J" in let L := fresh "L" in intros t J L; cbn [value_times In r_until p_start p_end] in J; repeat destruct J as [J|J]; try contradiction; subst t;
  first [exfalso; apply L; reflexivity|clear L; unfold in_years, wall; vm_compute; split; congruence].
Ltac year_prop := match goal with
  | |- val_years (FVProp _ (PEnum _)) => intros v t []
  | |- val_years (FVProp _ (PNew _)) => cbn [val_years]; let v := fresh "v" in let t := fresh "t" in intros v t <-; revert t; year_times
  | |- val_years (FVProp _ (PStruct _ _)) => cbn [val_years]; let v := fresh "v" in let t := fresh "t" in let J := fresh "J" in intros v t J; revert t; cbn [prop_value In] in J; repeat destruct J as [J|J]; try discriminate J; try contradiction; injection J as <-; year_times
  | |- val_years (FVSec _) => cbn [val_years]; year_comp
  | |- val_years (FVAlarm (Some _)) => cbn [val_years]; year_comp
  end
with year_comp := apply cal_years_by; cbn [concat app]; repeat (apply Forall_cons; [year_prop|]); apply Forall_nil.
Lemma cal1_years : @cal_years env0 (proj1_sig cal1_normal).
Proof.
  unfold cal1_normal. cbn [proj1_sig]. year_comp.
Qed.
Theorem cal1_case : exists out, @decode_bytes env0 text1 = Ok cal1 /\ utf8 text1 /\ @cal_years env0 cal1 /\
  sec_id cal1 = SCalendar /\ @cal_typed env0 cal1 /\ @cal_clean env0 cal1 /\ @cal_writable env0 cal1 /\ @Encode env0 _ _ ok_writer [] cal1 = EncDone None out /\
  @has_prop env0 cal1 PrTimezoneOffsetTo (PNew (VUTCOffset 3600)).
Proof.
  pose proof (proj2_sig cal1_normal) as D. cbv beta in D.
  assert (Q : proj1_sig cal1_normal = cal1) by (unfold cal1; generalize (proj1_sig cal1_normal), D; intros c ->; reflexivity). rewrite Q in D.
  eexists. split; [exact D|]. split; [small_text|]. split; [rewrite <- Q; exact cal1_years|]. split; [eapply decoded_calendar, D|]. split; [eapply decoded_typed, D|].
  split; [apply (decoded_clean text1); try apply env0_clean; exact D|]. split; [rewrite <- Q; exact cal1_writable|]. split; [vm_compute; reflexivity|].
  rewrite <- Q. unfold cal1_normal. cbn [proj1_sig].
  apply has_prop_eq. right. do 2 eexists. split; [do 6 right; left; reflexivity|]. split; [left; left; reflexivity|].
  apply has_prop_eq. right. do 2 eexists. split; [do 3 right; left; reflexivity|]. split; [left; left; reflexivity|].
  apply has_prop_eq. left. eexists. split; [right; left; reflexivity|left; reflexivity].
Qed.
