(** A last-modified time, put into an event. *)
From Coq Require Import String Ascii ZArith Bool List.
From Verif Require Import Base GoTime Types Params ParamTable PropTable Props SecTable Sections Folder Codec EncodeProofs SpecInsert InsertProofs SampleCal.
Import ListNotations.

Section S.
Context {env : Env}.
Definition modified : fval := FVProp PrLastModified (PNew nowZ).
Lemma insert_one id i fs u w v : nth_error fs i = Some (u ++ w) -> inserted v (Sec id fs) (Sec id (firstn i fs ++ (u ++ v :: w) :: skipn (S i) fs)).
Proof.
  intros H. assert (Q : fs = firstn i fs ++ (u ++ w) :: skipn (S i) fs).
  { revert i H. induction fs as [|f fs IH]; intros [|i] H; try discriminate; [injection H as ->; reflexivity|]. cbn [firstn app]. f_equal. apply IH, H. }
  rewrite Q at 1. apply Ins_here.
Qed.
Lemma insert_case : inserted modified cal_plain cal_modified.
Proof.
  apply (Ins_comp modified SCalendar [_; _] [] (Sec SEvent (fs_event [] [])) (Sec SEvent (fs_event [modified] [])) [] [_; _; _; _]).
  apply (insert_one SEvent 7 (fs_event [] []) [] [] modified). reflexivity.
Qed.
Lemma insert_written : exists out, @Encode env _ Empty_set ok_writer [] cal_modified = EncDone None out.
Proof. eexists. vm_compute. reflexivity. Qed.
End S.
