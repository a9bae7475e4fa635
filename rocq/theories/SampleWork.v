(** Concrete cases for C123. *)
From Coq Require Import String Ascii ZArith Bool List Lia.
From Verif Require Import Base Tokeniser SpecContent GoTime Types Params Props SecTable Sections SpecTree SpecRules SpecLines SpecBadLine SpecFail Codec SampleTree SampleStack Work SpecWork WorkProofs.
Import ListNotations.

Section Sample.
Context {env : Env}.
(** The three lines of its alarm are handed out twice. *)
Lemma work_case : cut_into (lines_text s_lines) s_lines AtEnd /\ length s_lines = 28 /\
  decode_work (fun _ => 1) (fun _ => 0) (lines_text s_lines) = 31 /\ decode_work (fun _ => 0) (fun _ => 1) (lines_text s_lines) = 10.
Proof. split; [apply stack_case|]. split; [reflexivity|]. split; vm_compute; reflexivity. Qed.
(** Without an alarm. *)
Definition w_lines : list cline := [t_begin; CLine (bs "PRODID") [] (bs "me"); CLine (bs "VERSION") [] (bs "2.0"); t_end].
Lemma work_plain : cut_into (lines_text w_lines) w_lines AtEnd /\ Forall (fun l => ~ begins_alarm l) w_lines /\
  decode_work (fun _ => 1) (fun _ => 0) (lines_text w_lines) = 4 /\ decode_work (fun _ => 0) (fun _ => 1) (lines_text w_lines) = 2.
Proof.
  split. { apply Cu_end. repeat constructor. }
  split. { repeat constructor; intros [A B]; first [discriminate A|discriminate B]. }
  split; vm_compute; reflexivity.
Qed.
End Sample.
