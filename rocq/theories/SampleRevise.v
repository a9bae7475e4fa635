(** A calendar that was read and then changed, for PropertiesRevise.v. *)
From Coq Require Import String Ascii ZArith Bool List Lia.
From Verif Require Import Base Lib Utf8 Utf8Proofs GoTime Types Params ParamTable PropTable Props SecTable Sections Folder Codec SpecTree SpecRules SpecProps SpecCal SpecKeep SpecValid ValidProofs SampleKeep SpecRevise ReviseProofs.
Import ListNotations.

Section S.
Context {env : Env}.
Definition event_of (c : sec) : sec := match nth 2 (sec_fields c) [] with [FVSec e] => e | _ => c end.
Definition with_event (e : sec) : sec := Sec SCalendar (firstn 2 (sec_fields cal_keep) ++ [FVSec e] :: skipn 3 (sec_fields cal_keep)).
(** The number of a field of an event. *)
Fixpoint place (n : bytes) (l : list field) : nat := match l with [] => 0 | f :: l' => if beq (fd_key f) n then 0 else S (place n l') end.
Definition put (n : bytes) (vs : list fval) (e : sec) : sec := let k := place n (fields_of SEvent) in Sec SEvent (firstn k (sec_fields e) ++ vs :: skipn (S k) (sec_fields e)).
Definition new_summary : prop := PStruct [None; None] [Some (VText (bs "Fair: moved"))].
(** Another summary, no alarm, and the event twice. *)
Definition moved : sec := with_event (put (bs "SUMMARY") [FVProp PrSummary new_summary] (event_of cal_keep)).
Definition quiet : sec := with_event (put (bs "VALARM") [] (event_of moved)).
Definition twice : sec := Sec SCalendar (firstn 2 (sec_fields quiet) ++ [[FVSec (event_of quiet); FVSec (event_of cal_keep); FVSec (event_of quiet)]; []; []; []; []]).
Lemma summary_good : prop_good PrSummary new_summary /\ prop_ok PrSummary new_summary.
Proof.
  split; [|apply prop_valid_iff; vm_compute; reflexivity]. split; [repeat constructor; discriminate|]. exists [], [], (bs "Text"), (VText (bs "Fair: moved")). split; [reflexivity|]. split; [reflexivity|].
  split; [|vm_compute; reflexivity]. apply utf8_ascii. apply Forall_forall. intros c I. assert (T : forallb (fun c => (code c <? 128)%Z) (bs "Fair: moved") = true) by reflexivity. rewrite forallb_forall in T. specialize (T c I). lia.
Qed.
Lemma moved_edited : edited moved.
Proof.
  destruct keep_case as (D & U & K). apply (Ed_revise cal_keep); [eapply Ed_read; eassumption|]. destruct summary_good as [G V].
  assert (Q : cal_keep = with_event (Sec SEvent (firstn 13 (sec_fields (event_of cal_keep)) ++ nth 13 (sec_fields (event_of cal_keep)) [] :: skipn 14 (sec_fields (event_of cal_keep))))) by (vm_compute; reflexivity).
  assert (R : moved = with_event (Sec SEvent (firstn 13 (sec_fields (event_of cal_keep)) ++ [FVProp PrSummary new_summary] :: skipn 14 (sec_fields (event_of cal_keep))))) by (vm_compute; reflexivity).
  rewrite R. rewrite Q at 1. unfold with_event. apply (Rev_comp SCalendar (firstn 2 (sec_fields cal_keep)) [] _ _ [] (skipn 3 (sec_fields cal_keep))).
  apply Rev_here with (fd := Field (bs "SUMMARY") FOpt (FTProp PrSummary)); [vm_compute; reflexivity|]. split; [|split].
  - intros v [<-|[]]. right. exists PrSummary, new_summary. split; [reflexivity|]. split; [reflexivity|]. split; [discriminate|]. split; [exact G|exact V].
  - cbn. lia.
  - intros H. exfalso. vm_compute in H. intuition discriminate.
Qed.
Lemma quiet_edited : edited quiet.
Proof.
  apply (Ed_revise moved); [exact moved_edited|].
  assert (Q : moved = with_event (Sec SEvent (firstn 30 (sec_fields (event_of moved)) ++ nth 30 (sec_fields (event_of moved)) [] :: skipn 31 (sec_fields (event_of moved))))) by (vm_compute; reflexivity).
  assert (R : quiet = with_event (Sec SEvent (firstn 30 (sec_fields (event_of moved)) ++ [] :: skipn 31 (sec_fields (event_of moved))))) by (vm_compute; reflexivity).
  rewrite R. rewrite Q at 1. unfold with_event. apply (Rev_comp SCalendar (firstn 2 (sec_fields cal_keep)) [] _ _ [] (skipn 3 (sec_fields cal_keep))).
  apply Rev_here with (fd := Field (bs "VALARM") FMany FTAlarm); [vm_compute; reflexivity|]. split; [intros v []|]. split; [exact Logic.I|].
  intros H. exfalso. vm_compute in H. intuition discriminate.
Qed.
Lemma twice_edited : edited twice.
Proof.
  apply (Ed_assemble (fun x => x = quiet \/ x = cal_keep)).
  - intros x [->| ->]; [exact quiet_edited|]. destruct keep_case as (D & U & K). eapply Ed_read; eassumption.
  - exists quiet, [[FVSec (event_of quiet); FVSec (event_of cal_keep); FVSec (event_of quiet)]; []; []; []; []]. split; [left; reflexivity|]. split; [reflexivity|]. split; [reflexivity|].
    intros i vs v W J. destruct i as [|i]; [|exfalso; do 4 (destruct i as [|i]; [injection W as <-; destruct J|]); destruct i; discriminate W].
    injection W as <-. assert (A : nth_error (sec_fields quiet) 2 = Some [FVSec (event_of quiet)]) by (vm_compute; reflexivity). assert (B : nth_error (sec_fields cal_keep) 2 = Some [FVSec (event_of cal_keep)]) by (vm_compute; reflexivity).
    destruct J as [<-|[<-|[<-|[]]]]; [exists quiet|exists cal_keep|exists quiet]; eexists; (split; [auto|split; [eassumption|left; reflexivity]]).
Qed.
Definition event_count (c : sec) : nat := length (nth 2 (sec_fields c) []).
Definition alarm_count (e : sec) : nat := length (nth 30 (sec_fields e) []).
Theorem revise_case : edited twice /\ event_count twice = 3 /\ has_prop twice PrSummary new_summary /\ ~ has_prop cal_keep PrSummary new_summary /\ alarm_count (event_of cal_keep) = 1 /\ alarm_count (event_of quiet) = 0.
Proof.
  split; [exact twice_edited|]. split; [vm_compute; reflexivity|]. split; [|split; [|split; vm_compute; reflexivity]].
  - apply CalProofs.has_prop_eq. right. exists [FVSec (event_of quiet); FVSec (event_of cal_keep); FVSec (event_of quiet)], (event_of quiet). split; [vm_compute; tauto|]. split; [left; left; reflexivity|].
    exists (event_of quiet), [FVProp PrSummary new_summary]. split; [constructor|]. split; [|left; reflexivity]. apply nth_error_In with (n := 13). vm_compute. reflexivity.
  - intros H. apply props_in in H. vm_compute in H. repeat (destruct H as [H|H]; [discriminate H|]). destruct H.
Qed.
End S.
