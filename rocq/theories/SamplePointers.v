(** Calendars with nil pointers. *)
From Coq Require Import String Ascii ZArith Bool List.
From Verif Require Import Base GoTime Types Params ParamTable PropTable Props SecTable Sections Folder Codec SpecLines SpecRules SpecValid ValidProofs EncodeProofs EncodableProofs Sample SampleCal SampleKeep Pointers SpecPointers PointersProofs.
Import ListNotations.

Section S.
Context {env : Env}.
(** Every alarm is replaced. *)
Fixpoint spoil (a : galarm) (x : gsec) : gsec :=
  let 'GSec id fs := x in GSec id (map (map (spoil_val a)) fs)
with spoil_val (a : galarm) (v : gval) : gval :=
  match v with GProp pid p => GProp pid p | GSub x => GSub (spoil a x) | GAlarm _ => GAlarm a end.
Definition nil_cal (id : secid) : gsec := spoil (GNilOf id) (lift cal_keep).
Definition same_nil (id : secid) (s : seen) : bool :=
  match s with SeenNil i => match id, i with SAlarmAudio, SAlarmAudio | SAlarmNone, SAlarmNone => true | _, _ => false end | _ => true end.
Lemma only_nils id x : forallb (same_nil id) (looked x) = true -> forall i, In (SeenNil i) (looked x) -> i = id.
Proof. intros H i I. rewrite forallb_forall in H. specialize (H _ I). destruct id, i; (reflexivity || discriminate). Qed.
Lemma nil_panics : @GEncode env _ Empty_set ok_writer [] (Some (nil_cal SAlarmAudio)) = GPanic [] /\ @GEncode env _ Empty_set ok_writer [] None = GPanic [].
Proof. split; [vm_compute; reflexivity|reflexivity]. Qed.
Lemma nil_seen : exists a b, looked (nil_cal SAlarmAudio) = a ++ SeenNil SAlarmAudio :: b /\ SAlarmAudio <> SAlarmNone /\ Forall fine a /\ a <> [].
Proof.
  assert (P : GEncode ok_writer [] (Some (nil_cal SAlarmAudio)) = GPanic (E := Empty_set) []) by (apply nil_panics). apply encode_panics in P as [_ [P|(x & a & id & b & Q & L & N & F)]]; [discriminate|]. apply (f_equal (fun o => match o with Some y => y | None => x end)) in Q. cbv beta iota in Q. rewrite <- Q in L. clear x Q.
  exists a, b. assert (A : exists p b', looked (nil_cal SAlarmAudio) = p :: b' /\ p <> SeenNil id) by (eexists; eexists; split; [vm_compute; reflexivity|discriminate]). destruct A as (p & b' & A & NP).
  assert (AE : a <> []) by (intros ->; rewrite A in L; injection L as -> _; congruence).
  assert (ID : id = SAlarmAudio).
  { apply (only_nils SAlarmAudio (nil_cal SAlarmAudio)); [vm_compute; reflexivity|]. rewrite L. apply in_app_iff. right. left. reflexivity. }
  subst id. repeat split; auto.
Qed.
(** The pointer to an AlarmNone may be nil. *)
Lemma none_fine : exists out, @GEncode env _ Empty_set ok_writer [] (Some (nil_cal SAlarmNone)) = GRes (EncDone None out) /\ (forall id, In (SeenNil id) (looked (nil_cal SAlarmNone)) -> id = SAlarmNone) /\ In (SeenNil SAlarmNone) (looked (nil_cal SAlarmNone)).
Proof.
  eexists. split; [vm_compute; reflexivity|]. split.
  - intros i. apply (only_nils SAlarmNone (nil_cal SAlarmNone)). vm_compute. reflexivity.
  - assert (X : existsb (fun s => match s with SeenNil SAlarmNone => true | _ => false end) (looked (nil_cal SAlarmNone)) = true) by (vm_compute; reflexivity).
    apply existsb_exists in X as (s & I & X). destruct s as [pp qq| |i]; [discriminate X|discriminate X|]. destruct i; (discriminate X || exact I).
Qed.
(** The type of the alarm of [cal_keep]. *)
Lemma type_case : exists cal x vs a, decode_bytes text_keep = Ok cal /\ part_of x cal /\ In vs (sec_fields x) /\ In (FVAlarm (Some a)) vs /\ alarm_type (GTo (lift a)) = Some (bs "DISPLAY").
Proof.
  do 4 eexists. split; [vm_compute; reflexivity|]. split; [eapply Part_sec; [right; right; left; reflexivity|left; reflexivity|apply Part_self]|].
  split; [do 30 right; left; reflexivity|]. split; [left; reflexivity|]. vm_compute. reflexivity.
Qed.
End S.
