(** A sample calendar for the theorems of PropertiesGrow.v. *)
From Coq Require Import String Ascii ZArith Bool List Lia ZifyBool.
From Verif Require Import Base Utf8 Folder GoTime Types Params PropTable Props SecTable Sections Codec SpecTree SpecRules SpecProps PropProofs HangProofs EncodableProofs CalProofs DecodedProofs SpecSize SpecGrow Sample SampleFull SampleWritten.
Import ListNotations.

Section B.
Context {env : Env}.
Definition wordb (z : Z) : bool := ((- 2 ^ 64 <? z) && (z <? 2 ^ 64))%Z.
Definition uwordb (z : Z) : bool := ((0 <=? z) && (z <? 2 ^ 64))%Z.
Definition value_wordb (v : value) : bool :=
  match v with
  | VDate t | VDateTime t | VTime t => wordb (wall t)
  | VPeriod p => wordb (wall (p_start p)) && wordb (wall (p_end p))
  | VInteger z => wordb z
  | VRecur r => wordb (wall (r_until r)) && (uwordb (r_count r) && (uwordb (r_interval r) &&
      (forallb uwordb (r_bysecond r ++ r_byminute r ++ r_byhour r ++ r_bymonth r) &&
      forallb wordb (map dr_occ (r_byday r) ++ r_bymonthday r ++ r_byyearday r ++ r_byweekno r ++ r_bysetpos r))))
  | _ => true
  end.
Definition prop_wordb (p : prop) : bool :=
  match p with PStruct _ vs => forallb (fun o => match o with Some v => value_wordb v | None => true end) vs | PNew v => value_wordb v | PEnum _ => true end.
Fixpoint sec_wordb (s : sec) : bool := match s with Sec _ fs => forallb (forallb fval_wordb) fs end
with fval_wordb (v : fval) : bool := match v with FVProp _ p => prop_wordb p | FVSec s | FVAlarm (Some s) => sec_wordb s | FVAlarm None => true end.
Lemma wordb_ok z : wordb z = true -> word z.
Proof. unfold wordb, word. lia. Qed.
Lemma uwordb_ok z : uwordb z = true -> uword z.
Proof. unfold uwordb, uword. lia. Qed.
Lemma value_wordb_ok v : value_wordb v = true -> value_word v.
Proof.
  destruct v; cbn [value_wordb value_word]; try exact (fun _ => Logic.I); try exact (wordb_ok _); unfold time_word; rewrite !andb_true_iff.
  - intros [A B]. split; apply wordb_ok; assumption.
  - intros (A & B & C & D & F). rewrite forallb_forall in D, F. split; [apply wordb_ok, A|]. split; [apply uwordb_ok, B|]. split; [apply uwordb_ok, C|].
    split; apply Forall_forall; intros z J; [apply uwordb_ok, D, J|apply wordb_ok, F, J].
Qed.
Lemma prop_wordb_ok p : prop_wordb p = true -> prop_word p.
Proof. destruct p as [l vs|n|v]; cbn [prop_wordb prop_word]; auto using value_wordb_ok. rewrite forallb_forall. intros F v J. apply value_wordb_ok, (F (Some v) J). Qed.
Lemma sec_wordb_ok cal : sec_wordb cal = true -> cal_words cal.
Proof.
  induction cal as [id fs IH] using sec_induct. intros H pid p P. change (forallb (forallb fval_wordb) fs = true) in H. rewrite forallb_forall in H. apply has_prop_eq in P as [(vs & J & K)|(vs & x & J & K & Q)]; specialize (H vs J); rewrite forallb_forall in H.
  - apply prop_wordb_ok, (H _ K).
  - apply (IH vs x J K) in Q; [exact Q|]. destruct K as [K|K]; exact (H _ K).
Qed.
End B.
Theorem grow_case : exists out, @zones_near env0 /\ @decode_bytes env0 text1 = Ok cal1 /\ @cal_words env0 cal1 /\ @Encode env0 _ _ ok_writer [] cal1 = EncDone None out /\
  (length text1, length (concat (out_of cal1)), @held env0 cal1, @named_in env0 cal1) = (780, 779, 206, 37).
Proof.
  destruct cal1_case as (out & D & _ & _ & _ & _ & _ & _ & H & _). exists out. split; [intros [| |z i] sec; discriminate|]. split; [exact D|]. split; [apply sec_wordb_ok; vm_compute; reflexivity|]. split; [exact H|]. vm_compute. reflexivity.
Qed.
