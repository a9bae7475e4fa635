(** A calendar that holds more than its text, and one that does not. *)
From Coq Require Import String Ascii ZArith Bool List Arith.
From Verif Require Import Base Lib Tokeniser SpecContent GoTime Types Params ParamTable PropTable Props SecTable Sections Codec SpecTree SpecRules SpecLines SampleTree SpecSize SizeProofs.
Import ListNotations.

Definition size_text (desc : cline) : bytes := lines_text
  [ln "BEGIN" "VCALENDAR"; ln "VERSION" "2.0"; ln "PRODID" "-//Town//Agenda 1.0//EN"; ln "BEGIN" "VEVENT"; ln "UID" "1@town"; ln "DTSTAMP" "20240229T101500Z"; desc; ln "END" "VEVENT"] ++ bs "END:VCALENDAR".
(** A backslash before a byte that is not UTF-8, a hundred times: four bytes for two. *)
Definition bad_escapes : cline := CLine (bs "SUMMARY") [] (concat (repeat ("\"%char :: [chr 255]) 100)).
(** A caret before a letter, in a parameter: again four bytes for two. *)
Definition bad_carets : cline := CLine (bs "SUMMARY") [CParam (bs "LANGUAGE") (Plain (concat (repeat (bs "^a") 100))) []] (bs "x").
Definition good_desc : cline := CLine (bs "CATEGORIES") [] (bs "town\, hall,tea\nand cake\;,\a").

Section S.
Context {env : Env}.
Definition grows (s : bytes) : bool := match decode_bytes s with Ok c => Nat.ltb (length s) (held c) | _ => false end.
Lemma grows_ok s : grows s = true -> exists cal, decode_bytes s = Ok cal /\ length s < held cal.
Proof. unfold grows. destruct (decode_bytes s) as [c| | |]; try discriminate. intros H. apply Nat.ltb_lt in H. exists c. auto. Qed.
Theorem held_more : exists s cal, decode_bytes s = Ok cal /\ length s < held cal.
Proof. exists (size_text bad_escapes). apply grows_ok. vm_compute. reflexivity. Qed.
Theorem held_more_params : exists cal, decode_bytes (size_text bad_carets) = Ok cal /\ length (size_text bad_carets) < held cal.
Proof. apply grows_ok. vm_compute. reflexivity. Qed.

Definition back_ok (s : bytes) : bool :=
  (fix go s := match s with
   | [] => true
   | c :: s' => negb (beqc c "^") && (if beqc c "\" then match s' with d :: _ => (32 <=? code d)%Z && (code d <? 128)%Z | [] => false end else true) && go s'
   end) s.
Lemma back_tame : forall s, back_ok s = true -> tame s.
Proof.
  induction s as [|c s IH]; intros H; [split; [intros []|intros [|] ? E; discriminate]|]. cbn in H. apply andb_true_iff in H as [H R]. apply andb_true_iff in H as [N B]. destruct (IH R) as [A C].
  split.
  - intros [-> |I]; [discriminate|auto].
  - intros [|x a] b E; cbn [app] in E; injection E as -> E.
    + cbn in B. rewrite E in B. destruct b as [|d b]; [discriminate|]. exists d, b. split; [reflexivity|]. apply andb_true_iff in B as [B1 B2]. apply Z.leb_le in B1. apply Z.ltb_lt in B2. auto.
    + apply (C a b E).
Qed.
Theorem size_case : (exists cal, decode_bytes (size_text good_desc) = Ok cal) /\ tame (size_text good_desc) /\ (exists cal, decode_bytes (size_text bad_escapes) = Ok cal).
Proof.
  split; [eexists; vm_compute; reflexivity|]. split; [apply back_tame; vm_compute; reflexivity|]. eexists; vm_compute; reflexivity.
Qed.
Theorem held_example : exists cal, decode_bytes (size_text good_desc) = Ok cal /\ held cal = 68.
Proof. eexists. split; [vm_compute; reflexivity|]. vm_compute. reflexivity. Qed.
End S.
