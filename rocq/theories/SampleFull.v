(** A calendar with folded lines. *)
From Coq Require Import String Ascii ZArith Bool List.
From Verif Require Import Base Lib Utf8 GoTime Types Params Props Sections Folder Codec SpecLines SpecFull EncodeProofs FullProofs Sample.
Import ListNotations.

Definition clean_b (l : bytes) : bool := forallb (fun c => negb (beqc c CR) && negb (beqc c LF)) l.
Lemma clean_of l : clean_b l = true -> ~ In CR l /\ ~ In LF l.
Proof.
  unfold clean_b. rewrite forallb_forall. intros H. split; intros I; apply H in I; discriminate I.
Qed.
Definition utf8_b (p : bytes) : bool := beq (concat (map encode_rune (runes p))) p && forallb valid_rune (runes p).
Lemma utf8_of p : utf8_b p = true -> utf8 p.
Proof.
  unfold utf8_b. rewrite andb_true_iff, forallb_forall. intros [A B]. exists (runes p).
  split; [apply Forall_forall, B|]. symmetry. apply beq_eq, A.
Qed.
Definition space_first (l : bytes) : bool := match l with c :: _ => beqc c SP | [] => false end.
Lemma no_space_of ls : forallb (fun l => negb (space_first l)) ls = true -> no_space_first ls.
Proof.
  rewrite forallb_forall. intros H l I l' ->. assert (J : In (SP :: l') ls) by (destruct ls; [destruct I|right; exact I]).
  apply H in J. discriminate J.
Qed.

(** A summary of forty letters of two octets each *)
Definition letters : bytes := concat (repeat [chr 195; chr 169] 40).
Definition text2 : bytes := lines ["BEGIN:VCALENDAR"; "VERSION:2.0"; "PRODID:-//Town//Agenda 1.0//EN"; "BEGIN:VEVENT"; "DTSTAMP:20240229T101500Z"; "UID:1@town"; "DTSTART:20240301T090000Z"]%string ++
  bs "SUMMARY:" ++ letters ++ CRLF ++ lines ["END:VEVENT"; "END:VCALENDAR"]%string.
Definition cal2 : @sec env0 := ok_or (Sec SecTable.SAlarmNone []) (@decode_bytes env0 text2).
Definition out_of (c : @sec env0) : list bytes := match @Encode env0 _ _ ok_writer [] c with EncDone None out => out | _ => [] end.

Definition late_ok (c : @sec env0) : bool :=
  forallb clean_b (phys_lines (content c)) && forallb utf8_b (pieces (sec_encode c)) &&
  forallb (fun l => negb (space_first l)) (phys_lines (content c)).
Definition late_hyps (c : @sec env0) : Prop :=
  no_bare (content c) /\ Forall utf8 (pieces (sec_encode c)) /\ no_space_first (phys_lines (content c)).
Lemma late_hyps_of c : late_ok c = true -> late_hyps c.
Proof.
  intros H. unfold late_ok in H. apply andb_true_iff in H as [H H3]. apply andb_true_iff in H as [H1 H2].
  rewrite forallb_forall in H1, H2. unfold late_hyps, no_bare.
  split; [apply Forall_forall; intros l I; apply clean_of, H1, I|]. split; [apply Forall_forall; intros l I; apply utf8_of, H2, I|].
  apply no_space_of, H3.
Qed.
Theorem full_case : late_hyps cal1 /\ @Encode env0 _ _ ok_writer [] cal1 = EncDone None (out_of cal1) /\
  exists a l l' b, phys_lines (concat (out_of cal1)) = a ++ l :: (SP :: l') :: b.
Proof.
  split; [apply late_hyps_of; vm_compute; reflexivity|]. split; [vm_compute; reflexivity|].
  exists (firstn 8 (phys_lines (concat (out_of cal1)))), (nth 8 (phys_lines (concat (out_of cal1))) []),
    (tl (nth 9 (phys_lines (concat (out_of cal1))) [])), (skipn 10 (phys_lines (concat (out_of cal1)))).
  vm_compute. reflexivity.
Qed.
Theorem full_letters : late_hyps cal2 /\ @Encode env0 _ _ ok_writer [] cal2 = EncDone None (out_of cal2) /\
  map (@length _) (phys_lines (content cal2)) = [15; 11; 30; 12; 24; 10; 24; 88; 10; 13; 0] /\
  map (@length _) (phys_lines (concat (out_of cal2))) = [15; 11; 30; 12; 24; 10; 24; 74; 15; 10; 13; 0].
Proof.
  split; [apply late_hyps_of; vm_compute; reflexivity|]. split; [vm_compute; reflexivity|]. split; vm_compute; reflexivity.
Qed.
