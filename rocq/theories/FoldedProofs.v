(** What Encode writes is the content lines with folds added. *)
From Coq Require Import String Ascii ZArith Bool List Lia.
From Verif Require Import Base Lib Utf8 GoTime Types Params ParamTable PropTable Props SecTable Sections Folder Unfolder Codec SpecLines FolderProofs UnfolderProofs EncodeProofs SpecTree SpecRules SpecProps HangProofs SpecCal CalProofs EncodableProofs SpecValid ValidProofs RoundProofs SpecRfc SpecOut OutProofs DecodeProofs SpecFolded.
Import ListNotations.

Section F.
Context {env : Env}.
Lemma ins_added st s o : ins st s o -> folds_added s o.
Proof. induction 1; [constructor|constructor; assumption|apply FA_fold; assumption]. Qed.
Theorem encode_added cal e out : Encode ok_writer [] cal = EncDone e out -> folds_added (content cal) (concat out).
Proof. intros H. apply encode_ok_out in H as [_ ->]. eapply ins_added, (folds_ins _ C0). discriminate. Qed.
Theorem encode_exact cal e out : Encode ok_writer [] cal = EncDone e out -> ~ has_fold (content cal) -> unfold (concat out) = content cal.
Proof.
  intros H N. rewrite (encode_unfold _ _ _ H). apply unfold_none. destruct (find_fold (content cal)) eqn:F; [|reflexivity]. exfalso. apply N, has_fold_find. congruence.
Qed.
Theorem same_content c1 c2 e1 e2 o1 o2 : Encode ok_writer [] c1 = EncDone e1 o1 -> Encode ok_writer [] c2 = EncDone e2 o2 ->
  Forall utf8 (pieces (sec_encode c1)) -> Forall utf8 (pieces (sec_encode c2)) -> content c1 = content c2 -> concat o1 = concat o2.
Proof.
  intros H1 H2 U1 U2 Q. apply encode_ok_out in H1 as [_ ->]. apply encode_ok_out in H2 as [_ ->]. rewrite (folds_concat _ U1), (folds_concat _ U2). unfold content in Q. rewrite Q. reflexivity.
Qed.
Theorem clean_content cal e out : sec_id cal = SCalendar -> cal_typed cal -> cal_clean cal -> Encode ok_writer [] cal = EncDone e out -> ~ has_fold (content cal) /\ unfold (concat out) = content cal.
Proof.
  intros ID T C H. assert (OK : cal_ok cal) by (apply (proj2 (encode_refuses ok_writer [] cal)); intros e' w' Q; congruence).
  assert (HG : hangs (sec_encode cal) = false).
  { unfold Encode in H. destruct (sec_valid cal); [discriminate|]. rewrite run_trace_spec in H. cbv zeta in H. destruct (hangs _); [discriminate|reflexivity]. }
  assert (PL : forall pid p, prop_typed pid p -> prop_ok pid p -> prop_clean pid p -> True -> exists l, text (prop_encode pid p) = l ++ CRLF /\ named pid p l /\ sound l).
  { intros pid p T1 O1 C1 _. destruct (prop_line pid p T1 O1 C1) as (l & E & L). exists l. split; [exact E|]. split; [exact L|exact (line_sound _ _ L)]. }
  destruct (cal_body named (fun _ _ => True) PL cal T OK C (fun _ _ _ => Logic.I)) as (ls & CL & TL & SO). destruct cal as [id fs]. cbn [sec_id] in ID. subst id. cbn [sec_fields] in TL.
  assert (S : Forall sound (bs "BEGIN:VCALENDAR" :: ls ++ [bs "END:VCALENDAR"])).
  { constructor; [split; [reflexivity|eexists; eexists; split; [reflexivity|discriminate]]|]. apply Forall_app. split; [exact SO|]. constructor; [split; [reflexivity|eexists; eexists; split; [reflexivity|discriminate]]|constructor]. }
  assert (CT : content (Sec SCalendar fs) = text_of_lines (bs "BEGIN:VCALENDAR" :: ls ++ [bs "END:VCALENDAR"])).
  { unfold content. rewrite text_pieces by exact HG. rewrite sec_encode_eq. change (sp_own (sec_spec SCalendar)) with true. cbv iota. rewrite !text_app, TL, lines_cons, lines_app. reflexivity. }
  assert (NF : ~ has_fold (content (Sec SCalendar fs))) by (apply no_fold_by; rewrite CT; apply sound_no_fold, S).
  split; [exact NF|]. eapply encode_exact; eassumption.
Qed.
End F.
