(** Values that cannot be read, in texts that come in any number of reads. *)
From Coq Require Import String Ascii ZArith Bool List Lia.
From Verif Require Import Base Lib SpecLines Unfolder Tokeniser SpecContent GoTime Types Params ParamTable PropTable Props SecTable Sections Folder Codec UnfolderProofs DecodeProofs FolderProofs SpecTree TreeProofs ExactProofs SpecRules SpecEdits SpecProps SpecRfc SpecLine LineProofs PropProofs RulesProofs ShapeProofs EncodeProofs PrefixProofs HangProofs GroupProofs SpecCal CalProofs RoundProofs SpecLined.
From Verif Require Import SpecLined LinedProofs SpecCuts CutsProofs SampleCuts AgainProofs.
Import ListNotations.

Section U.
Context {env : Env}.
Lemma unread_text cal pid p : sec_id cal = SCalendar -> sec_valid cal = None -> cal_lined cal -> has_prop cal pid p -> pid <> PrLastModified ->
  (forall l q, prop_lined pid p l -> ~ line_means pid (cl_params l) (cl_value l) q) ->
  exists out, Encode ok_writer [] cal = EncDone None out /\
    forall c, decode_bytes (unfold (concat out)) <> Ok c.
Proof.
  destruct cal as [id fs]. cbn [sec_id]. intros -> V G HP NL U. destruct (lined_body (Sec SCalendar fs) SCalendar fs eq_refl G) as (items & [(ws & E0 & C0') W0] & _ & Sh & R).
  set (qs := begin_line (bs "VCALENDAR") :: ws). assert (EN : sec_encode (Sec SCalendar fs) = wrs (qs ++ [last_piece])).
  { rewrite sec_encode_eq, E0. change (sp_own (sec_spec SCalendar)) with true. change (sp_name (sec_spec SCalendar)) with (bs "VCALENDAR"). cbv iota. cbn [app]. unfold wrs, qs. cbn [app]. rewrite map_cons, map_app. reflexivity. }
  assert (W : wf_lines (begin_of (bs "VCALENDAR") :: flat_map ilines items ++ [end_of (bs "VCALENDAR")])) by (constructor; [reflexivity|]; apply Forall_app; split; [exact W0|]; constructor; [reflexivity|constructor]).
  assert (C : concat qs = lines_text (begin_of (bs "VCALENDAR") :: flat_map ilines items)) by (unfold qs; cbn [concat]; rewrite C0', lines_text_cons, app_assoc; reflexivity).
  set (cal := Sec SCalendar fs) in *.
  assert (E : exists out, Encode ok_writer [] cal = EncDone None out).
  { unfold Encode. rewrite V, run_trace_spec. cbv zeta. rewrite EN.
    replace (hangs (wrs (qs ++ [last_piece]))) with false; [|symmetry; clear; generalize (qs ++ [last_piece]); induction l; [reflexivity|exact IHl]].
    unfold new_folder. destruct (folder_writes_ok (pieces (wrs (qs ++ [last_piece]))) 0 []) as (new & -> & _). eexists. reflexivity. }
  destruct E as (out & E). exists out. split; [exact E|].
  intros c. rewrite (encode_unfold _ _ _ E). unfold content. rewrite EN, pieces_wrs, concat_app, C. cbn [concat]. rewrite app_nil_r.
  assert (Q : lines_text (begin_of (bs "VCALENDAR") :: flat_map ilines items) ++ last_piece = lines_text (begin_of (bs "VCALENDAR") :: flat_map ilines items ++ [end_of (bs "VCALENDAR")])).
  { rewrite app_comm_cons, lines_text_app. reflexivity. }
  rewrite Q, (lines_unfold _ W), <- Q.
  assert (Q2 : lines_text (begin_of (bs "VCALENDAR") :: flat_map ilines items) ++ last_piece = frame_text (begin_of (bs "VCALENDAR")) items (end_of (bs "VCALENDAR")) ++ CRLF) by (unfold frame_text; rewrite <- app_assoc; reflexivity).
  rewrite Q2. intros D. apply decode_frame in D as [M _]; [|repeat split; [exact Sh|exact W]|right; exists []; reflexivity].
  apply means_smeans in M as [M _]. destruct (R c M pid p HP NL) as (l & q & PL & LM). exact (U l q PL LM).
Qed.

Theorem unread_in_parts cal pid p : sec_id cal = SCalendar -> sec_valid cal = None -> cal_lined cal -> has_prop cal pid p -> pid <> PrLastModified ->
  (forall l q, prop_lined pid p l -> ~ line_means pid (cl_params l) (cl_value l) q) ->
  exists out, Encode ok_writer [] cal = EncDone None out /\
    forall chunks sizes ds, concat chunks = concat out -> (forall i, 2 <= sizes i) -> reads sizes 0 [] (Rdr chunks false REOF) ds -> no_cut ds -> exists n, forall fuel c, n <= fuel -> Decode fuel sizes chunks false <> Ok c.
Proof.
  intros I V G H NL U. destruct (unread_text cal pid p I V G H NL U) as (out & E & D). exists out. split; [exact E|]. intros chunks sizes ds Q P R C.
  assert (X : Forall (fun d => ~ stuck d) ds \/ Exists stuck ds).
  { clear. induction ds as [|d ds IH]; [left; constructor|]. destruct IH as [A|A]; [|right; right; exact A]. destruct (tail_dec d) as [S|S]; [right; left; exact S|left; constructor; [intros [F B]; exact (S F B)|exact A]]. }
  destruct X as [X|X].
  - destruct (decode_clean sizes chunks ds P R C X) as (n & Z). exists n. intros fuel c F. rewrite (Z fuel F), Q. apply D.
  - exists 0. intros fuel c _. rewrite (decode_unclean sizes chunks ds P R C X fuel). discriminate.
Qed.
End U.
