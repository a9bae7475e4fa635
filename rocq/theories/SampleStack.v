(** Concrete cases for C108. *)
From Coq Require Import String Ascii ZArith Bool List Lia.
From Verif Require Import Base SpecContent GoTime Types Params Props SecTable Sections SpecTree SpecRules SpecLines SpecBadLine SpecFail Codec Stack SpecStack StackProofs SampleTree SampleMerge.
Import ListNotations.

Section Sample.
Context {env : Env}.
Definition within (n : nat) (ls : list cline) : bool :=
  forallb (fun i => forallb (fun j => (balance (firstn j (skipn i ls)) <=? Z.of_nat n)%Z) (seq 0 (S (length ls)))) (seq 0 (S (length ls))).
Lemma within_sound n ls : within n ls = true -> nested_within n ls.
Proof.
  unfold within. rewrite forallb_forall. intros H a m b ->. specialize (H (length a)). rewrite forallb_forall in H. rewrite !app_length in H.
  specialize (H ltac:(apply in_seq; lia) (length m) ltac:(apply in_seq; lia)). apply Z.leb_le in H.
  rewrite skipn_app, skipn_all, Nat.sub_diag in H. cbn [app skipn] in H. rewrite firstn_app, firstn_all, Nat.sub_diag in H. cbn [firstn] in H. rewrite app_nil_r in H. exact H.
Qed.
Definition s_lines : list cline := t_begin :: flat_map ilines t_items ++ [t_end].
Lemma stack_case : cut_into (lines_text s_lines) s_lines AtEnd /\ nested_within 3 s_lines /\ decode_calls (lines_text s_lines) = 5 /\
  exists cal, decode_bytes (lines_text s_lines) = Ok cal.
Proof.
  split. { apply Cu_end. apply Forall_forall. intros l I. assert (K : forallb cline_wf s_lines = true) by (vm_compute; reflexivity). rewrite forallb_forall in K. auto. }
  split. { apply within_sound. vm_compute. reflexivity. }
  split; [vm_compute; reflexivity|]. eexists. vm_compute. reflexivity.
Qed.
Lemma stack_begins : exists s m, cut_into s (t_begin :: m ++ []) AtEnd /\ opens_calendar t_begin /\ Forall is_begin m /\ length m = 3 /\ decode_calls s = 5 /\
  (forall x m', m = x :: m' -> ~ In (upper (cl_value x)) (map fst (children SCalendar))).
Proof.
  exists (lines_text (t_begin :: repeat box_begin 3)), (repeat box_begin 3). rewrite app_nil_r.
  split. { apply Cu_end. repeat constructor. }
  split; [split; reflexivity|]. split; [repeat constructor|]. split; [reflexivity|]. split; [vm_compute; reflexivity|].
  intros x m' Q. cbn [repeat] in Q. injection Q as <- _. change (upper (cl_value box_begin)) with (bs "X"). cbn [children map fst In]. intros R. repeat (destruct R as [R|R]; [discriminate R|]). exact R.
Qed.
End Sample.
