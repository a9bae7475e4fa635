(** A component in an alarm. *)
From Coq Require Import String Ascii ZArith Bool List Lia.
From Verif Require Import Base Lib Strtok Tokeniser SpecContent TokeniserProofs GoTime Types Params ParamTable PropTable Props SecTable Sections Codec SpecTree TreeProofs ExactProofs SpecRules ShapeProofs SpecBadLine SpecFail FailProofs FailTextProofs FailMoreProofs SpecTrunc TruncProofs.
Import ListNotations.

Section Box.
Context {env : Env}.
Lemma box_fault l more en : cl_name l = bs "BEGIN" -> forall items pre al, cut_at items pre al -> al = true -> forall id x, means id items x -> fault id (pre ++ l :: more) en (Failed ErrInvalidStructure).
Proof.
  intros N. induction 1 as [items more0|items b body e more0 pre al C IH|items b body e more0 pre post Q|items b pre post e more0]; intros T id x M; try discriminate T.
  - pose proof (means_ok _ _ _ _ _ M) as (B & fd & sid & Ifd & Ty & Bl). destruct (means_at _ _ _ _ _ fd M Ifd Bl) as [v IM].
    rewrite Ty in IM. inversion IM as [|? ? ? ? y M2 _ _|]; subst. apply means_so_far in M as [fs SF]. rewrite <- app_assoc.
    apply (Fault id items fs ((b :: pre) ++ l :: more) en _ SF). cbn [app]. eapply Br_comp; try eassumption; [unfold belongs in Bl; rewrite Ty in Bl; exact Bl|]. eapply IH; eauto.
  - pose proof (means_ok _ _ _ _ _ M) as (B & fd & Ifd & Ty & Bl). destruct (means_at _ _ _ _ _ fd M Ifd Bl) as [v IM].
    rewrite Ty in IM. inversion IM as [| |? ? ? us w sid sub e' more' y Fb Ne A1 A2 A3 _ _ _ _]; subst. apply means_so_far in M as [fs SF]. rewrite <- app_assoc.
    apply (Fault id items fs ((b :: pre) ++ l :: more) en _ SF). cbn [app]. eapply Br_alarm; try eassumption; [unfold belongs in Bl; rewrite Ty in Bl; exact Bl|].
    destruct (action_prefix pre post us w sid A1 A2 A3) as [ty A]. apply Forall_app in Fb as [Fb _]. apply (Al_begin pre ty l more en Fb A N).
Qed.
Lemma lines_end ls l : exists a, lines_text (ls ++ [l]) = a ++ CRLF.
Proof. unfold lines_text. rewrite map_app, concat_app. cbn [map concat]. rewrite app_nil_r. eexists. rewrite app_assoc. reflexivity. Qed.
Lemma cut_prefix items pre al : cut_at items pre al -> exists post, flat_map ilines items = pre ++ post.
Proof.
  induction 1 as [items more0|items b body e more0 pre al C (post & Q)|items b body e more0 pre post Q|items b pre post e more0]; rewrite flat_map_app; cbn [flat_map ilines].
  - eexists. reflexivity.
  - rewrite Q. exists ((post ++ [e]) ++ flat_map ilines more0). rewrite <- !app_assoc. cbn [app]. rewrite <- !app_assoc. reflexivity.
  - rewrite Q. exists ((post ++ [e]) ++ flat_map ilines more0). rewrite <- !app_assoc. cbn [app]. rewrite <- !app_assoc. reflexivity.
  - exists ((post ++ [e]) ++ flat_map ilines more0). rewrite <- !app_assoc. cbn [app]. rewrite <- !app_assoc. reflexivity.
Qed.
Theorem box_in_alarm b items e tail cal pre l : framed b items e -> rest_ok tail -> decode_bytes (frame_text b items e ++ tail) = Ok cal -> cut_at items pre true ->
  cl_name l = bs "BEGIN" -> cline_wf l = true -> forall r, decode_bytes (lines_text (b :: pre ++ [l]) ++ r) = Err ErrInvalidStructure.
Proof.
  intros Fr Rt Dc C N Wl r. apply (decode_frame _ _ _ _ _ Fr Rt) in Dc as [M _]. destruct (cut_prefix _ _ _ C) as (post & Q). destruct Fr as (Ib & Vb & _ & _ & W).
  apply Forall_cons_iff in W as [Wb Wi]. apply Forall_app in Wi as [Wi _]. assert (Op : opens_calendar b) by (split; assumption).
  assert (D : decode_bytes (lines_text (b :: pre ++ [l])) = Err ErrInvalidStructure).
  { change (Err ErrInvalidStructure : res sec) with (@fail_res sec (Failed ErrInvalidStructure)). apply decode_fails. eapply Fl_inside; [apply Cu_end|exact Op|apply (box_fault l [] AtEnd N items pre true C eq_refl SCalendar cal M)].
    constructor; [exact Wb|]. apply Forall_app. split; [|constructor; [exact Wl|constructor]]. rewrite Q in Wi. apply Forall_app in Wi as [Wi _]. exact Wi. }
  destruct (lines_end (b :: pre) l) as (a & E). cbn [app] in E. rewrite E in *. rewrite <- app_assoc. apply decode_more; [exact D|discriminate].
Qed.
End Box.
