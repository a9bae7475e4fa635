(** Encode over the folder: what a successful, failing, or refused Encode does. *)
From Coq Require Import String List ZArith Bool Lia.
From Verif Require Import Base Lib Utf8 Utf8Proofs GoTime Types Params Props Sections Folder Unfolder Codec SpecLines FolderProofs.
Import ListNotations.
Local Open Scope Z_scope.

(** The text pieces of a trace, up to a computation that never ends. *)
Fixpoint pieces (tr : list wev) : list bytes :=
  match tr with
  | Wr b :: tr' => b :: pieces tr'
  | _ => []
  end.
Definition hangs (tr : list wev) : bool := existsb (fun e => match e with Hang => true | _ => false end) tr.

Lemma pieces_wrs l : pieces (wrs l) = l.
Proof. induction l; cbn; unfold wrs in *; congruence. Qed.

Section E.
Context {env : Env}.

Lemma run_trace_spec {W E} (wr : W -> bytes -> W * option E) tr : forall st,
  run_trace wr st tr =
  let st' := folder_writes wr st (pieces tr) in
  if hangs tr then EncHang (snd st') else EncDone (f_err (fst st')) (snd st').
Proof.
  induction tr as [|[b|] tr IH]; intros st; cbn [run_trace pieces hangs existsb orb]; try reflexivity.
  rewrite IH. reflexivity.
Qed.

(** The content lines a calendar stands for: what its encoders write, before folding. *)
Definition content (cal : sec) : bytes := concat (pieces (sec_encode cal)).

Lemma encode_ok_out cal e out : Encode ok_writer [] cal = EncDone e out ->
  e = None /\ concat out = fst (folds 0 (pieces (sec_encode cal))).
Proof.
  unfold Encode. destruct (sec_valid cal); [discriminate|]. rewrite run_trace_spec. cbv zeta.
  unfold new_folder. destruct (folder_writes_ok (pieces (sec_encode cal)) 0 []) as (new & -> & E).
  destruct (hangs _); [discriminate|]. cbn [fst snd f_err app]. intros [= <- <-]. auto.
Qed.

Lemma encode_lines cal e out : Encode ok_writer [] cal = EncDone e out -> no_bare (content cal) ->
  Forall (fun l => Z.of_nat (length l) <= 75) (phys_lines (concat out)).
Proof. intros H N. apply encode_ok_out in H as [_ ->]. apply folds_lines, N. Qed.

Lemma encode_unfold cal e out : Encode ok_writer [] cal = EncDone e out ->
  unfold (concat out) = unfold (content cal).
Proof. intros H. apply encode_ok_out in H as [_ ->]. apply folds_unfold. Qed.

Lemma encode_utf8 cal e out : Encode ok_writer [] cal = EncDone e out -> Forall utf8 (pieces (sec_encode cal)) ->
  Forall utf8 (phys_lines (concat out)).
Proof. intros H U. apply encode_ok_out in H as [_ ->]. apply utf8_lines, folds_utf8, U. Qed.

Lemma encode_cuts qs1 qs2 : Forall utf8 qs1 -> Forall utf8 qs2 -> concat qs1 = concat qs2 ->
  concat (snd (folder_writes ok_writer (new_folder, []) qs1)) =
  concat (snd (folder_writes ok_writer (new_folder, []) qs2)).
Proof.
  intros H1 H2 E. unfold new_folder.
  destruct (folder_writes_ok qs1 0 []) as (n1 & -> & E1).
  destruct (folder_writes_ok qs2 0 []) as (n2 & -> & E2).
  cbn [snd app]. rewrite E1, E2, (folds_concat qs1 H1), (folds_concat qs2 H2), E. reflexivity.
Qed.

Lemma encode_failing {W E} (wr : W -> bytes -> W * option E) w cal :
  match Encode (logging wr) (w, []) cal with
  | EncInvalid e (w', log) => Encode ok_writer [] cal = EncInvalid e [] /\ w' = w /\ log = []
  | EncHang (_, log) => exists full, Encode ok_writer [] cal = EncHang full /\
      exists rest, full = map fst log ++ rest
  | EncDone e (_, log) => exists full, Encode ok_writer [] cal = EncDone None full /\
      match e with
      | None => map fst log = full /\ Forall (fun c => snd c = None) log
      | Some err => exists init q rest, log = init ++ [(q, Some err)] /\
          Forall (fun c => snd c = None) init /\ full = map fst log ++ rest
      end
  end.
Proof.
  unfold Encode. destruct (sec_valid cal); [auto|]. rewrite !run_trace_spec. cbv zeta.
  unfold new_folder.
  pose proof (folder_writes_sim wr (pieces (sec_encode cal)) 0 w [] []) as S.
  destruct (folder_writes_ok (pieces (sec_encode cal)) 0 []) as (new0 & E0 & _). rewrite E0 in *.
  destruct (folder_writes (logging wr) _ _) as [f [w' log]].
  destruct S as (new & okn & E1 & E2 & E3). cbn [snd app] in *. subst.
  destruct (hangs _); cbn [fst snd f_err].
  - exists okn. split; [reflexivity|]. unfold simulates in E3. destruct (f_err f).
    + destruct E3 as (_ & _ & rest & _ & _ & ->). eauto.
    + destruct E3 as [<- _]. exists []. rewrite app_nil_r. reflexivity.
  - exists okn. split; [reflexivity|]. exact E3.
Qed.

Lemma encode_invalid {W E} (wr : W -> bytes -> W * option E) w cal e w' log :
  Encode (logging wr) (w, []) cal = EncInvalid e (w', log) -> w' = w /\ log = [].
Proof. intros H. pose proof (encode_failing wr w cal) as F. rewrite H in F. tauto. Qed.

End E.
