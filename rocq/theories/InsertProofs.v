(** Encode writes value by value. *)
From Coq Require Import String Ascii ZArith Bool List Lia.
From Verif Require Import Base Lib Utf8 SpecLines Utf8Proofs GoTime Types Params ParamTable PropTable Props SecTable Sections Folder FolderProofs Codec EncodeProofs HangProofs SpecInsert.
Import ListNotations.

(** ** The count is zero after a line end *)
Lemma fold1_crlf s : forall line, exists o, fold1 line (s ++ CRLF) = (o ++ CRLF, 0%Z).
Proof.
  induction s as [|c l IH] using rune_ind; intros line; [exists []; reflexivity|]. cbn [app]. rewrite fold1_cons. pose proof (rune_cases c (l ++ CRLF)) as R. destruct (decode_rune (c :: l ++ CRLF)) as [r s] eqn:D.
  assert (X : forall k, exists o, fold1 k (skipn s (c :: l ++ CRLF)) = (o ++ CRLF, 0%Z)).
  { intros k. assert (HS : (1 <= s)%nat) by (destruct R as [(_ & _ & ->)|[(_ & _ & ->)|(_ & _ & _ & W)]]; lia).
    assert (HL : (s <= length (c :: l))%nat).
    { destruct (le_lt_dec s (length (c :: l))) as [L|L]; [exact L|]. exfalso. destruct R as [(_ & _ & ->)|[(_ & _ & ->)|(_ & _ & F & W)]]; [cbn in L; lia|cbn in L; lia|].
      change (c :: l ++ CRLF) with ((c :: l) ++ [CR] ++ [LF]) in F. rewrite firstn_app in F. apply Forall_app in F as [_ F]. destruct (s - length (c :: l))%nat as [|n] eqn:N; [lia|]. cbn [app firstn] in F. apply Forall_cons_iff in F as [[F _] _]. apply F. reflexivity. }
    change (c :: l ++ CRLF) with ((c :: l) ++ CRLF). rewrite skipn_app. replace (s - length (c :: l))%nat with 0%nat by lia. cbn [skipn]. apply IH. rewrite skipn_length. cbn [length] in *. lia. }
  cbv zeta. set (ch := firstn s _). destruct (r =? 10)%Z; [specialize (X 0%Z)|destruct (r =? 13)%Z; [specialize (X ((line + Z.of_nat s) mod 256)%Z)|destruct (maxLineLength <? _)%Z; [specialize (X ((Z.of_nat s + 1) mod 256)%Z)|specialize (X ((line + Z.of_nat s) mod 256)%Z)]]]; destruct X as (o & X); rewrite X;
    [exists (ch ++ o)|exists (ch ++ o)|exists (eol ++ ch ++ o)|exists (ch ++ o)]; rewrite <- ?app_assoc; reflexivity.
Qed.
Lemma folds_app a : forall line b, folds line (a ++ b) = (fst (folds line a) ++ fst (folds (snd (folds line a)) b), snd (folds (snd (folds line a)) b)).
Proof.
  induction a as [|q a IH]; intros line b; [cbn; destruct (folds line b); reflexivity|]. cbn [app folds]. destruct (fold1 line q) as [o l]. rewrite IH. destruct (folds l a) as [o' l']. cbn [fst snd]. destruct (folds l' b). cbn [fst snd]. rewrite app_assoc. reflexivity.
Qed.
Lemma folds_crlf a s line : exists o, folds line (a ++ [s ++ CRLF]) = (o ++ CRLF, 0%Z).
Proof.
  rewrite folds_app. cbn [folds]. destruct (fold1_crlf s (snd (folds line a))) as (o & Q). rewrite Q. cbn [fst snd]. rewrite app_nil_r. exists (fst (folds line a) ++ o). rewrite app_assoc. reflexivity.
Qed.
Lemma pieces_app a b : hangs a = false -> pieces (a ++ b) = pieces a ++ pieces b.
Proof. induction a as [|[q|] a IH]; cbn [app pieces hangs existsb orb]; intros H; [reflexivity| |discriminate]. f_equal. apply IH, H. Qed.
Lemma hangs_app a b : hangs (a ++ b) = hangs a || hangs b.
Proof. apply existsb_app. Qed.

Section Insert.
Context {env : Env}.
Definition keeps (tr : list wev) : Prop := hangs tr = false -> snd (folds 0 (pieces tr)) = 0%Z /\ whole_lines (fst (folds 0 (pieces tr))).
Lemma keeps_nil : keeps [].
Proof. intros _. split; [reflexivity|left; reflexivity]. Qed.
Lemma whole_app a b : whole_lines a -> whole_lines b -> whole_lines (a ++ b).
Proof. intros A [->|(o & ->)]; [rewrite app_nil_r; exact A|]. right. exists (a ++ o). apply app_assoc. Qed.
Lemma keeps_app a b : keeps a -> keeps b -> keeps (a ++ b).
Proof.
  intros A B H. rewrite hangs_app in H. apply orb_false_iff in H as [H1 H2]. rewrite (pieces_app _ _ H1), folds_app. cbn [fst snd]. destruct (A H1) as [A1 A2]. rewrite A1. destruct (B H2) as [B1 B2]. split; [exact B1|apply whole_app; assumption].
Qed.
Lemma keeps_end tr s : keeps (tr ++ [Wr (s ++ CRLF)]).
Proof. intros H. rewrite hangs_app in H. apply orb_false_iff in H as [H1 _]. rewrite (pieces_app _ _ H1). cbn [pieces]. destruct (folds_crlf (pieces tr) s 0) as (o & Q). rewrite Q. split; [reflexivity|right; exists o; reflexivity]. Qed.
Lemma keeps_flat {A} (f : A -> list wev) l : (forall a, In a l -> keeps (f a)) -> keeps (flat_map f l).
Proof. induction l as [|a l IH]; intros H; [apply keeps_nil|]. cbn [flat_map]. apply keeps_app; [apply H; left; reflexivity|apply IH; intros; apply H; right; assumption]. Qed.
Lemma keeps_prop pid p : keeps (prop_encode pid p).
Proof.
  unfold prop_encode. destruct (prop_spec pid) as [key k]. destruct k, p; try apply keeps_nil.
  - rewrite app_comm_cons, app_assoc. apply (keeps_end _ []).
  - rewrite app_assoc. apply (keeps_end _ []).
  - rewrite app_comm_cons. apply (keeps_end _ []).
Qed.
Lemma begin_end n : begin_line n = (bs "BEGIN:" ++ n) ++ CRLF.
Proof. unfold begin_line. rewrite <- ?app_assoc. reflexivity. Qed.
Lemma end_end n : end_line n = (bs "END:" ++ n) ++ CRLF.
Proof. unfold end_line. rewrite <- ?app_assoc. reflexivity. Qed.
Lemma keeps_one s : keeps [Wr (s ++ CRLF)].
Proof. apply (keeps_end [] s). Qed.
Lemma keeps_begin n : keeps [Wr (begin_line n)].
Proof. rewrite begin_end. apply keeps_one. Qed.
Lemma keeps_close n : keeps [Wr (end_line n)].
Proof. rewrite end_end. apply keeps_one. Qed.
Lemma sec_encode_eq id fs : sec_encode (Sec id fs) = (if sp_own (sec_spec id) then [Wr (begin_line (sp_name (sec_spec id)))] else []) ++ flat_map (flat_map fval_encode) fs ++ (if sp_own (sec_spec id) then [Wr (end_line (sp_name (sec_spec id)))] else []).
Proof. reflexivity. Qed.
Lemma keeps_sec x : keeps (sec_encode x).
Proof.
  induction x as [id fs IH] using HangProofs.sec_induct. rewrite sec_encode_eq. apply keeps_app; [destruct (sp_own _); [apply keeps_begin|apply keeps_nil]|]. apply keeps_app; [|destruct (sp_own _); [apply keeps_close|apply keeps_nil]].
  apply keeps_flat. intros vs I. apply keeps_flat. intros v J. destruct v as [pid p|x|[x|]]; [apply keeps_prop| | |apply keeps_nil].
  - apply (IH vs x I). left. exact J.
  - change (keeps ([Wr (begin_line (bs "VALARM"))] ++ [Wr (bs "ACTION:" ++ alarm_word (sec_id x) ++ CRLF)] ++ sec_encode x ++ [Wr (end_line (bs "VALARM"))])).
    apply keeps_app; [apply keeps_begin|]. apply keeps_app; [rewrite app_assoc; apply keeps_one|]. apply keeps_app; [|apply keeps_close]. apply (IH vs x I). right. exact J.
Qed.
Lemma keeps_val v : keeps (fval_encode v).
Proof.
  destruct v as [pid p|x|[x|]]; [apply keeps_prop|apply keeps_sec| |apply keeps_nil].
  change (keeps ([Wr (begin_line (bs "VALARM"))] ++ [Wr (bs "ACTION:" ++ alarm_word (sec_id x) ++ CRLF)] ++ sec_encode x ++ [Wr (end_line (bs "VALARM"))])).
  apply keeps_app; [apply keeps_begin|]. apply keeps_app; [rewrite app_assoc; apply keeps_one|]. apply keeps_app; [apply keeps_sec|apply keeps_close].
Qed.

(** ** One more value *)
Lemma first_err_app {A} (f : A -> option gerr) a b : first_err f (a ++ b) = None <-> first_err f a = None /\ first_err f b = None.
Proof. induction a as [|x a IH]; cbn [app]; [cbn; tauto|]. cbn. destruct (f x); [split; [discriminate|intros [H _]; discriminate H]|exact IH]. Qed.
Lemma first_err_cons {A} (f : A -> option gerr) a b : first_err f (a :: b) = None <-> f a = None /\ first_err f b = None.
Proof. cbn. destruct (f a); [split; [discriminate|intros [H _]; discriminate H]|tauto]. Qed.
Lemma inserted_valid v x y : inserted v x y -> (sec_valid y = None <-> sec_valid x = None /\ fval_valid v = None).
Proof.
  induction 1 as [id a u w c|id a u x y w c H IH|id a u x y w c H IH].
  - change (first_err (first_err fval_valid) (a ++ (u ++ v :: w) :: c) = None <-> first_err (first_err fval_valid) (a ++ (u ++ w) :: c) = None /\ fval_valid v = None).
    rewrite !first_err_app, !first_err_cons, !first_err_app, !first_err_cons. tauto.
  - change (first_err (first_err fval_valid) (a ++ (u ++ FVSec y :: w) :: c) = None <-> first_err (first_err fval_valid) (a ++ (u ++ FVSec x :: w) :: c) = None /\ fval_valid v = None).
    rewrite !first_err_app, !first_err_cons, !first_err_app, !first_err_cons. change (fval_valid (FVSec y)) with (sec_valid y). change (fval_valid (FVSec x)) with (sec_valid x). tauto.
  - change (first_err (first_err fval_valid) (a ++ (u ++ FVAlarm (Some y) :: w) :: c) = None <-> first_err (first_err fval_valid) (a ++ (u ++ FVAlarm (Some x) :: w) :: c) = None /\ fval_valid v = None).
    rewrite !first_err_app, !first_err_cons, !first_err_app, !first_err_cons. change (fval_valid (FVAlarm (Some y))) with (sec_valid y). change (fval_valid (FVAlarm (Some x))) with (sec_valid x). tauto.
Qed.
Lemma inserted_trace v x y : inserted v x y -> sec_id x = sec_id y /\ exists t1 t2, sec_encode x = t1 ++ t2 /\ sec_encode y = t1 ++ fval_encode v ++ t2 /\ keeps t1 /\ keeps t2.
Proof.
  assert (KF : forall (a : list (list fval)), keeps (flat_map (flat_map fval_encode) a)) by (intros; apply keeps_flat; intros; apply keeps_flat; intros; apply keeps_val).
  assert (KV : forall (a : list fval), keeps (flat_map fval_encode a)) by (intros; apply keeps_flat; intros; apply keeps_val).
  assert (KB : forall id, keeps (if sp_own (sec_spec id) then [Wr (begin_line (sp_name (sec_spec id)))] else [])) by (intros id; destruct (sp_own _); [apply keeps_begin|apply keeps_nil]).
  assert (KE : forall id, keeps (if sp_own (sec_spec id) then [Wr (end_line (sp_name (sec_spec id)))] else [])) by (intros id; destruct (sp_own _); [apply keeps_close|apply keeps_nil]).
  assert (KL : forall (l : list (list wev)), Forall keeps l -> keeps (concat l)) by (intros l F; induction F; [apply keeps_nil|cbn [concat]; apply keeps_app; assumption]).
  induction 1 as [id a u w c|id a u x y w c H IH|id a u x y w c H IH]; (split; [reflexivity|]); rewrite !sec_encode_eq, !flat_map_app; cbn [flat_map]; rewrite !flat_map_app; cbn [flat_map]; specialize (KB id); specialize (KE id); set (B := if sp_own _ then _ else _) in *; set (F := if sp_own _ then [Wr (end_line _)] else _) in *.
  - exists (concat [B; flat_map (flat_map fval_encode) a; flat_map fval_encode u]), (concat [flat_map fval_encode w; flat_map (flat_map fval_encode) c; F]).
    split; [cbn [concat]; rewrite <- ?app_assoc, !app_nil_r; reflexivity|split; [cbn [concat]; rewrite <- ?app_assoc, !app_nil_r; reflexivity|]]. split; apply KL; repeat (apply Forall_cons; [solve [auto]|]); apply Forall_nil.
  - destruct IH as (_ & t1 & t2 & Qx & Qy & K & K'). change (fval_encode (FVSec x)) with (sec_encode x). change (fval_encode (FVSec y)) with (sec_encode y). rewrite Qx, Qy.
    exists (concat [B; flat_map (flat_map fval_encode) a; flat_map fval_encode u; t1]), (concat [t2; flat_map fval_encode w; flat_map (flat_map fval_encode) c; F]).
    split; [cbn [concat]; rewrite <- ?app_assoc, !app_nil_r; reflexivity|split; [cbn [concat]; rewrite <- ?app_assoc, !app_nil_r; reflexivity|]]. split; apply KL; repeat (apply Forall_cons; [solve [auto]|]); apply Forall_nil.
  - destruct IH as (I & t1 & t2 & Qx & Qy & K & K').
    change (fval_encode (FVAlarm (Some x))) with ([Wr (begin_line (bs "VALARM"))] ++ [Wr (bs "ACTION:" ++ alarm_word (sec_id x) ++ CRLF)] ++ sec_encode x ++ [Wr (end_line (bs "VALARM"))]).
    change (fval_encode (FVAlarm (Some y))) with ([Wr (begin_line (bs "VALARM"))] ++ [Wr (bs "ACTION:" ++ alarm_word (sec_id y) ++ CRLF)] ++ sec_encode y ++ [Wr (end_line (bs "VALARM"))]). rewrite I, Qx, Qy.
    assert (K1 := keeps_begin (bs "VALARM")). assert (K2 := keeps_close (bs "VALARM")). assert (K3 := keeps_one (bs "ACTION:" ++ alarm_word (sec_id y))). rewrite <- app_assoc in K3.
    clearbody B F. set (b := [Wr (begin_line (bs "VALARM"))]) in *. set (e := [Wr (end_line (bs "VALARM"))]) in *. set (k := [Wr (bs "ACTION:" ++ _)]) in *. clearbody b e k.
    exists (concat [B; flat_map (flat_map fval_encode) a; flat_map fval_encode u; b; k; t1]), (concat [t2; e; flat_map fval_encode w; flat_map (flat_map fval_encode) c; F]).
    split; [cbn [concat]; rewrite <- ?app_assoc, !app_nil_r; reflexivity|split; [cbn [concat]; rewrite <- ?app_assoc, !app_nil_r; reflexivity|]]. split; apply KL; repeat (apply Forall_cons; [solve [auto]|]); apply Forall_nil.
Qed.
Definition text_of_value (v : fval) : bytes := fst (folds 0 (pieces (fval_encode v))).
Lemma encode_done cal out : Encode ok_writer [] cal = EncDone None out -> sec_valid cal = None /\ hangs (sec_encode cal) = false /\ concat out = fst (folds 0 (pieces (sec_encode cal))).
Proof.
  intros H. destruct (encode_ok_out _ _ _ H) as [_ Q]. unfold Encode in H. destruct (sec_valid cal); [discriminate|]. rewrite run_trace_spec in H. cbv zeta in H. destruct (hangs _); [discriminate|]. auto.
Qed.
Lemma encode_does cal : sec_valid cal = None -> hangs (sec_encode cal) = false -> exists out, @Encode env _ Empty_set ok_writer [] cal = EncDone None out.
Proof.
  intros V H. unfold Encode. rewrite V, run_trace_spec, H. cbv zeta. destruct (folder_writes_ok (pieces (sec_encode cal)) 0 []) as (new & Q & _). unfold new_folder. rewrite Q. eexists. reflexivity.
Qed.
Theorem inserted_text v x y out : inserted v x y -> Encode ok_writer [] y = EncDone None out ->
  exists out0 a c, Encode ok_writer [] x = EncDone None out0 /\ concat out0 = a ++ c /\ concat out = a ++ text_of_value v ++ c /\ whole_lines a /\ whole_lines (text_of_value v) /\ whole_lines c.
Proof.
  intros I H. apply encode_done in H as (V & Hg & Q). apply (inserted_valid _ _ _ I) in V as [V _]. destruct (inserted_trace _ _ _ I) as (_ & t1 & t2 & Qx & Qy & K & K').
  rewrite Qy, !hangs_app in Hg. apply orb_false_iff in Hg as [H1 Hg]. apply orb_false_iff in Hg as [H2 H3].
  destruct (encode_does x V) as (out0 & E); [rewrite Qx, hangs_app, H1, H3; reflexivity|]. exists out0, (fst (folds 0 (pieces t1))), (fst (folds 0 (pieces t2))). split; [exact E|]. apply encode_done in E as (_ & _ & Q0).
  rewrite Q0, Q, Qx, Qy. rewrite !pieces_app by assumption. rewrite !folds_app. cbn [fst snd]. destruct (K H1) as [K1 K2]. destruct (keeps_val v H2) as [K3 K4]. destruct (K' H3) as [_ K5]. rewrite K1, K3. auto.
Qed.
Theorem inserted_writes v x y out x' y' out' : inserted v x y -> Encode ok_writer [] y = EncDone None out -> inserted v x' y' -> Encode ok_writer [] x' = EncDone None out' ->
  exists out1, @Encode env _ Empty_set ok_writer [] y' = EncDone None out1.
Proof.
  intros I H I' H'. apply encode_done in H as (V & Hg & _). apply encode_done in H' as (V' & Hg' & _). apply (inserted_valid _ _ _ I) in V as [_ V].
  destruct (inserted_trace _ _ _ I) as (_ & t1 & t2 & _ & Qy & _ & _). destruct (inserted_trace _ _ _ I') as (_ & t1' & t2' & Qx' & Qy' & _ & _).
  apply encode_does; [apply (inserted_valid _ _ _ I'); auto|]. rewrite Qy, !hangs_app in Hg. apply orb_false_iff in Hg as [_ Hg]. apply orb_false_iff in Hg as [H2 _].
  rewrite Qx', hangs_app in Hg'. apply orb_false_iff in Hg' as [H1 H3]. rewrite Qy', !hangs_app, H1, H2, H3. reflexivity.
Qed.
Theorem value_by_value : exists text : fval -> bytes, forall v x y out, inserted v x y -> Encode ok_writer [] y = EncDone None out ->
  exists out0 a c, Encode ok_writer [] x = EncDone None out0 /\ concat out0 = a ++ c /\ concat out = a ++ text v ++ c /\ whole_lines a /\ whole_lines (text v) /\ whole_lines c.
Proof. exists text_of_value. exact inserted_text. Qed.
End Insert.
