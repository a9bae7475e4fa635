(** Calendars that were read and then changed are kept. *)
From Coq Require Import String Ascii ZArith Bool List Lia.
From Verif Require Import Base Lib Utf8 GoTime Types Params ParamTable PropTable Props SecTable Sections Folder Codec EncodeProofs SpecLines SpecTree SpecRules SpecProps SpecCal CalProofs EncodableProofs SpecKeep KeepProofs SpecValid ValidProofs SampleCal SpecRevise.
Import ListNotations.

Section Revise.
Context {env : Env}.

Definition kept_node (x : sec) : Prop := cal_good x /\ rules_met x /\ (forall p, ~ has_prop x PrLastModified p) /\ sec_valid x = None.
Definition kept_val (t : ftype) (v : fval) : Prop :=
  match v with
  | FVProp pid p => t = FTProp pid /\ prop_good pid p /\ pid <> PrLastModified /\ prop_valid pid p = None
  | FVSec x => t = FTSec (sec_id x) /\ kept_node x
  | FVAlarm (Some x) => t = FTAlarm /\ (exists w, action_is w (sec_id x)) /\ kept_node x
  | FVAlarm None => False
  end.
Definition kept_fields (id : secid) (fs : list (list fval)) : Prop := length fs = length (fields_of id) /\
  forall i fd vs, nth_error (fields_of id) i = Some fd -> nth_error fs i = Some vs -> count_ok (fd_mode fd) (length vs) /\ Forall (kept_val (fd_type fd)) vs.

Lemma node_eq id fs : kept_node (Sec id fs) <-> kept_fields id fs /\ obeys (Sec id fs).
Proof.
  unfold kept_node, rules_met. rewrite parts_eq. change (sec_valid (Sec id fs)) with (first_err (first_err fval_valid) fs). rewrite first_err_none. split.
  - intros (G & (O & P) & N & V). split; [|exact O]. inversion G as [? ? L H]; subst. split; [exact L|]. intros i fd vs F W. destruct (H i fd vs F W) as [C A]. split; [exact C|].
    pose proof (nth_error_In _ _ W) as I. specialize (V vs I). rewrite first_err_none in V. apply Forall_forall. intros v J. rewrite Forall_forall in A. specialize (A v J). specialize (V v J). specialize (P vs v I J).
    inversion A as [pid p PG Q1 Q2|sid gs SG Q1 Q2|w sid gs AC SG Q1 Q2]; subst; cbn [kept_val].
    + split; [reflexivity|]. split; [exact PG|]. split; [|exact V]. intros ->. apply (N p). apply has_prop_eq. left. eauto.
    + split; [reflexivity|]. split; [exact SG|]. split; [exact P|]. split; [|exact V]. intros p HP. apply (N p). apply has_prop_eq. right. eauto 6.
    + split; [reflexivity|]. split; [exists w; exact AC|]. split; [exact SG|]. split; [exact P|]. split; [|exact V]. intros p HP. apply (N p). apply has_prop_eq. right. eauto 6.
  - intros ((L & H) & O).
    assert (X : forall vs v, In vs fs -> In v vs -> exists t, kept_val t v).
    { intros vs v I J. apply In_nth_error in I as (i & W). assert (B : i < length (fields_of id)) by (rewrite <- L; apply nth_error_Some; rewrite W; discriminate).
      destruct (nth_error (fields_of id) i) as [fd|] eqn:F; [|apply nth_error_None in F; lia]. destruct (H i fd vs F W) as [_ A]. rewrite Forall_forall in A. eauto. }
    split; [|split; [split; [exact O|]|split]].
    + constructor; [exact L|]. intros i fd vs F W. destruct (H i fd vs F W) as [C A]. split; [exact C|]. eapply Forall_impl; [|exact A]. intros v. generalize (fd_type fd). intros t K. destruct v as [pid p|[sid gs]|[[sid gs]|]]; cbn [kept_val sec_id] in K.
      * destruct K as (-> & K & _). constructor. exact K.
      * destruct K as (-> & K & _). constructor. exact K.
      * destruct K as (-> & (w & K) & K' & _). econstructor; eassumption.
      * destruct K.
    + intros vs v I J. destruct (X vs v I J) as (t & K). destruct v as [pid p|x|[x|]]; cbn [val_part kept_val] in *; try exact Logic.I.
      * exact (proj1 (proj2 (proj2 K))).
      * exact (proj1 (proj2 (proj2 (proj2 K)))).
    + intros p HP. apply has_prop_eq in HP as [(vs & I & J)|(vs & x & I & J & HP)].
      * destruct (X vs _ I J) as (t & _ & _ & K & _). apply K. reflexivity.
      * destruct J as [J|J]; destruct (X vs _ I J) as (t & K); cbn [kept_val] in K; [destruct K as (_ & _ & _ & K & _)|destruct K as (_ & _ & _ & _ & K & _)]; exact (K p HP).
    + intros vs I. apply first_err_none. intros v J. destruct (X vs v I J) as (t & K). destruct v as [pid p|x|[x|]]; cbn [kept_val] in K; [apply K|apply K|apply K|destruct K].
Qed.

(** The rules see which fields are set, and nothing else. *)
Lemma combine_app2 {A B} (a : list A) : forall (b : list B) a' b', length a = length b -> combine (a ++ a') (b ++ b') = combine a b ++ combine a' b'.
Proof using env. induction a as [|x a IH]; intros [|y b] a' b' L; try discriminate L; [reflexivity|]. cbn [app combine]. rewrite IH by (injection L; auto). reflexivity. Qed.
Lemma held_set id a us ws c fd n : nth_error (fields_of id) (length a) = Some fd -> (fd_key fd = n -> (us = [] <-> ws = [])) ->
  held n (Sec id (a ++ us :: c)) <> [] <-> held n (Sec id (a ++ ws :: c)) <> [].
Proof.
  intros F K. unfold held. cbn [sec_id sec_fields]. apply nth_error_split in F as (f1 & f2 & -> & L).
  rewrite !combine_app2 by exact L. cbn [combine]. rewrite !flat_map_app. cbn [flat_map fst snd].
  destruct (beq (fd_key fd) n) eqn:B; [|reflexivity]. apply beq_eq in B. specialize (K B). clear B.
  set (p := flat_map _ _). set (q := flat_map _ (combine f2 c)). destruct p; [|split; discriminate]. cbn [app]. destruct us, ws; cbn [app]; try reflexivity; try (split; discriminate); exfalso.
  - destruct K as [K _]. discriminate K; reflexivity.
  - destruct K as [_ K]. discriminate K; reflexivity.
Qed.
Lemma obeys_set id fs gs : (forall n, In n rule_fields -> held n (Sec id fs) <> [] <-> held n (Sec id gs) <> []) -> obeys (Sec id fs) -> obeys (Sec id gs).
Proof.
  intros H. assert (K : forall n : string, In (bs n) rule_fields -> has_field n (Sec id fs) <-> has_field n (Sec id gs)) by (intros n; apply H). clear H. unfold obeys. cbn [sec_id].
  assert (K1 := K "DTSTART"%string). assert (K2 := K "DTEND"%string). assert (K3 := K "DUE"%string). assert (K4 := K "DURATION"%string). assert (K5 := K "REPEAT"%string).
  assert (K6 := K "GEO-LOCATION"%string). assert (K7 := K "PROXIMITY"%string). assert (K8 := K "STANDARD"%string). assert (K9 := K "DAYLIGHT"%string). clear K.
  unfold rule_fields in *. cbn [map In] in *. specialize (K1 ltac:(auto 12)). specialize (K2 ltac:(auto 12)). specialize (K3 ltac:(auto 12)). specialize (K4 ltac:(auto 12)). specialize (K5 ltac:(auto 12)).
  specialize (K6 ltac:(auto 12)). specialize (K7 ltac:(auto 12)). specialize (K8 ltac:(auto 12)). specialize (K9 ltac:(auto 12)).
  destruct id; try exact (fun x => x); rewrite ?K1, ?K2, ?K3, ?K4, ?K5, ?K6, ?K7, ?K8, ?K9; exact (fun x => x).
Qed.
Lemma obeys_here id a us ws c fd : nth_error (fields_of id) (length a) = Some fd -> (In (fd_key fd) rule_fields -> (us = [] <-> ws = [])) -> obeys (Sec id (a ++ us :: c)) -> obeys (Sec id (a ++ ws :: c)).
Proof. intros F K. apply obeys_set. intros n I. apply held_set with (fd := fd); [exact F|]. intros <-. apply K, I. Qed.
Lemma fields_here id a us ws c : kept_fields id (a ++ us :: c) ->
  (forall fd, nth_error (fields_of id) (length a) = Some fd -> count_ok (fd_mode fd) (length us) -> Forall (kept_val (fd_type fd)) us -> count_ok (fd_mode fd) (length ws) /\ Forall (kept_val (fd_type fd)) ws) ->
  kept_fields id (a ++ ws :: c).
Proof.
  intros (L & H) N. split; [rewrite app_length in *; exact L|]. intros i fd vs F W. destruct (lt_eq_lt_dec i (length a)) as [[Q|Q]|Q].
  - apply (H i fd vs F). rewrite nth_error_app1 in * by exact Q. exact W.
  - subst i. rewrite nth_error_app2, Nat.sub_diag in W by lia. injection W as <-. destruct (H (length a) fd us F) as [C A]; [rewrite nth_error_app2, Nat.sub_diag by lia; reflexivity|]. apply N; assumption.
  - apply (H i fd vs F). rewrite nth_error_app2 in * by lia. destruct (i - length a) as [|k] eqn:K; [lia|]. exact W.
Qed.
Lemma field_there id (a : list (list fval)) us c : length (a ++ us :: c) = length (fields_of id) -> exists fd, nth_error (fields_of id) (length a) = Some fd.
Proof. intros L. destruct (nth_error (fields_of id) (length a)) eqn:F; [eauto|]. apply nth_error_None in F. rewrite app_length in L. cbn [length] in L. lia. Qed.
Lemma node_inner id a u v v' w c : (forall t, kept_val t v -> kept_val t v') -> kept_node (Sec id (a ++ (u ++ v :: w) :: c)) -> kept_node (Sec id (a ++ (u ++ v' :: w) :: c)).
Proof.
  intros K. rewrite !node_eq. intros [F O]. destruct (field_there _ _ _ _ (proj1 F)) as (fd & D). split.
  - eapply fields_here; [exact F|]. intros fd' _ C A. split; [rewrite app_length in *; exact C|]. apply Forall_app in A as [A1 A2]. apply Forall_cons_iff in A2 as [A2 A3]. apply Forall_app. split; [exact A1|]. constructor; [apply K, A2|exact A3].
  - eapply obeys_here; [exact D| |exact O]. intros _. split; intros Q; destruct u; discriminate Q.
Qed.
Lemma revised_id x y : revised x y -> sec_id x = sec_id y.
Proof. destruct 1; reflexivity. Qed.
Lemma revised_kept x y : revised x y -> kept_node x -> kept_node y.
Proof.
  induction 1 as [id a us ws c fd F (N & C & R)|id a u x y w c X IH|id a u x y w c X IH].
  - rewrite !node_eq. intros [K O]. split; [|eapply obeys_here; eauto]. eapply fields_here; [exact K|]. intros fd' F' _ A. rewrite F in F'. injection F' as <-. split; [exact C|].
    apply Forall_forall. intros v I. destruct (N v I) as [J|(pid & p & T & -> & Q & G & V)]; [rewrite Forall_forall in A; apply A, J|]. cbn [kept_val]. rewrite prop_valid_iff. auto.
  - apply node_inner. intros t. cbn [kept_val]. rewrite (revised_id _ _ X). intros [T K]. auto.
  - apply node_inner. intros t. cbn [kept_val]. rewrite (revised_id _ _ X). intros (T & W & K). auto.
Qed.

Definition kept_cal (x : sec) : Prop := sec_id x = SCalendar /\ kept_node x.
Lemma assembled_kept (from : sec -> Prop) z : (forall x, from x -> kept_cal x) -> assembled from z -> kept_cal z.
Proof.
  intros K (x & fs & FX & -> & L & P). split; [reflexivity|]. destruct (K x FX) as [I N]. destruct x as [id gs]. cbn [sec_id sec_fields] in *. subst id. apply node_eq in N as [(LG & H) _].
  apply node_eq. split; [|exact Logic.I]. change (length (fields_of SCalendar)) with 7 in *. assert (L2 : length (firstn 2 gs) = 2) by (rewrite firstn_length, LG; reflexivity).
  split; [rewrite app_length, L2, L; reflexivity|]. intros i fd vs F W. destruct (le_lt_dec 2 i) as [B|B].
  - rewrite nth_error_app2, L2 in W by lia. split.
    + do 7 (destruct i as [|i]; [try lia; injection F as <-; exact Logic.I|]). exfalso; assert (Q : nth_error (fields_of SCalendar) (S (S (S (S (S (S (S i))))))) <> None) by (rewrite F; discriminate); apply nth_error_Some in Q; cbn in Q; lia.
    + apply Forall_forall. intros v J. destruct (P _ _ _ W J) as (y & ws & FY & W' & J'). destruct (K y FY) as [I' N']. destruct y as [id hs]. cbn [sec_id sec_fields] in *. subst id. apply node_eq in N' as [(_ & H') _].
      replace (2 + (i - 2)) with i in W' by lia. destruct (H' i fd ws F W') as [_ A]. rewrite Forall_forall in A. apply A, J'.
  - apply (H i fd vs F). rewrite nth_error_app1 in W by lia. rewrite <- W. rewrite <- (firstn_skipn 2 gs) at 1. rewrite nth_error_app1 by lia. reflexivity.
Qed.
Theorem edited_kept z : edited z -> kept_cal z.
Proof.
  induction 1 as [s cal D U K|x y E IH R|from z E IH A].
  - destruct (decoded_kept _ _ D U K) as (I & G & R & N & V). split; [exact I|]. split; auto.
  - destruct IH as [I N]. split; [rewrite <- (revised_id _ _ R); exact I|eapply revised_kept; eassumption].
  - eapply assembled_kept; eassumption.
Qed.
Theorem one_field x y : sec_id x = SCalendar -> cal_good x -> rules_met x -> (forall p, ~ has_prop x PrLastModified p) -> sec_valid x = None -> revised x y -> kept_cal y.
Proof. intros I G R N V X. split; [rewrite <- (revised_id _ _ X); exact I|]. apply (revised_kept _ _ X). repeat split; assumption. Qed.
Theorem edited_back z : edited z -> comes_back z.
Proof. intros E. destruct (edited_kept z E) as [I (G & R & N & V)]. apply calendar_round_trip; assumption. Qed.
End Revise.
