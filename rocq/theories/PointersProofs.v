(** Encode and nil pointers. *)
From Coq Require Import String Ascii ZArith Bool List Lia.
From Verif Require Import Base Lib Tokeniser SpecContent GoTime Types Params ParamTable PropTable Props SecTable Sections Folder Codec SpecTree TreeProofs ExactProofs SpecRules SpecProps HangProofs SpecCal CalProofs EncodableProofs SpecValid ValidProofs KeepProofs Pointers SpecPointers.
Import ListNotations.

Section Ind.
Context {env : Env} (P : gsec -> Prop).
Definition holds_in (v : gval) : Prop := match v with GSub x | GAlarm (GTo x) => P x | _ => True end.
Context (H : forall id fs, Forall (Forall holds_in) fs -> P (GSec id fs)).
Fixpoint gsec_induct (x : gsec) : P x :=
  match x with
  | GSec id fs => H id fs
    ((fix goL (fs : list (list gval)) : Forall (Forall holds_in) fs :=
        match fs with
        | [] => Forall_nil _
        | vs :: fs' => Forall_cons vs
          ((fix goV (vs : list gval) : Forall holds_in vs :=
              match vs with
              | [] => Forall_nil _
              | v :: vs' => Forall_cons v
                (match v as w return holds_in w with
                 | GProp _ _ => Logic.I
                 | GSub y => gsec_induct y
                 | GAlarm a => match a as b return holds_in (GAlarm b) with GNone => Logic.I | GNilOf _ => Logic.I | GTo y => gsec_induct y end
                 end) (goV vs')
              end) vs) (goL fs')
        end) fs)
  end.
End Ind.

Section P.
Context {env : Env}.
Definition seen_valid (s : seen) : vres :=
  match s with SeenProp pid p => of_err (prop_valid pid p) | SeenNone => VErr ErrInvalidAlarm | SeenNil SAlarmNone => VOk | SeenNil _ => VPanic end.
Lemma first_bad_app {A} (f : A -> vres) a b : first_bad f (a ++ b) = match first_bad f a with VOk => first_bad f b | r => r end.
Proof. induction a as [|x a IH]; [reflexivity|]. cbn [app first_bad]. fold (first_bad f). destruct (f x); [exact IH|reflexivity|reflexivity]. Qed.
Lemma first_bad_flat {A B} (f : A -> vres) (g : B -> vres) (h : A -> list B) l : Forall (fun a => f a = first_bad g (h a)) l -> first_bad f l = first_bad g (flat_map h l).
Proof.
  induction 1 as [|a l E _ IH]; [reflexivity|]. cbn [flat_map]. rewrite first_bad_app, <- IH, <- E. cbn [first_bad]. fold (first_bad f). destruct (f a); reflexivity.
Qed.
Lemma valid_looked x : gsec_valid x = first_bad seen_valid (looked x).
Proof.
  induction x as [id fs IH] using gsec_induct. change (first_bad (first_bad gval_valid) fs = first_bad seen_valid (flat_map (flat_map looked_val) fs)). apply first_bad_flat.
  eapply Forall_impl; [|exact IH]. clear. intros vs IH. apply first_bad_flat. eapply Forall_impl; [|exact IH]. clear. intros v IH. destruct v as [pid p|x|[|n|x]]; cbn [holds_in] in IH.
  - cbn [gval_valid looked_val first_bad seen_valid]. destruct (of_err _); reflexivity.
  - exact IH.
  - reflexivity.
  - cbn [gval_valid galarm_valid looked_val first_bad seen_valid]. destruct n; reflexivity.
  - exact IH.
Qed.
Lemma seen_fine s : seen_valid s = VOk <-> fine s.
Proof.
  destruct s as [pid p| |n]; cbn [seen_valid fine].
  - rewrite <- prop_valid_iff. destruct (prop_valid pid p); cbn [of_err]; split; congruence.
  - split; [discriminate|intros []].
  - destruct n; split; congruence.
Qed.
Lemma seen_panic s : seen_valid s = VPanic <-> exists id, s = SeenNil id /\ id <> SAlarmNone.
Proof.
  destruct s as [pid p| |n]; cbn [seen_valid].
  - destruct (prop_valid pid p); cbn [of_err]; split; try discriminate; intros (id & E & _); discriminate.
  - split; [discriminate|]. intros (id & E & _). discriminate.
  - split.
    + intros Q. exists n. split; [reflexivity|]. intros ->. discriminate.
    + intros (id & E & N). injection E as ->. destruct id; congruence.
Qed.
Lemma first_bad_panic l : first_bad seen_valid l = VPanic <-> exists a id b, l = a ++ SeenNil id :: b /\ id <> SAlarmNone /\ Forall fine a.
Proof.
  split.
  - induction l as [|s l IH]; cbn [first_bad]; fold (first_bad seen_valid); [discriminate|]. destruct (seen_valid s) eqn:V; [|discriminate|].
    + intros Q. destruct (IH Q) as (a & id & b & -> & N & F). exists (s :: a), id, b. split; [reflexivity|]. split; [exact N|]. constructor; [apply seen_fine, V|exact F].
    + intros _. apply seen_panic in V as (id & -> & N). exists [], id, l. auto.
  - intros (a & id & b & -> & N & F). rewrite first_bad_app. induction F as [|s a Fs _ IH]; cbn [first_bad]; fold (first_bad seen_valid).
    + destruct id; try reflexivity. congruence.
    + apply seen_fine in Fs. rewrite Fs. exact IH.
Qed.
Lemma first_bad_ok l : first_bad seen_valid l = VOk <-> Forall fine l.
Proof.
  induction l as [|s l IH]; cbn [first_bad]; fold (first_bad seen_valid); [split; [constructor|reflexivity]|]. rewrite Forall_cons_iff, <- IH, <- seen_fine. destruct (seen_valid s); intuition discriminate.
Qed.

(** ** Without nil pointers *)
Definition unreachable (x : gsec) : Prop := exists id, In (SeenNil id) (looked x) /\ id <> SAlarmNone.
Lemma first_err_flat {A B} (f : A -> option gerr) (g : B -> vres) (h : A -> list B) l : Forall (fun a => first_bad g (h a) = of_err (f a)) l -> first_bad g (flat_map h l) = of_err (first_err f l).
Proof.
  induction 1 as [|a l E _ IH]; [reflexivity|]. cbn [flat_map]. rewrite first_bad_app, E. cbn [first_err]. fold (first_err f). destruct (f a); [reflexivity|]. exact IH.
Qed.
Lemma first_err_map {A B} (f : B -> option gerr) (h : A -> B) l : first_err f (map h l) = first_err (fun a => f (h a)) l.
Proof. induction l as [|a l IH]; [reflexivity|]. cbn [map first_err]. fold (first_err f). rewrite IH. reflexivity. Qed.
Lemma plain_valid x : ~ unreachable x -> first_bad seen_valid (looked x) = of_err (sec_valid (plain x)).
Proof.
  induction x as [id fs IH] using gsec_induct. intros N. change (first_bad seen_valid (flat_map (flat_map looked_val) fs) = of_err (first_err (first_err fval_valid) (map (map plain_val) fs))).
  assert (N' : forall vs v i, In vs fs -> In v vs -> In (SeenNil i) (looked_val v) -> i = SAlarmNone).
  { intros vs v i I J K. assert (D : i = SAlarmNone \/ i <> SAlarmNone) by (destruct i; (left; reflexivity) || (right; discriminate)). destruct D as [E|E]; [exact E|]. destruct N. exists i. split; [|exact E]. apply in_flat_map. exists vs. split; [exact I|]. apply in_flat_map. exists v. auto. }
  clear N. rewrite first_err_map. apply first_err_flat. apply Forall_forall. intros vs I. rewrite Forall_forall in IH. specialize (IH vs I). rewrite first_err_map. apply first_err_flat. apply Forall_forall. intros v J.
  rewrite Forall_forall in IH. specialize (IH v J). specialize (N' vs v). destruct v as [pid p|x|[|n|x]]; cbn [holds_in] in IH.
  - cbn [plain_val looked_val first_bad seen_valid fval_valid]. destruct (prop_valid pid p); reflexivity.
  - apply IH. intros (i & A & B). apply B, (N' i I J A).
  - reflexivity.
  - rewrite (N' n I J (or_introl eq_refl)). reflexivity.
  - apply IH. intros (i & A & B). apply B, (N' i I J A).
Qed.
Lemma plain_encode x : Forall fine (looked x) -> gsec_encode x = map GW (sec_encode (plain x)).
Proof.
  induction x as [id fs IH] using gsec_induct. intros F.
  change (gsec_encode (GSec id fs)) with ((if sp_own (sec_spec id) then [GW (Wr (begin_line (sp_name (sec_spec id))))] else []) ++ flat_map (flat_map gval_encode) fs ++ (if sp_own (sec_spec id) then [GW (Wr (end_line (sp_name (sec_spec id))))] else [])).
  change (sec_encode (plain (GSec id fs))) with ((if sp_own (sec_spec id) then [Wr (begin_line (sp_name (sec_spec id)))] else []) ++ flat_map (flat_map fval_encode) (map (map plain_val) fs) ++ (if sp_own (sec_spec id) then [Wr (end_line (sp_name (sec_spec id)))] else [])).
  rewrite !map_app. f_equal; [destruct (sp_own _); reflexivity|]. f_equal; [|destruct (sp_own _); reflexivity].
  change (Forall fine (flat_map (flat_map looked_val) fs)) in F. rewrite !flat_map_concat_map, concat_map, !map_map. f_equal. apply map_ext_in. intros vs I. rewrite Forall_forall in IH. specialize (IH vs I).
  rewrite !flat_map_concat_map, concat_map, !map_map. f_equal. apply map_ext_in. intros v J. rewrite Forall_forall in IH. specialize (IH v J).
  assert (Fv : Forall fine (looked_val v)). { apply Forall_forall. intros z K. rewrite Forall_forall in F. apply F. apply in_flat_map. exists vs. split; [exact I|]. apply in_flat_map. exists v. auto. }
  destruct v as [pid p|x|[|n|x]]; cbn [holds_in] in IH.
  - reflexivity.
  - apply IH, Fv.
  - apply Forall_cons_iff in Fv as [[] _].
  - apply Forall_cons_iff in Fv as [E _]. cbn [fine] in E. subst n. reflexivity.
  - change (gval_encode (GAlarm (GTo x))) with (GW (Wr (begin_line (bs "VALARM"))) :: (GW (Wr (bs "ACTION:" ++ alarm_word (let 'GSec id _ := x in id) ++ CRLF)) :: gsec_encode x) ++ [GW (Wr (end_line (bs "VALARM")))]).
    change (fval_encode (plain_val (GAlarm (GTo x)))) with ([Wr (begin_line (bs "VALARM")); Wr (bs "ACTION:" ++ alarm_word (sec_id (plain x)) ++ CRLF)] ++ sec_encode (plain x) ++ [Wr (end_line (bs "VALARM"))]).
    rewrite (IH Fv), !map_app. destruct x. reflexivity.
Qed.
Section Run.
Context {W E : Type} (wr : W -> bytes -> W * option E).
Lemma grun_plain tr : forall st, grun wr st (map GW tr) = GRes (run_trace wr st tr).
Proof. induction tr as [|[b|] tr IH]; intros st; [reflexivity|apply IH|reflexivity]. Qed.
Theorem encode_panics w c w' : GEncode wr w c = GPanic w' <-> w' = w /\ (c = None \/ exists x a id b, c = Some x /\ looked x = a ++ SeenNil id :: b /\ id <> SAlarmNone /\ Forall fine a).
Proof.
  destruct c as [x|]; cbn [GEncode].
  - rewrite valid_looked. destruct (first_bad seen_valid (looked x)) eqn:V.
    + pose proof (proj1 (first_bad_ok _) V) as F. rewrite (plain_encode x F), grun_plain. split; [discriminate|]. intros [_ [Q|(y & a & id & b & Q & L & N & _)]]; [discriminate|]. injection Q as <-.
      rewrite L in F. apply Forall_app in F as [_ F]. apply Forall_cons_iff in F as [F _]. destruct (N F).
    + split; [discriminate|]. intros [_ [Q|(y & a & id & b & Q & L & N & Fa)]]; [discriminate|]. injection Q as <-. assert (X : first_bad seen_valid (looked x) = VPanic) by (apply first_bad_panic; eauto 6). congruence.
    + split.
      * intros Q. injection Q as <-. split; [reflexivity|]. right. apply first_bad_panic in V as (a & id & b & L & N & Fa). exists x, a, id, b. auto.
      * intros [-> _]. reflexivity.
  - split; [intros Q; injection Q as <-; auto|intros [-> _]; reflexivity].
Qed.
Theorem encode_plain w x : (forall id, In (SeenNil id) (looked x) -> id = SAlarmNone) -> GEncode wr w (Some x) = GRes (Encode wr w (plain x)).
Proof.
  intros N. assert (U : ~ unreachable x) by (intros (id & I & J); exact (J (N id I))). cbn [GEncode]. unfold Encode. rewrite valid_looked, (plain_valid x U). destruct (sec_valid (plain x)) eqn:V; cbn [of_err]; [reflexivity|].
  rewrite plain_encode; [apply grun_plain|]. apply first_bad_ok. rewrite (plain_valid x U), V. reflexivity.
Qed.
End Run.

(** ** What Decode returns *)
Lemma lift_plain x : plain (lift x) = x.
Proof.
  induction x as [id fs IH] using sec_induct. change (Sec id (map (map plain_val) (map (map lift_val) fs)) = Sec id fs). f_equal. rewrite map_map. rewrite <- (map_id fs) at 2. apply map_ext_in. intros vs I.
  rewrite map_map. rewrite <- (map_id vs) at 2. apply map_ext_in. intros v J. destruct v as [pid p|x|[x|]]; cbn [lift_val].
  - reflexivity.
  - change (FVSec (plain (lift x)) = FVSec x). f_equal. apply (IH vs x I (or_introl J)).
  - change (FVAlarm (Some (plain (lift x))) = FVAlarm (Some x)). do 2 f_equal. apply (IH vs x I (or_intror J)).
  - reflexivity.
Qed.
Lemma lift_seen x id : ~ In (SeenNil id) (looked (lift x)).
Proof.
  induction x as [i fs IH] using sec_induct. intros K. change (In (SeenNil id) (flat_map (flat_map looked_val) (map (map lift_val) fs))) in K. apply in_flat_map in K as (ws & I & K). apply in_map_iff in I as (vs & <- & I).
  apply in_flat_map in K as (w & J & K). apply in_map_iff in J as (v & <- & J). destruct v as [pid p|x|[x|]]; cbn [lift_val] in K.
  - destruct K as [K|[]]. discriminate.
  - exact (IH vs x I (or_introl J) K).
  - exact (IH vs x I (or_intror J) K).
  - destruct K as [K|[]]. discriminate.
Qed.
Theorem encode_lift {W E} (wr : W -> bytes -> W * option E) w cal : GEncode wr w (Some (lift cal)) = GRes (Encode wr w cal).
Proof. rewrite encode_plain; [rewrite lift_plain; reflexivity|]. intros id K. destruct (lift_seen cal id K). Qed.

(** ** Types of alarms *)
Theorem decoded_type s cal x vs a : decode_bytes s = Ok cal -> part_of x cal -> In vs (sec_fields x) -> In (FVAlarm (Some a)) vs ->
  exists ls l tail t, s = lines_text ls ++ tail /\ In l ls /\ cl_name l = bs "ACTION" /\ cl_value l = t /\ alarm_type (GTo (lift a)) = Some t /\
  fval_encode (FVAlarm (Some a)) = Wr (begin_line (bs "VALARM")) :: Wr (bs "ACTION:" ++ t ++ CRLF) :: sec_encode a ++ [Wr (end_line (bs "VALARM"))].
Proof.
  intros D P I J. apply decode_bytes_exact in D as (b & items & e & tail & _ & _ & M & _ & _ & _ & -> & _).
  destruct (part_lines (fun l => In l (b :: flat_map ilines items)) _ _ P _ _ M) as (id' & items' & M' & L'); [apply Forall_forall; intros l K; right; exact K|].
  destruct x as [xi fs]. cbn [sec_fields] in I. destruct (value_line _ _ _ _ _ _ _ M' L' I J) as (fd & i & Wi & IM). inversion IM as [| |b' body e' us w sid sub e2 more y Fb Ne A Fu Aw Q' E' V' My]; subst.
  assert (K : In w (values_named (bs "ACTION") body)) by (rewrite A; apply in_app_iff; right; left; reflexivity). unfold values_named in K. apply in_map_iff in K as (l & <- & K). apply filter_In in K as [K N]. apply beq_eq in N.
  exists (b :: flat_map ilines items), l, (cline_render e ++ tail), (cl_value l). split; [reflexivity|]. split.
  { rewrite Forall_forall in Wi. apply Wi. cbn [ilines]. right. apply in_app_iff. left. exact K. }
  split; [exact N|]. split; [reflexivity|]. inversion My as [? ? fs' F' L1 H1 X1]; subst. unfold action_is in Aw. cbn [In] in Aw.
  split.
  - repeat (destruct Aw as [Aw|Aw]; [injection Aw as <- <-; reflexivity|]). destruct Aw.
  - change (fval_encode (FVAlarm (Some (Sec sid fs')))) with ([Wr (begin_line (bs "VALARM")); Wr (bs "ACTION:" ++ alarm_word sid ++ CRLF)] ++ sec_encode (Sec sid fs') ++ [Wr (end_line (bs "VALARM"))]).
    assert (AW : alarm_word sid = cl_value l) by (repeat (destruct Aw as [Aw|Aw]; [injection Aw as <- <-; reflexivity|]); destruct Aw). rewrite AW. reflexivity.
Qed.
End P.
