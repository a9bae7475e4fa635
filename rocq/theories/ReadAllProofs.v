(** Which calendars can be read. *)
From Coq Require Import String Ascii ZArith Bool List Lia.
From Verif Require Import Base Lib SpecLines Unfolder Tokeniser SpecContent GoTime Types Params ParamTable PropTable Props SecTable Sections Folder Codec UnfolderProofs DecodeProofs FolderProofs SpecTree TreeProofs ExactProofs SpecRules SpecEdits SpecProps SpecRfc SpecLine LineProofs PropProofs RulesProofs ShapeProofs EncodeProofs PrefixProofs HangProofs GroupProofs SpecCal CalProofs RoundProofs SpecAbroad SpecLined LinedProofs SpecReadAs ReadAsProofs SpecCuts CutsProofs SampleCuts AgainProofs.
Import ListNotations.

Section R.
Context {env : Env}.
Lemma each_list {A B} (R : A -> B -> Prop) : forall l, (forall a, In a l -> exists b, R a b) -> exists m, Forall2 R l m.
Proof.
  induction l as [|a l IH]; intros H; [exists []; constructor|]. destruct (H a (or_introl eq_refl)) as (b & Rb). destruct IH as (m & M); [intros x I; apply H; right; exact I|]. exists (b :: m). constructor; assumption.
Qed.
Lemma each_place {A B} : forall (l : list A) (P : nat -> A -> B -> Prop), (forall i a, nth_error l i = Some a -> exists b, P i a b) ->
  exists m : list B, length m = length l /\ forall i a b, nth_error l i = Some a -> nth_error m i = Some b -> P i a b.
Proof.
  induction l as [|a l IH]; intros P H; [exists []; split; [reflexivity|]; intros [|i] x b N; discriminate N|]. destruct (H 0 a eq_refl) as (b & Pb). destruct (IH (fun i => P (S i))) as (m & L & M); [intros i x N; exact (H (S i) x N)|].
  exists (b :: m). split; [cbn [length]; congruence|]. intros [|i] x y N N'; cbn [nth_error] in *; [injection N as <-; injection N' as <-; exact Pb|exact (M i x y N N')].
Qed.
Lemma as_exists : forall x, cal_lined x -> counted x -> (forall pid p, has_prop x pid p -> pid <> PrLastModified -> exists q, prop_as pid p q) -> exists x', cal_as x x'.
Proof.
  intros x. induction x as [id fs IH] using sec_induct. intros G K H. inversion G as [? ? L F]; subst.
  destruct (each_place fs (fun i vs vs' => forall fd, nth_error (fields_of id) i = Some fd -> count_ok (fd_mode fd) (length vs) /\ Forall2 (fval_as (fd_type fd)) vs vs')) as (fs' & L' & F').
  - intros i vs V. destruct (nth_error (fields_of id) i) as [fd|] eqn:N; [|exists []; intros fd Q; discriminate Q]. pose proof (nth_error_In _ _ V) as I. pose proof (F i fd vs N V) as A. rewrite Forall_forall in A.
    destruct (each_list (fval_as (fd_type fd)) vs) as (vs' & M); [|exists vs'; intros fd' Q; injection Q as <-; split; [exact (K (Sec id fs) (Part_self _) i fd vs N V)|exact M]].
    intros v J. pose proof (A v J) as X. inversion X as [pid p l PL T1 T2|sid gs GC T1 T2|w sid gs AI GC T1 T2]; subst v.
    + assert (DEC : {pid = PrLastModified} + {pid <> PrLastModified}) by (destruct pid; (left; reflexivity) || (right; discriminate)). destruct DEC as [->|NL]; [exists (FVProp PrLastModified p); exact (VA_modified p p l PL)|].
      destruct (H pid p) as (q & Q); [apply has_prop_eq; left; exists vs; split; assumption|exact NL|]. exists (FVProp pid q). constructor. exact Q.
    + destruct (IH vs _ I (or_introl J) GC) as (x' & X'); [intros y P; apply K; eapply Part_sec; eauto|intros pid p P NL; apply (H pid p); [apply has_prop_eq; right; exists vs; eauto|exact NL]|].
      inversion X' as [id' fs1 fs2 L1 L2 F2 E1 E2]; subst. exists (FVSec (Sec sid fs2)). constructor. exact X'.
    + destruct (IH vs _ I (or_intror J) GC) as (x' & X'); [intros y P; apply K; eapply Part_alarm; eauto|intros pid p P NL; apply (H pid p); [apply has_prop_eq; right; exists vs; eauto|exact NL]|].
      inversion X' as [id' fs1 fs2 L1 L2 F2 E1 E2]; subst. exists (FVAlarm (Some (Sec sid fs2))). apply (VA_alarm w); [exact AI|exact X'].
  - exists (Sec id fs'). constructor; [exact L|congruence|]. intros i fd vs vs' N V V'. exact (F' i vs vs' V V' fd N).
Qed.
Lemma as_obeys id fs fs' : cal_as (Sec id fs) (Sec id fs') -> (obeys (Sec id fs) <-> obeys (Sec id fs')).
Proof.
  intros G. inversion G as [id' fs1 fs2 L L' F E1 E2]; subst. rewrite <- (obeys_extras (Sec id fs) L), <- (obeys_extras (Sec id fs') L'). unfold extras. cbn [sec_fields sec_id].
  assert (P : forall i, present fs i = present fs' i).
  { intros i. unfold present. destruct (nth_error fs i) as [vs|] eqn:V.
    - assert (i < length fs) by (apply nth_error_Some; congruence). destruct (nth_error fs' i) as [vs'|] eqn:V'; [|apply nth_error_None in V'; lia]. destruct (nth_error (fields_of id) i) as [fd|] eqn:N; [|apply nth_error_None in N; lia].
      rewrite (nth_error_nth _ _ _ V), (nth_error_nth _ _ _ V'). destruct (F i fd vs vs' N V V') as [_ A]. destruct A; reflexivity.
    - apply nth_error_None in V. rewrite !nth_overflow by lia. reflexivity. }
  rewrite !Forall_forall. split; intros H r I; specialize (H r I); destruct r; cbn [extra_ok] in *; rewrite ?P in *; exact H.
Qed.
Lemma as_rules : forall x x', cal_as x x' -> (rules_met x <-> rules_met x').
Proof.
  intros x. induction x as [id fs IH] using sec_induct. intros x' G. inversion G as [id' fs1 fs' L L' F E1 E2]; subst. unfold rules_met. rewrite !parts_eq, (as_obeys _ _ _ G).
  assert (V : forall vs v fd v', In vs fs -> In v vs -> fval_as (fd_type fd) v v' -> (val_part obeys v <-> val_part obeys v')).
  { intros vs v fd v' I J R. inversion R as [| |sid gs gs' H|w sid gs gs' AI H]; subst; cbn [val_part]; [tauto|tauto| |]; [apply (IH vs _ I (or_introl J) _ H)|apply (IH vs _ I (or_intror J) _ H)]. }
  split; intros [H1 H2]; (split; [exact H1|]); intros us u I J.
  - apply In_nth_error in I as [i N']. assert (i < length fs') by (apply nth_error_Some; congruence). destruct (nth_error fs i) as [vs|] eqn:N; [|apply nth_error_None in N; lia]. destruct (nth_error (fields_of id) i) as [fd|] eqn:NF; [|apply nth_error_None in NF; lia].
    destruct (F i fd vs us NF N N') as [_ A]. destruct (F2_back _ _ _ _ A J) as (v & K & R). apply nth_error_In in N. apply (V vs v fd u N K R). exact (H2 vs v N K).
  - apply In_nth_error in I as [i N]. assert (i < length fs) by (apply nth_error_Some; congruence). destruct (nth_error fs' i) as [vs'|] eqn:N'; [|apply nth_error_None in N'; lia]. destruct (nth_error (fields_of id) i) as [fd|] eqn:NF; [|apply nth_error_None in NF; lia].
    destruct (F i fd us vs' NF N N') as [_ A]. destruct (Forall2_find _ _ _ _ A J) as (v' & K & R). apply nth_error_In in N, N'. apply (V us u fd v' N J R). exact (H2 vs' v' N' K).
Qed.
Lemma again_text cal r : read_again cal r -> r <> NoFuel -> exists out, Encode ok_writer [] cal = EncDone None out /\ decode_bytes (unfold (concat out)) = r.
Proof.
  intros (out & E & D) N. exists out. split; [exact E|]. pose (big := fun _ : nat => S (length (concat out))).
  assert (B1 : forall i, 1 <= big i) by (intros i; unfold big; lia). assert (B2 : length (concat out) <= big 0) by (unfold big; lia). destruct (D false big B1 B2) as (n & H).
  destruct (tail_dec (concat out)) as [[F B]|G]; [exfalso; apply N; rewrite <- (H n (le_n _)); apply decode_hangs; assumption|].
  destruct (decode_one_read (concat out) false big G B1 B2) as (m & M). rewrite <- (M (n + m) ltac:(lia)). apply H. lia.
Qed.
Lemma read_each cal c : sec_id cal = SCalendar -> sec_valid cal = None -> cal_lined cal -> read_again cal (Ok c) -> forall pid p, has_prop cal pid p -> pid <> PrLastModified -> can_read pid p.
Proof.
  destruct cal as [id fs]. cbn [sec_id]. intros -> V G RA pid p HP NL. destruct (lined_body (Sec SCalendar fs) SCalendar fs eq_refl G) as (items & [(ws & E0 & C0') W0] & _ & Sh & R).
  set (qs := begin_line (bs "VCALENDAR") :: ws). assert (EN : sec_encode (Sec SCalendar fs) = wrs (qs ++ [last_piece])).
  { rewrite sec_encode_eq, E0. change (sp_own (sec_spec SCalendar)) with true. change (sp_name (sec_spec SCalendar)) with (bs "VCALENDAR"). cbv iota. cbn [app]. unfold wrs, qs. cbn [app]. rewrite map_cons, map_app. reflexivity. }
  assert (W : wf_lines (begin_of (bs "VCALENDAR") :: flat_map ilines items ++ [end_of (bs "VCALENDAR")])) by (constructor; [reflexivity|]; apply Forall_app; split; [exact W0|]; constructor; [reflexivity|constructor]).
  assert (C : concat qs = lines_text (begin_of (bs "VCALENDAR") :: flat_map ilines items)) by (unfold qs; cbn [concat]; rewrite C0', lines_text_cons, app_assoc; reflexivity).
  set (cal := Sec SCalendar fs) in *.
  apply again_text in RA as (out & E & D); [|discriminate]. revert D. rewrite (encode_unfold _ _ _ E). unfold content. rewrite EN, pieces_wrs, concat_app, C. cbn [concat]. rewrite app_nil_r.
  assert (Q : lines_text (begin_of (bs "VCALENDAR") :: flat_map ilines items) ++ last_piece = lines_text (begin_of (bs "VCALENDAR") :: flat_map ilines items ++ [end_of (bs "VCALENDAR")])).
  { rewrite app_comm_cons, lines_text_app. reflexivity. }
  rewrite Q, (lines_unfold _ W), <- Q.
  assert (Q2 : lines_text (begin_of (bs "VCALENDAR") :: flat_map ilines items) ++ last_piece = frame_text (begin_of (bs "VCALENDAR")) items (end_of (bs "VCALENDAR")) ++ CRLF) by (unfold frame_text; rewrite <- app_assoc; reflexivity).
  rewrite Q2. intros D. apply decode_frame in D as [M _]; [|repeat split; [exact Sh|exact W]|right; exists []; reflexivity].
  apply means_smeans in M as [M _]. destruct (R c M pid p HP NL) as (l & q & PL & LM). exists l, q. split; assumption.
Qed.

Theorem readable_exactly cal : sec_id cal = SCalendar -> sec_valid cal = None -> cal_lined cal -> counted cal ->
  ((exists c, read_again cal (Ok c)) <-> rules_met cal /\ forall pid p, has_prop cal pid p -> pid <> PrLastModified -> exists q, prop_as pid p q).
Proof.
  intros I V G K. split.
  - intros (c & RA).
    assert (A : forall pid p, has_prop cal pid p -> pid <> PrLastModified -> exists q, prop_as pid p q).
    { intros pid p H NL. destruct (read_each cal c I V G RA pid p H NL) as (l & q & PL & LM). exists q, l. split; assumption. }
    split; [|exact A]. destruct (as_exists cal G K A) as (cal' & X). apply (as_rules _ _ X). apply (read_as cal cal' c I V X) in RA as [R _]. exact R.
  - intros [R A]. destruct (as_exists cal G K A) as (cal' & X). exists (forget cal'). apply (read_as cal cal' _ I V X). split; [apply (as_rules _ _ X), R|reflexivity].
Qed.
End R.
