(** Texts have one shape, and decode exactly if that shape means something. *)
From Coq Require Import String Ascii ZArith Bool List Lia.
From Verif Require Import Base Lib Strtok Tokeniser SpecContent TokeniserProofs GoTime Types Params ParamTable PropTable Props SecTable Sections Codec SpecTree TreeProofs ExactProofs SpecRules.
Import ListNotations.

Section Shape.
Context {env : Env}.

Lemma begin_not_end l : is_begin l -> is_end l -> False.
Proof. unfold is_begin, is_end, line_is. intros A B. rewrite A in B. discriminate. Qed.

Lemma skip_unique : forall n ds1 ds2 e1 e2 r1 r2, length (flat_map dlines ds1) <= n -> Forall skippable ds1 -> Forall skippable ds2 -> is_end e1 -> is_end e2 ->
  flat_map dlines ds1 ++ e1 :: r1 = flat_map dlines ds2 ++ e2 :: r2 -> ds1 = ds2 /\ e1 = e2 /\ r1 = r2.
Proof.
  induction n as [|n IH]; intros ds1 ds2 e1 e2 r1 r2 L F1 F2 E1 E2 Q.
  - destruct ds1 as [|[|] ds1]; cbn [flat_map dlines app length] in L; try lia. destruct ds2 as [|d2 ds2]; cbn [flat_map app] in Q; [injection Q as <- <-; auto|].
    inversion F2 as [|? ? S2 _]; subst. inversion S2; subst; cbn [dlines app] in Q; injection Q as <- _; [destruct H; contradiction|destruct (begin_not_end e1); assumption].
  - destruct ds1 as [|d1 ds1]; destruct ds2 as [|d2 ds2]; cbn [flat_map app] in Q.
    + injection Q as <- <-. auto.
    + inversion F2 as [|? ? S2 _]; subst. inversion S2; subst; cbn [dlines app] in Q; injection Q as <- _; [destruct H; contradiction|destruct (begin_not_end e1); assumption].
    + inversion F1 as [|? ? S1 _]; subst. inversion S1; subst; cbn [dlines app] in Q; injection Q as -> _; [destruct H; contradiction|destruct (begin_not_end e2); assumption].
    + inversion F1 as [|? ? S1 F1']; inversion F2 as [|? ? S2 F2']; subst. cbn [flat_map] in L. rewrite app_length in L.
      destruct S1 as [l1 P1|b1 body1 x1 B1 X1 V1 G1]; destruct S2 as [l2 P2|b2 body2 x2 B2 X2 V2 G2]; cbn [dlines app length] in Q, L; injection Q as HD Q.
      * subst l2. destruct (IH ds1 ds2 e1 e2 r1 r2) as (-> & -> & ->); auto. lia.
      * subst l1. destruct P1; contradiction.
      * subst l2. destruct P2; contradiction.
      * subst b2. rewrite app_length in L. cbn [length] in L. rewrite <- !app_assoc in Q. cbn [app] in Q.
        destruct (IH body1 body2 x1 x2 _ _ ltac:(lia) G1 G2 X1 X2 Q) as (-> & -> & Q'). destruct (IH ds1 ds2 e1 e2 r1 r2 ltac:(lia) F1' F2' E1 E2 Q') as (-> & -> & ->). auto.
Qed.

Lemma alarm_lines_unique : forall b1 b2 e1 e2 r1 r2, Forall (fun l => cl_name l <> bs "BEGIN" /\ cl_name l <> bs "END") b1 ->
  Forall (fun l => cl_name l <> bs "BEGIN" /\ cl_name l <> bs "END") b2 -> cl_name e1 = bs "END" -> cl_name e2 = bs "END" ->
  b1 ++ e1 :: r1 = b2 ++ e2 :: r2 -> b1 = b2 /\ e1 = e2 /\ r1 = r2.
Proof.
  induction b1 as [|l1 b1 IH]; intros [|l2 b2] e1 e2 r1 r2 F1 F2 E1 E2 Q; cbn [app] in Q; injection Q as HD Q.
  - auto.
  - subst l2. inversion F2 as [|? ? [_ X] _]; subst. contradiction.
  - subst l1. inversion F1 as [|? ? [_ X] _]; subst. contradiction.
  - subst l2. inversion F1; inversion F2; subst. destruct (IH b2 e1 e2 r1 r2) as (-> & -> & ->); auto.
Qed.

Lemma children_one id w a b : In (w, a) (children id) -> In (w, b) (children id) -> a = b.
Proof.
  destruct id; cbn [children In]; intros A B; try contradiction;
  repeat match goal with H : _ \/ _ |- _ => destruct H as [H|H] | H : (_, _) = (_, _) |- _ => injection H; clear H; intros; subst | H : False |- _ => destruct H end; congruence.
Qed.
Lemma children_no_alarm id a : In (bs "VALARM", a) (children id) -> False.
Proof.
  destruct id; cbn [children In]; intros A; try contradiction;
  repeat match goal with H : _ \/ _ |- _ => destruct H as [H|H] end; try discriminate; contradiction.
Qed.

Lemma shape_unique : forall n id is1 is2 e1 e2 r1 r2, length (flat_map ilines is1) <= n -> Forall (shape_ok id) is1 -> Forall (shape_ok id) is2 -> is_end e1 -> is_end e2 ->
  flat_map ilines is1 ++ e1 :: r1 = flat_map ilines is2 ++ e2 :: r2 -> is1 = is2 /\ e1 = e2 /\ r1 = r2.
Proof.
  assert (HEAD : forall id i, shape_ok id i -> exists l ls, ilines i = l :: ls /\ ~ is_end l).
  { intros id i Sh. destruct Sh as [id l [_ P]|id b body e sid B _ _ _|id b body e B _ _ _ _|id b body e B _ _ _ _ _]; cbn [ilines]; eexists _, _; (split; [reflexivity|]);
      first [exact P|intros Q; exact (begin_not_end _ B Q)]. }
  induction n as [|n IH]; intros id is1 is2 e1 e2 r1 r2 L F1 F2 E1 E2 Q; (destruct is1 as [|i1 is1]; [destruct is2 as [|i2 is2]; cbn [flat_map app] in Q|]).
  - injection Q as <- <-. auto.
  - inversion F2 as [|? ? S2 _]; subst. destruct (HEAD _ _ S2) as (l & ls & HL & NE). rewrite HL in Q. injection Q as <- _. contradiction.
  - inversion F1 as [|? ? S1 _]; subst. destruct (HEAD _ _ S1) as (l & ls & HL & NE). cbn [flat_map] in L. rewrite HL in L. cbn [app length] in L. lia.
  - injection Q as <- <-. auto.
  - inversion F2 as [|? ? S2 _]; subst. destruct (HEAD _ _ S2) as (l & ls & HL & NE). rewrite HL in Q. injection Q as <- _. contradiction.
  - inversion F1 as [|? ? S1 F1']; subst. destruct is2 as [|i2 is2].
    { destruct (HEAD _ _ S1) as (l & ls & HL & NE). cbn [flat_map] in Q. rewrite HL in Q. injection Q as -> _. contradiction. }
    inversion F2 as [|? ? S2 F2']; subst. cbn [flat_map] in L, Q. rewrite app_length in L. rewrite <- !app_assoc in Q.
    inversion S1 as [? l1 P1|? b1 body1 x1 sid1 B1 C1 G1 X1|? b1 body1 x1 B1 A1 V1 G1 X1|? b1 body1 x1 B1 X1 V1 G1 N1 M1]; subst;
    inversion S2 as [? l2 P2|? b2 body2 x2 sid2 B2 C2 G2 X2|? b2 body2 x2 B2 A2 V2 G2 X2|? b2 body2 x2 B2 X2 V2 G2 N2 M2]; subst;
      cbn [ilines app length] in Q, L; injection Q as HD Q; subst; try (destruct P1; contradiction); try (destruct P2; contradiction);
      rewrite <- ?app_assoc in Q; cbn [app] in Q; rewrite ?app_length in L; cbn [length] in L.
    + destruct (IH id is1 is2 e1 e2 r1 r2) as (-> & -> & ->); auto. lia.
    + rewrite (children_one _ _ _ _ C1 C2) in G1. destruct (IH sid2 body1 body2 x1 x2 _ _ ltac:(lia) G1 G2 X1 X2 Q) as (-> & -> & Q').
      destruct (IH id is1 is2 e1 e2 r1 r2 ltac:(lia) F1' F2' E1 E2 Q') as (-> & -> & ->). auto.
    + rewrite V2 in C1. destruct (children_no_alarm _ _ C1).
    + destruct N2. apply in_map_iff. exists (upper (cl_value b2), sid1). auto.
    + rewrite V1 in C2. destruct (children_no_alarm _ _ C2).
    + destruct (alarm_lines_unique _ _ _ _ _ _ G1 G2 X1 X2 Q) as (-> & -> & Q'). destruct (IH id is1 is2 e1 e2 r1 r2 ltac:(lia) F1' F2' E1 E2 Q') as (-> & -> & ->). auto.
    + destruct M2. auto.
    + destruct N1. apply in_map_iff. exists (upper (cl_value b2), sid2). auto.
    + destruct M1. auto.
    + destruct (skip_unique _ _ _ _ _ _ _ (le_n _) G1 G2 X1 X2 Q) as (-> & -> & Q'). destruct (IH id is1 is2 e1 e2 r1 r2 ltac:(lia) F1' F2' E1 E2 Q') as (-> & -> & ->). auto.
Qed.

(** ** The tables say what the rules say *)
Definition fd_sub (f : field) : list (bytes * secid) := match fd_type f with FTSec sid => [(fd_key f, sid)] | _ => [] end.
Definition fd_al (f : field) : list bytes := match fd_type f with FTAlarm => [fd_key f] | _ => [] end.
Lemma children_table id : children id = flat_map fd_sub (fields_of id).
Proof. destruct id; vm_compute; reflexivity. Qed.
Lemma alarms_table id : flat_map fd_al (fields_of id) = if has_alarms id then [bs "VALARM"] else [].
Proof. destruct id; vm_compute; reflexivity. Qed.

Lemma child_field id w sid : In (w, sid) (children id) <-> exists fd, In fd (fields_of id) /\ fd_type fd = FTSec sid /\ fd_key fd = w.
Proof.
  rewrite children_table, in_flat_map. split; intros (fd & I & H); exists fd; (split; [exact I|]).
  - unfold fd_sub in H. destruct (fd_type fd); cbn [In] in H; try contradiction. destruct H as [H|[]]. injection H as -> ->. auto.
  - destruct H as [H <-]. unfold fd_sub. rewrite H. left. reflexivity.
Qed.
Lemma alarm_field id w : (has_alarms id = true /\ w = bs "VALARM") <-> exists fd, In fd (fields_of id) /\ fd_type fd = FTAlarm /\ fd_key fd = w.
Proof.
  transitivity (In w (flat_map fd_al (fields_of id))).
  - rewrite alarms_table. destruct (has_alarms id); cbn [In]; split; intros H; try tauto.
    + destruct H as [_ ->]. auto.
    + destruct H as [<-|[]]. auto.
    + destruct H. discriminate.
  - rewrite in_flat_map. split; intros (fd & I & H); exists fd; (split; [exact I|]).
    + unfold fd_al in H. destruct (fd_type fd); cbn [In] in H; try contradiction. destruct H as [H|[]]. auto.
    + destruct H as [H <-]. unfold fd_al. rewrite H. left. reflexivity.
Qed.

(** ** What means something has a shape *)
Lemma holds_item : forall fd items vs, holds fd items vs -> forall i, In i items -> belongs fd i -> exists v, item_means (fd_type fd) i v.
Proof.
  induction 1 as [fd|fd i0 items vs NB H IH|fd i0 items v vs B M H IH]; intros i I Bi; [destruct I| |].
  - destruct I as [->|I]; [contradiction|]. auto.
  - destruct I as [->|I]; [eauto|auto].
Qed.
Lemma means_holds id items x fd : means id items x -> In fd (fields_of id) -> exists vs, holds fd items vs /\ count_ok (fd_mode fd) (length vs).
Proof. intros M I. destruct M as [id items fs F L H X]. apply In_nth_error in I as [i N]. destruct (H i fd N). eauto. Qed.

Lemma item_len (i : item) items : In i items -> length (ilines i) <= length (flat_map ilines items).
Proof. intros I. induction items as [|j items IH]; [destruct I|]. cbn [flat_map]. rewrite app_length. destruct I as [->|I]; [lia|specialize (IH I); lia]. Qed.

Lemma means_shape : forall n id items x, length (flat_map ilines items) <= n -> means id items x -> Forall (shape_ok id) items.
Proof.
  induction n as [n IH] using lt_wf_ind. intros id items x L M. apply Forall_forall. intros i I.
  assert (OK : item_ok id i). { destruct M as [? ? ? F _ _ _]. rewrite Forall_forall in F. auto. }
  pose proof (item_len i items I) as LI. destruct i as [l|b body e|b body e|b body e]; cbn [item_ok] in OK.
  - constructor. exact OK.
  - destruct OK as (B & fd & sid & If & T & Be). destruct (means_holds _ _ _ _ M If) as (vs & H & _). destruct (holds_item _ _ _ H _ I Be) as (v & IM).
    rewrite T in IM. inversion IM as [|? ? ? ? y My Ey Vy|]; subst. cbn [belongs] in Be. rewrite T in Be.
    cbn [ilines length] in LI. rewrite app_length in LI. cbn [length] in LI. assert (LB : length (flat_map ilines body) < n) by lia.
    apply (So_comp id b body e sid); [exact B| |exact (IH _ LB sid body y (le_n _) My)|exact Ey].
    apply child_field. exists fd. auto.
  - destruct OK as (B & fd & If & T & Be). destruct (means_holds _ _ _ _ M If) as (vs & H & _). destruct (holds_item _ _ _ H _ I Be) as (v & IM).
    rewrite T in IM. inversion IM; subst. cbn [belongs] in Be. rewrite T in Be.
    destruct (proj2 (alarm_field id (upper (cl_value b)))) as [A V]; [exists fd; auto|]. constructor; assumption.
  - destruct OK as (B & E & V & S & N). constructor; try assumption.
    + intros J. apply in_map_iff in J as ([w sid] & W & J). cbn [fst] in W. subst w. apply child_field in J as (fd & If & T & K). apply (N fd If); [|auto]. intros pid. rewrite T. discriminate.
    + intros J. apply alarm_field in J as (fd & If & T & K). apply (N fd If); [|auto]. intros pid. rewrite T. discriminate.
Qed.

(** ** Decoding a text with a shape *)
Lemma reads_fun : forall a b s1 s2 s, reads s a s1 -> reads s b s2 -> exists c, (b = a ++ c /\ reads s1 c s2) \/ (a = b ++ c /\ reads s2 c s1).
Proof.
  induction a as [|x a IH]; intros b s1 s2 s R1 R2.
  - inversion R1; subst. exists b. left. auto.
  - destruct b as [|y b].
    + inversion R2; subst. exists (x :: a). right. auto.
    + inversion R1 as [|? ? t1 ? ? G1 R1']; inversion R2 as [|? ? t2 ? ? G2 R2']; subst. rewrite G1 in G2.
      assert (Q : cline_tokens x = cline_tokens y) by congruence. assert (t1 = t2) by congruence. subst t2. clear G2. apply cline_tokens_inj in Q. subst y. destruct (IH b s1 s2 t1 R1' R2') as (c & [[-> R]|[-> R]]); exists c; [left|right]; auto.
Qed.

(** Lines of the same text. *)
Lemma text_lines ls1 e1 t1 ls2 e2 t2 : wf_lines (ls1 ++ [e1]) -> wf_lines (ls2 ++ [e2]) -> rest_ok t1 -> rest_ok t2 ->
  lines_text ls1 ++ cline_render e1 ++ t1 = lines_text ls2 ++ cline_render e2 ++ t2 ->
  (exists c, ls2 ++ [e2] = (ls1 ++ [e1]) ++ c) \/ (exists c, ls1 ++ [e1] = (ls2 ++ [e2]) ++ c).
Proof.
  intros W1 W2 T1 T2 Q. apply tail_line_end in T1 as [z1 T1]. apply tail_line_end in T2 as [z2 T2].
  pose proof (text_reads ls1 e1 t1 z1 W1 T1) as R1. pose proof (text_reads ls2 e2 t2 z2 W2 T2) as R2. rewrite Q in R1.
  destruct (reads_fun _ _ _ _ _ R1 R2) as (c & [[A _]|[A _]]); [left|right]; exists c; exact A.
Qed.

Lemma frames_same b1 is1 e1 t1 b2 is2 e2 t2 : framed b1 is1 e1 -> framed b2 is2 e2 -> rest_ok t1 -> rest_ok t2 ->
  frame_text b1 is1 e1 ++ t1 = frame_text b2 is2 e2 ++ t2 -> b1 = b2 /\ is1 = is2 /\ e1 = e2.
Proof.
  intros (B1 & V1 & S1 & E1 & W1) (B2 & V2 & S2 & E2 & W2) T1 T2 Q. unfold frame_text in Q. rewrite <- !app_assoc in Q.
  destruct (text_lines (b1 :: flat_map ilines is1) e1 t1 (b2 :: flat_map ilines is2) e2 t2 W1 W2 T1 T2 Q) as [[c C]|[c C]]; cbn [app] in C; injection C as -> C;
    rewrite <- app_assoc in C; cbn [app] in C.
  - destruct (shape_unique _ SCalendar is2 is1 e2 e1 [] c (le_n _) S2 S1 E2 E1 C) as (-> & -> & _). auto.
  - destruct (shape_unique _ SCalendar is1 is2 e1 e2 [] c (le_n _) S1 S2 E1 E2 C) as (-> & -> & _). auto.
Qed.

Lemma decode_frame b items e tail cal : framed b items e -> rest_ok tail ->
  (decode_bytes (frame_text b items e ++ tail) = Ok cal <-> means SCalendar items cal /\ cl_value e = bs "VCALENDAR").
Proof.
  intros F T. rewrite decode_bytes_exact. split.
  - intros (b' & items' & e' & tail' & B & V & M & E & Ve & W & Q & T'). assert (F' : framed b' items' e').
    { repeat split; try assumption. eapply means_shape; eauto. }
    unfold frame_text in Q. rewrite app_assoc in Q. change ((lines_text (b' :: flat_map ilines items') ++ cline_render e') ++ tail') with (frame_text b' items' e' ++ tail') in Q.
    destruct (frames_same _ _ _ _ _ _ _ _ F F' T T' Q) as (-> & -> & ->). auto.
  - intros [M Ve]. destruct F as (B & V & Sh & E & W). exists b, items, e, tail. repeat split; try assumption. unfold frame_text. rewrite <- app_assoc. reflexivity.
Qed.

(** Whatever decodes has a frame. *)
Lemma decode_has_frame s cal : decode_bytes s = Ok cal -> exists b items e tail, framed b items e /\ rest_ok tail /\ s = frame_text b items e ++ tail /\
  means SCalendar items cal /\ cl_value e = bs "VCALENDAR".
Proof.
  rewrite decode_bytes_exact. intros (b & items & e & tail & B & V & M & E & Ve & W & Q & T). exists b, items, e, tail.
  split; [repeat split; try assumption; eapply means_shape; eauto|]. split; [exact T|]. split; [unfold frame_text; rewrite <- app_assoc; exact Q|]. auto.
Qed.
End Shape.
