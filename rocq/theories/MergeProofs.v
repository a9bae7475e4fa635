(** Calendars put together and taken apart. *)
From Coq Require Import String Ascii ZArith Bool List Lia.
From Verif Require Import Base Lib Tokeniser SpecContent GoTime Types Params ParamTable PropTable Props SecTable Sections Codec SpecTree SpecRules TreeProofs ExactProofs ShapeProofs AddProofs SpecMerge.
Import ListNotations.

Section Merge.
Context {env : Env}.

Lemma own_app a b : own_lines (a ++ b) = own_lines a ++ own_lines b.
Proof. apply filter_app. Qed.
Lemma own_own a : own_lines (own_lines a) = own_lines a.
Proof. unfold own_lines. induction a as [|i a IH]; [reflexivity|]. cbn [filter]. destruct (is_line i) eqn:E; [|exact IH]. cbn [filter]. rewrite E, IH. reflexivity. Qed.
Lemma own_components a : own_lines (components a) = [].
Proof. unfold own_lines, components. induction a as [|i a IH]; [reflexivity|]. cbn [filter]. destruct (is_line i) eqn:E; cbn [negb]; [exact IH|]. cbn [filter]. rewrite E. exact IH. Qed.

(** A field for lines does not see components, ... *)
Definition line_field (fd : field) : bool := match fd_type fd with FTProp _ => true | _ => false end.
Lemma line_belongs fd i : line_field fd = true -> is_line i = false -> ~ belongs fd i.
Proof. unfold line_field, belongs. destruct i, (fd_type fd); cbn [is_line]; intros; try discriminate; auto. Qed.
Lemma comp_belongs fd i : line_field fd = false -> is_line i = true -> ~ belongs fd i.
Proof. unfold line_field, belongs. destruct i, (fd_type fd); cbn [is_line]; intros; try discriminate; auto. Qed.
Lemma holds_own fd : line_field fd = true -> forall items vs, holds fd items vs <-> holds fd (own_lines items) vs.
Proof.
  intros L. unfold own_lines. induction items as [|i items IH]; intros vs; [tauto|]. cbn [filter]. destruct (is_line i) eqn:E.
  - change (i :: items) with ([i] ++ items). change (i :: filter is_line items) with ([i] ++ filter is_line items). rewrite !holds_app.
    split; intros (va & vb & -> & A & B); exists va, vb; repeat split; try assumption; apply IH; assumption.
  - rewrite <- IH. split; intros H.
    + inversion H as [|? ? ? ? N H'|? ? ? v vs' B IM H']; subst; [exact H'|]. destruct (line_belongs fd i L E B).
    + constructor; [apply line_belongs; assumption|exact H].
Qed.
(** ... and one for components does not see lines. *)
Lemma holds_no_own fd : line_field fd = false -> forall items vs, holds fd (own_lines items) vs <-> vs = [].
Proof.
  intros L. unfold own_lines. induction items as [|i items IH]; intros vs; [split; [intros H; inversion H; reflexivity|intros ->; constructor]|]. cbn [filter]. destruct (is_line i) eqn:E; [|apply IH].
  split; intros H.
  - inversion H as [|? ? ? ? N H'|? ? ? v vs' B IM H']; subst; [apply IH; exact H'|]. destruct (comp_belongs fd i L E B).
  - constructor; [apply comp_belongs; assumption|apply IH; exact H].
Qed.
Lemma holds_components fd : line_field fd = false -> forall items vs, holds fd (components items) vs <-> holds fd items vs.
Proof.
  intros L. unfold components. induction items as [|i items IH]; intros vs; [tauto|]. cbn [filter]. destruct (is_line i) eqn:E; cbn [negb].
  - rewrite IH. split; intros H; [constructor; [apply comp_belongs; assumption|exact H]|].
    inversion H as [|? ? ? ? N H'|? ? ? v vs' B IM H']; subst; [exact H'|]. destruct (comp_belongs fd i L E B).
  - change (i :: items) with ([i] ++ items). match goal with |- holds _ (i :: ?r) _ <-> _ => change (i :: r) with ([i] ++ r) end. rewrite !holds_app.
    split; intros (va & vb & -> & A & B); exists va, vb; repeat split; try assumption; apply IH; assumption.
Qed.

(** The meaning of a calendar, field by field *)
Notation F k := (nth k (fields_of SCalendar) (Field [] FReq FTAlarm)).
Definition heads (items : list item) (v p : list fval) : Prop := holds (F 0) items v /\ holds (F 1) items p /\ length v = 1 /\ length p = 1.
Definition parts_of (items : list item) (cs : list (list fval)) : Prop :=
  exists e t j f z, cs = [e; t; j; f; z] /\ holds (F 2) items e /\ holds (F 3) items t /\ holds (F 4) items j /\ holds (F 5) items f /\ holds (F 6) items z.
Lemma cal_means items cal : means SCalendar items cal <-> Forall (item_ok SCalendar) items /\ exists v p cs, cal = Sec SCalendar (v :: p :: cs) /\ heads items v p /\ parts_of items cs.
Proof.
  split.
  - intros M. inversion M as [id it fs I L H X]; subst. split; [exact I|]. destruct fs as [|v [|p [|e [|t [|j [|f [|z [|w fs]]]]]]]]; try discriminate L.
    destruct (H 0 _ eq_refl) as [H0 C0]. destruct (H 1 _ eq_refl) as [H1 C1]. destruct (H 2 _ eq_refl) as [H2 _]. destruct (H 3 _ eq_refl) as [H3 _].
    destruct (H 4 _ eq_refl) as [H4 _]. destruct (H 5 _ eq_refl) as [H5 _]. destruct (H 6 _ eq_refl) as [H6 _].
    exists v, p, [e; t; j; f; z]. split; [reflexivity|]. split; [repeat split; assumption|]. exists e, t, j, f, z. repeat split; assumption.
  - intros (I & v & p & cs & -> & (H0 & H1 & L0 & L1) & (e & t & j & f & z & -> & H2 & H3 & H4 & H5 & H6)). constructor; [exact I|reflexivity| |constructor].
    intros i fd N. do 7 (destruct i as [|i]; [cbn in N; injection N as <-; split; [assumption|]; cbn; auto|]). destruct i; discriminate N.
Qed.
Lemma heads_own items v p : heads items v p <-> heads (own_lines items) v p.
Proof. unfold heads. rewrite <- !holds_own by reflexivity. tauto. Qed.
Lemma parts_own items cs : parts_of (own_lines items) cs <-> cs = [[]; []; []; []; []].
Proof.
  unfold parts_of. split.
  - intros (e & t & j & f & z & -> & H). rewrite !holds_no_own in H by reflexivity. destruct H as (-> & -> & -> & -> & ->). reflexivity.
  - intros ->. exists [], [], [], [], []. rewrite !holds_no_own by reflexivity. tauto.
Qed.
Lemma parts_components items cs : parts_of (components items) cs <-> parts_of items cs.
Proof. unfold parts_of. split; intros (e & t & j & f & z & -> & H); exists e, t, j, f, z; rewrite !holds_components in * by reflexivity; tauto. Qed.
Lemma parts_app a b cs : parts_of (a ++ b) cs <-> exists ca cb, parts_of a ca /\ parts_of b cb /\ cs = join_fields ca cb.
Proof.
  unfold parts_of. split.
  - intros (e & t & j & f & z & -> & H2 & H3 & H4 & H5 & H6). apply holds_app in H2 as (e1 & e2 & -> & E1 & E2). apply holds_app in H3 as (t1 & t2 & -> & T1 & T2).
    apply holds_app in H4 as (j1 & j2 & -> & J1 & J2). apply holds_app in H5 as (f1 & f2 & -> & F1 & F2). apply holds_app in H6 as (z1 & z2 & -> & Z1 & Z2).
    exists [e1; t1; j1; f1; z1], [e2; t2; j2; f2; z2]. split; [exists e1, t1, j1, f1, z1; tauto|]. split; [exists e2, t2, j2, f2, z2; tauto|]. reflexivity.
  - intros (ca & cb & (e1 & t1 & j1 & f1 & z1 & -> & A) & (e2 & t2 & j2 & f2 & z2 & -> & B) & ->). exists (e1 ++ e2), (t1 ++ t2), (j1 ++ j2), (f1 ++ f2), (z1 ++ z2).
    split; [reflexivity|]. rewrite !holds_app. decompose [and] A. decompose [and] B. repeat split; eauto 6.
Qed.
Lemma join_empty_r items cs : parts_of items cs -> join_fields cs [[]; []; []; []; []] = cs.
Proof. intros (e & t & j & f & z & -> & _). cbn [join_fields]. rewrite !app_nil_r. reflexivity. Qed.
Lemma join_empty_l items cs : parts_of items cs -> join_fields [[]; []; []; []; []] cs = cs.
Proof. intros (e & t & j & f & z & -> & _). reflexivity. Qed.
Lemma parts_add_own a b cs : parts_of (a ++ own_lines b) cs <-> parts_of a cs.
Proof.
  rewrite parts_app. split.
  - intros (ca & cb & A & B & ->). rewrite parts_own in B. subst cb. rewrite (join_empty_r a) by exact A. exact A.
  - intros A. exists cs, [[]; []; []; []; []]. split; [exact A|]. split; [apply parts_own; reflexivity|]. rewrite (join_empty_r a) by exact A. reflexivity.
Qed.
Lemma parts_own_add a b cs : parts_of (own_lines a ++ b) cs <-> parts_of b cs.
Proof.
  rewrite parts_app. split.
  - intros (ca & cb & A & B & ->). rewrite parts_own in A. subst ca. rewrite (join_empty_l b) by exact B. exact B.
  - intros A. exists [[]; []; []; []; []], cs. split; [apply parts_own; reflexivity|]. split; [exact A|]. rewrite (join_empty_l b) by exact A. reflexivity.
Qed.
Lemma ok_filter id f items : Forall (item_ok id) items -> Forall (item_ok id) (filter f items).
Proof. intros H. apply Forall_forall. intros x I. apply filter_In in I as [I _]. rewrite Forall_forall in H. auto. Qed.

Lemma means_halves a b cal : means SCalendar (a ++ b) cal <->
  exists c1 c2, means SCalendar (a ++ own_lines b) c1 /\ means SCalendar (own_lines a ++ b) c2 /\ cal = merged c1 c2.
Proof.
  assert (O : own_lines (a ++ own_lines b) = own_lines (a ++ b)) by (rewrite !own_app, own_own; reflexivity).
  assert (O' : own_lines (own_lines a ++ b) = own_lines (a ++ b)) by (rewrite !own_app, own_own; reflexivity). split.
  - intros M. apply cal_means in M as (I & v & p & cs & -> & H & P). apply parts_app in P as (ca & cb & A & B & ->). apply Forall_app in I as [Ia Ib].
    exists (Sec SCalendar (v :: p :: ca)), (Sec SCalendar (v :: p :: cb)). split; [|split; [|reflexivity]].
    + apply cal_means. split; [apply Forall_app; split; [exact Ia|apply ok_filter, Ib]|]. exists v, p, ca. split; [reflexivity|]. split; [rewrite heads_own, O, <- heads_own; exact H|apply parts_add_own, A].
    + apply cal_means. split; [apply Forall_app; split; [apply ok_filter, Ia|exact Ib]|]. exists v, p, cb. split; [reflexivity|]. split; [rewrite heads_own, O', <- heads_own; exact H|apply parts_own_add, B].
  - intros (c1 & c2 & M1 & M2 & ->). apply cal_means in M1 as (I1 & v1 & p1 & ca & -> & H1 & P1). apply cal_means in M2 as (I2 & v2 & p2 & cb & -> & H2 & P2).
    rewrite parts_add_own in P1. rewrite parts_own_add in P2. apply Forall_app in I1 as [I1 _]. apply Forall_app in I2 as [_ I2].
    apply cal_means. split; [apply Forall_app; split; assumption|]. exists v1, p1, (join_fields ca cb). split; [reflexivity|].
    split; [rewrite heads_own, <- O, <- heads_own; exact H1|]. apply parts_app. exists ca, cb. auto.
Qed.
Lemma means_merge a b c1 c2 : means SCalendar a c1 -> means SCalendar b c2 -> means SCalendar (a ++ components b) (merged c1 c2).
Proof.
  intros M1 M2. apply cal_means in M1 as (I1 & v1 & p1 & ca & -> & H1 & P1). apply cal_means in M2 as (I2 & v2 & p2 & cb & -> & H2 & P2).
  apply cal_means. split; [apply Forall_app; split; [exact I1|apply ok_filter, I2]|]. exists v1, p1, (join_fields ca cb). split; [reflexivity|].
  split; [rewrite heads_own, own_app, own_components, app_nil_r, <- heads_own; exact H1|]. apply parts_app. exists ca, cb. split; [exact P1|]. split; [apply parts_components, P2|reflexivity].
Qed.

(** ** Texts *)
Lemma framed_of b items e items' : framed b items e -> incl items' items -> framed b items' e.
Proof.
  intros (B & V & S & E & W) I. split; [exact B|]. split; [exact V|]. split; [rewrite Forall_forall in *; auto|]. split; [exact E|].
  rewrite Forall_forall in *. intros l Il. apply W. destruct Il as [->|Il]; [left; reflexivity|]. right. apply in_app_iff in Il as [Il|Il]; apply in_app_iff; [left|right; exact Il].
  apply in_flat_map in Il as (i & Ii & Il). apply in_flat_map. exists i. auto.
Qed.
Lemma framed_both b items e b' items' e' : framed b items e -> framed b' items' e' -> framed b (items ++ items') e.
Proof.
  intros (B & V & S & E & W) (_ & _ & S' & _ & W'). split; [exact B|]. split; [exact V|]. split; [apply Forall_app; auto|]. split; [exact E|].
  rewrite Forall_forall in *. intros l Il. destruct Il as [->|Il]; [apply W; left; reflexivity|]. rewrite flat_map_app, <- app_assoc, !in_app_iff in Il. destruct Il as [Il|[Il|Il]].
  - apply W. right. apply in_app_iff. auto.
  - apply W'. right. apply in_app_iff. auto.
  - apply W. right. apply in_app_iff. auto.
Qed.
Lemma incl_own items : incl (own_lines items) items.
Proof. intros x I. apply filter_In in I. tauto. Qed.

Theorem decode_halves b xs ys e tail cal : framed b (xs ++ ys) e -> rest_ok tail -> decode_bytes (frame_text b (xs ++ ys) e ++ tail) = Ok cal <->
  exists c1 c2, decode_bytes (frame_text b (xs ++ own_lines ys) e ++ tail) = Ok c1 /\ decode_bytes (frame_text b (own_lines xs ++ ys) e ++ tail) = Ok c2 /\ cal = merged c1 c2.
Proof.
  intros Fr T. assert (F1 : framed b (xs ++ own_lines ys) e) by (eapply framed_of; [exact Fr|]; apply incl_app; [apply incl_appl, incl_refl|apply incl_appr, incl_own]).
  assert (F2 : framed b (own_lines xs ++ ys) e) by (eapply framed_of; [exact Fr|]; apply incl_app; [apply incl_appl, incl_own|apply incl_appr, incl_refl]).
  rewrite decode_frame by assumption. split.
  - intros [M V]. apply means_halves in M as (c1 & c2 & M1 & M2 & ->). exists c1, c2. rewrite !decode_frame by assumption. auto.
  - intros (c1 & c2 & D1 & D2 & ->). rewrite decode_frame in D1, D2 by assumption. destruct D1 as [M1 V], D2 as [M2 _]. split; [|exact V]. apply means_halves. eauto.
Qed.
Theorem decode_merge b xs e b' ys e' tail tail' c1 c2 : framed b xs e -> framed b' ys e' -> rest_ok tail -> rest_ok tail' ->
  decode_bytes (frame_text b xs e ++ tail) = Ok c1 -> decode_bytes (frame_text b' ys e' ++ tail') = Ok c2 ->
  decode_bytes (frame_text b (xs ++ components ys) e ++ tail) = Ok (merged c1 c2).
Proof.
  intros F1 F2 T T' D1 D2. rewrite decode_frame in D1, D2 by assumption. destruct D1 as [M1 V], D2 as [M2 _].
  apply decode_frame; [|exact T|split; [apply means_merge; assumption|exact V]]. eapply framed_both; [exact F1|]. eapply framed_of; [exact F2|]. intros x I. apply filter_In in I. tauto.
Qed.
Theorem decode_without b pre c post e tail cal : framed b (pre ++ c :: post) e -> rest_ok tail -> is_line c = false ->
  decode_bytes (frame_text b (pre ++ c :: post) e ++ tail) = Ok cal <->
  exists c1 x c2, decode_bytes (frame_text b (pre ++ own_lines post) e ++ tail) = Ok c1 /\ decode_bytes (frame_text b (own_lines pre ++ c :: own_lines post) e ++ tail) = Ok x /\
    decode_bytes (frame_text b (own_lines pre ++ post) e ++ tail) = Ok c2 /\ cal = merged (merged c1 x) c2 /\ decode_bytes (frame_text b (pre ++ post) e ++ tail) = Ok (merged c1 c2).
Proof.
  intros Fr T N.
  assert (FA : framed b (pre ++ [c] ++ own_lines post) e) by (eapply framed_of; [exact Fr|]; intros x I; rewrite !in_app_iff in *; cbn [In] in *; destruct I as [I|[[I|[]]|I]]; [auto|auto|apply incl_own in I; auto]).
  assert (FB : framed b (pre ++ post) e) by (eapply framed_of; [exact Fr|]; intros x I; rewrite !in_app_iff in *; cbn [In] in *; tauto).
  assert (OC : own_lines (c :: post) = own_lines post) by (unfold own_lines; cbn [filter]; rewrite N; reflexivity).
  assert (OC2 : own_lines (pre ++ [c]) = own_lines pre) by (rewrite own_app; unfold own_lines at 2; cbn [filter]; rewrite N; apply app_nil_r).
  assert (OC3 : own_lines ([c] ++ own_lines post) = own_lines post) by (cbn [app]; unfold own_lines at 1; cbn [filter]; rewrite N; apply own_own).
  replace (pre ++ c :: post) with ((pre ++ [c]) ++ post) in * by (rewrite <- app_assoc; reflexivity).
  rewrite decode_halves by assumption. rewrite OC2, <- app_assoc. split.
  - intros (c1 & c2 & D1 & D2 & ->). apply decode_halves in D1 as (d1 & x & D1 & Dx & ->); [|exact FA|exact T]. rewrite OC3 in D1. exists d1, x, c2. split; [exact D1|]. split; [exact Dx|]. split; [exact D2|]. split; [reflexivity|].
    apply decode_halves; [exact FB|exact T|]. exists d1, c2. auto.
  - intros (c1 & x & c2 & D1 & Dx & D2 & -> & _). exists (merged c1 x), c2. split; [|split; [exact D2|reflexivity]]. apply decode_halves; [exact FA|exact T|]. rewrite OC3. exists c1, x. auto.
Qed.

(** Readable exactly if every component is, alone *)
Lemma parts_each : forall items, (exists cs, parts_of items cs) <-> Forall (fun c => exists cs, parts_of [c] cs) items.
Proof.
  induction items as [|i items IH]; [split; [constructor|intros _; exists [[]; []; []; []; []]; exists [], [], [], [], []; repeat split; constructor]|].
  rewrite Forall_cons_iff, <- IH. change (i :: items) with ([i] ++ items). split.
  - intros (cs & P). apply parts_app in P as (ca & cb & A & B & _). eauto.
  - intros ((ca & A) & cb & B). exists (join_fields ca cb). apply parts_app. exists ca, cb. auto.
Qed.
Lemma own_part i : is_line i = true -> exists cs, parts_of [i] cs.
Proof. intros L. exists [[]; []; []; []; []]. pose proof (proj2 (parts_own [i] [[]; []; []; []; []]) eq_refl) as P. unfold own_lines in P. cbn [filter] in P. rewrite L in P. exact P. Qed.
Lemma each_kind (P : item -> Prop) items : Forall P items <-> Forall P (own_lines items) /\ Forall P (components items).
Proof.
  unfold own_lines, components. induction items as [|i items IH]; [split; [intros _; split; constructor|constructor]|]. cbn [filter]. rewrite Forall_cons_iff, IH.
  destruct (is_line i); cbn [negb]; rewrite Forall_cons_iff; tauto.
Qed.
Lemma means_each items : (exists cal, means SCalendar items cal) <->
  (exists h, means SCalendar (own_lines items) h) /\ Forall (fun c => exists x, means SCalendar (own_lines items ++ [c]) x) (components items).
Proof.
  assert (C : forall c, In c (components items) -> own_lines [c] = []) by (intros c I; apply filter_In in I as [_ I]; apply negb_true_iff in I; unfold own_lines; cbn [filter]; rewrite I; reflexivity). split.
  - intros (cal & M). apply cal_means in M as (I & v & p & cs & -> & H & P). split.
    + exists (Sec SCalendar (v :: p :: [[]; []; []; []; []])). apply cal_means. split; [apply ok_filter, I|]. exists v, p, [[]; []; []; []; []]. split; [reflexivity|]. split; [apply -> heads_own; exact H|apply parts_own; reflexivity].
    + apply Forall_forall. intros c Ic. assert (PC : exists cs, parts_of [c] cs).
      { assert (E : exists cs, parts_of items cs) by eauto. rewrite parts_each, Forall_forall in E. apply E. apply filter_In in Ic. tauto. }
      destruct PC as [cs' PC]. exists (Sec SCalendar (v :: p :: cs')). apply cal_means. split.
      * apply Forall_app. split; [apply ok_filter, I|]. constructor; [|constructor]. rewrite Forall_forall in I. apply I. apply filter_In in Ic. tauto.
      * exists v, p, cs'. split; [reflexivity|]. split; [|apply parts_own_add; exact PC]. rewrite heads_own, own_app, own_own, (C c Ic), app_nil_r, <- heads_own. exact H.
  - intros ((h & M) & E). apply cal_means in M as (I & v & p & cs & -> & H & P). rewrite Forall_forall in E.
    assert (X : exists cs, parts_of items cs).
    { apply parts_each, each_kind. split; apply Forall_forall; intros c Ic.
      - apply own_part. apply filter_In in Ic. tauto.
      - destruct (E c Ic) as (x & M). apply cal_means in M as (_ & v' & p' & cs' & _ & _ & P'). rewrite parts_own_add in P'. eauto. }
    destruct X as [cs' X]. exists (Sec SCalendar (v :: p :: cs')). apply cal_means. split.
    + apply each_kind. split; [exact I|]. apply Forall_forall. intros c Ic. destruct (E c Ic) as (x & M). apply cal_means in M as (I' & _). apply Forall_app in I' as [_ I']. apply Forall_cons_iff in I'. tauto.
    + exists v, p, cs'. split; [reflexivity|]. split; [apply <- heads_own; exact H|exact X].
Qed.
Theorem decode_each b items e tail : framed b items e -> rest_ok tail -> readable (frame_text b items e ++ tail) <->
  readable (frame_text b (own_lines items) e ++ tail) /\ Forall (fun c => readable (frame_text b (own_lines items ++ [c]) e ++ tail)) (components items).
Proof.
  intros Fr T. unfold readable. assert (FO : framed b (own_lines items) e) by (eapply framed_of; [exact Fr|apply incl_own]).
  assert (FC : forall c, In c (components items) -> framed b (own_lines items ++ [c]) e).
  { intros c I. eapply framed_of; [exact Fr|]. intros x Ix. apply in_app_iff in Ix as [Ix|[<-|[]]]; [apply incl_own, Ix|]. apply filter_In in I. tauto. }
  assert (Q : forall its, framed b its e -> (exists cal, decode_bytes (frame_text b its e ++ tail) = Ok cal) <-> (exists cal, means SCalendar its cal) /\ cl_value e = bs "VCALENDAR").
  { intros its Fi. split; [intros (cal & D); apply decode_frame in D; [destruct D; eauto|assumption|assumption]|]. intros [(cal & M) V]. exists cal. apply decode_frame; auto. }
  rewrite (Q _ Fr), (Q _ FO), means_each. rewrite !Forall_forall. split.
  - intros [[H E] V]. split; [auto|]. intros c I. apply (Q _ (FC c I)). auto.
  - intros [[H V] E]. split; [|exact V]. split; [exact H|]. intros c I. apply (Q _ (FC c I)). auto.
Qed.
End Merge.
