(** Lines are judged by themselves; time zones of the calendar are not used. *)
From Coq Require Import String Ascii ZArith Bool List Lia.
From Verif Require Import Base Lib GoStrings Strtok Tokeniser SpecContent TokeniserProofs GoTime Types Params ParamTable PropTable Props SecTable Sections Folder Codec SpecTree TreeProofs ExactProofs SpecRules ShapeProofs RulesProofs SpecEdits SpecProps SpecRfc SpecLine LineProofs SpecComp CompProofs RfcProofs SpecAlone SpecLang LangTimeProofs.
Import ListNotations.

Section Alone.
Context {env : Env}.

Lemma upper_plain l l' : upper (cl_name l') = upper (cl_name l) -> is_plain l -> is_plain l'.
Proof. unfold is_plain, is_begin, is_end, line_is. intros ->. auto. Qed.
Lemma own_lines_app n a b : own_lines n (a ++ b) = own_lines n a ++ own_lines n b.
Proof. unfold own_lines. apply flat_map_app. Qed.
Lemma revalued_own id items items' : revalued id items items' -> forall n, length (own_lines n items') = length (own_lines n items).
Proof.
  induction 1 as [id pre l l' post Q _|id pre b body body' e post sid _ _ _|id pre b ls l l' ls' e post sid _ _ _ _ _|id pre b body body' e post _]; intros n; rewrite !own_lines_app, !app_length; cbn [own_lines flat_map]; [|reflexivity..].
  change (flat_map _ post) with (own_lines n post). rewrite Q, !app_length. destruct (beq _ n); reflexivity.
Qed.
Lemma revalued_gives id items items' n : revalued id items items' -> (gives n items' <-> gives n items).
Proof. intros R. pose proof (revalued_own _ _ _ R (bs n)) as L. unfold gives. destruct (own_lines _ items'), (own_lines _ items); cbn [length] in L; try discriminate L; split; congruence. Qed.
Lemma revalued_comps id items items' n : revalued id items items' -> length (own_comps n items') = length (own_comps n items).
Proof.
  intros R. unfold own_comps. destruct R as [id pre l l' post Q _|id pre b body body' e post sid _ _|id pre b ls l l' ls' e post sid _ _ _ _ _|id pre b body body' e post _]; rewrite !filter_app, !app_length; cbn [filter]; [reflexivity| |reflexivity..].
  destruct (beq _ n); reflexivity.
Qed.
Lemma revalued_cross id items items' : revalued id items items' -> forall i, (cross_ok i items -> cross_ok i items') /\ (one_of_two i items -> one_of_two i items').
Proof.
  intros R i. pose proof (fun n => revalued_gives id items items' n R) as G. pose proof (fun n => revalued_comps id items items' n R) as C.
  split; destruct i; cbn [cross_ok one_of_two]; rewrite ?G; try tauto.
  intros [H|H]; [left|right]; specialize (C (bs "STANDARD")) as C1; specialize (C (bs "DAYLIGHT")) as C2;
    [destruct (own_comps (bs "STANDARD") items'), (own_comps (bs "STANDARD") items)|destruct (own_comps (bs "DAYLIGHT") items'), (own_comps (bs "DAYLIGHT") items)]; cbn [length] in *; congruence.
Qed.
Lemma revalued_shape id items items' : revalued id items items' -> Forall (shape_ok id) items -> Forall (shape_ok id) items'.
Proof.
  induction 1 as [id pre l l' post Q _|id pre b body body' e post sid C R IH|id pre b ls l l' ls' e post sid _ _ _ Q _|id pre b body body' e post Sk]; rewrite !Forall_app, !Forall_cons_iff; intros (F1 & F2 & F3); (split; [exact F1|]); (split; [|exact F3]).
  - inversion F2; subst. constructor. eapply upper_plain; eassumption.
  - inversion F2 as [|? ? ? ? sid' B' C' G' E'| |]; subst. econstructor; [exact B'|exact C'| |exact E']. assert (sid' = sid) by (eapply children_one; eassumption). subst sid'. auto.
  - inversion F2 as [| |? ? ? ? B A V G E|]; subst. constructor; try assumption. rewrite !Forall_app, !Forall_cons_iff in G |- *. rewrite Q. exact G.
  - inversion F2; subst. constructor; assumption.
Qed.

(** ** Lines among the items of an alarm *)
Lemma cut_at (x y : list cline) l a c : x ++ y = a ++ l :: c -> (exists z, x = a ++ l :: z /\ c = z ++ y) \/ (exists z, a = x ++ z /\ y = z ++ l :: c).
Proof.
  intros Q. destruct (app_eq_app _ _ _ _ Q) as (k & [[A K]|[A K]]).
  - destruct k as [|k0 k]; [right; exists []; rewrite app_nil_r in A; cbn [app] in K; subst; rewrite app_nil_r; auto|]. cbn [app] in K. injection K as <- ->. left. exists k. auto.
  - right. exists k. auto.
Qed.
Lemma skip_replaced l l' : is_plain l' -> is_plain l -> forall n body a c, length (flat_map dlines body) <= n -> Forall skippable body -> flat_map dlines body = a ++ l :: c ->
  exists body', Forall skippable body' /\ flat_map dlines body' = a ++ l' :: c.
Proof.
  intros P' P. induction n as [|n IH]; intros body a c L F Q; [rewrite Q, app_length in L; cbn [length] in L; lia|].
  destruct body as [|d body]; [destruct a; discriminate Q|]. apply Forall_cons_iff in F as [Sk F]. cbn [flat_map] in Q, L. rewrite app_length in L.
  apply cut_at in Q as [(z & Qd & ->)|(z & -> & Qb)].
  - destruct Sk as [m Pm|b db e B E V FD]; cbn [dlines] in Qd.
    + destruct a as [|a0 a]; [|destruct a; discriminate Qd]. injection Qd as -> <-. exists (DLine l' :: body). split; [constructor; [constructor; exact P'|exact F]|reflexivity].
    + destruct a as [|a0 a]; [injection Qd as -> _; destruct P as [P _]; destruct (P B)|]. cbn [app] in Qd. injection Qd as <- Qd.
      apply cut_at in Qd as [(z' & Qd & ->)|(z' & -> & Qe)].
      * destruct (IH db a z') as (db' & F' & Q'); [cbn [dlines length] in L; rewrite app_length in L; cbn [length] in L; lia|exact FD|exact Qd|].
        exists (DComp b db' e :: body). split; [constructor; [constructor; assumption|exact F]|]. cbn [flat_map dlines app]. rewrite Q', <- ?app_assoc. cbn [app]. rewrite <- ?app_assoc. reflexivity.
      * destruct z' as [|z0 z']; [|destruct z'; discriminate Qe]. injection Qe as -> _. destruct P as [_ P]. destruct (P E).
  - assert (1 <= length (dlines d)) by (destruct d; cbn [dlines length]; lia).
    destruct (IH body z c) as (body' & F' & Q'); [lia|exact F|exact Qb|]. exists (d :: body'). split; [constructor; assumption|]. cbn [flat_map]. rewrite Q', app_assoc. reflexivity.
Qed.
Lemma revalued_cons id i items items' : revalued id items items' -> revalued id (i :: items) (i :: items').
Proof.
  intros R. destruct R; rewrite !app_comm_cons; econstructor; eassumption.
Qed.
Lemma items_replaced id l l' : children id = [] -> has_alarms id = false -> cl_name l' = cl_name l -> is_plain l -> readable id l' ->
  forall sub a c, Forall (shape_ok id) sub -> flat_map ilines sub = a ++ l :: c -> exists sub', revalued id sub sub' /\ flat_map ilines sub' = a ++ l' :: c.
Proof.
  intros NC NA Q P Rd. assert (P' : is_plain l') by (apply (upper_plain l); [f_equal; exact Q|exact P]).
  induction sub as [|i sub IH]; intros a c F QL; [destruct a; discriminate QL|]. apply Forall_cons_iff in F as [Sh F]. cbn [flat_map] in QL. apply cut_at in QL as [(z & Qi & ->)|(z & -> & QL)].
  - inversion Sh as [? m Pm|? b body e sid B C|? b body e B A|? b body e B E V Sk N1 N2]; subst; cbn [ilines] in Qi.
    + destruct a as [|a0 a]; [|destruct a; discriminate Qi]. injection Qi as -> <-. exists (ILine l' :: sub). split; [apply (Rv_here id [] l l' sub); [f_equal; exact Q|exact Rd]|reflexivity].
    + rewrite NC in C. destruct C.
    + congruence.
    + destruct a as [|a0 a]; [injection Qi as -> _; destruct P as [P _]; destruct (P B)|]. cbn [app] in Qi. injection Qi as <- Qi. apply cut_at in Qi as [(z' & Qi & ->)|(z' & -> & Qe)].
      * destruct (skip_replaced l l' P' P _ body a z' (le_n _) Sk Qi) as (body' & F' & Q'). exists (IOther b body' e :: sub). split; [apply (Rv_other id [] b body body' e sub), F'|].
        cbn [flat_map ilines app]. rewrite Q', <- ?app_assoc. cbn [app]. rewrite <- ?app_assoc. reflexivity.
      * destruct z' as [|z0 z']; [|destruct z'; discriminate Qe]. injection Qe as -> _. destruct P as [_ P]. destruct (P E).
  - destruct (IH z c F QL) as (sub' & R & Q'). exists (i :: sub'). split; [apply revalued_cons, R|]. cbn [flat_map]. rewrite Q', app_assoc. reflexivity.
Qed.
Lemma kind_flat w sid : action_is w sid -> children sid = [] /\ has_alarms sid = false.
Proof. intros A. cbn [action_is In] in A. unfold action_is in A. cbn [In] in A. repeat (destruct A as [A|A]; [injection A as _ <-; split; reflexivity|]). contradiction. Qed.
Lemma content_replaced ls l l' ls' e sid sub : alarm_content (ls ++ l :: ls') e sid sub -> is_plain l -> cl_name l <> bs "ACTION" -> cl_name l' = cl_name l -> readable sid l' ->
  exists sub', (sub' = sub \/ revalued sid sub sub') /\ alarm_content (ls ++ l' :: ls') e sid sub' /\
  exists e' more more', (ls ++ l :: ls') ++ [e] = flat_map ilines sub ++ e' :: more /\ (ls ++ l' :: ls') ++ [e] = flat_map ilines sub' ++ e' :: more'.
Proof.
  intros (K & Sh & e' & more & Q & E) P NA QN Rd.
  assert (K' : exists us w, values_named (bs "ACTION") (ls ++ l' :: ls') = us ++ [w] /\ Forall (fun u => forall id, ~ action_is u id) us /\ action_is w sid).
  { destruct K as (us & w & V & K). exists us, w. split; [|exact K]. rewrite <- V. unfold values_named. rewrite !filter_app. cbn [filter]. rewrite QN. apply beq_neq in NA. rewrite NA. reflexivity. }
  assert (FL : children sid = [] /\ has_alarms sid = false) by (destruct K as (us & w & _ & _ & A); eapply kind_flat; exact A). destruct FL as [NC NAl].
  pose proof Q as Q0. rewrite <- app_assoc in Q. cbn [app] in Q. symmetry in Q. apply cut_at in Q as [(z & Qs & Qc)|(z & -> & Qm)].
  - destruct (items_replaced sid l l' NC NAl QN P Rd sub ls z Sh Qs) as (sub' & R & Q'). exists sub'. split; [right; exact R|].
    assert (B : (ls ++ l' :: ls') ++ [e] = flat_map ilines sub' ++ e' :: more) by (rewrite Q', <- !app_assoc; cbn [app]; rewrite Qc; reflexivity).
    split; [split; [exact K'|split; [eapply revalued_shape; eassumption|exists e', more; split; [exact B|exact E]]]|]. exists e', more, more. split; [exact Q0|exact B].
  - exists sub. split; [left; reflexivity|]. destruct z as [|z0 z].
    { cbn [app] in Qm. injection Qm as -> _. destruct P as [_ P]. destruct (P E). }
    cbn [app] in Qm. injection Qm as <- Qm. assert (B : ((flat_map ilines sub ++ e' :: z) ++ l' :: ls') ++ [e] = flat_map ilines sub ++ e' :: z ++ l' :: ls' ++ [e]) by (rewrite <- !app_assoc; reflexivity).
    split; [split; [exact K'|split; [exact Sh|exists e', (z ++ l' :: ls' ++ [e]); split; [exact B|exact E]]]|]. exists e', more, (z ++ l' :: ls' ++ [e]). split; [exact Q0|exact B].
Qed.

Lemma Forall2_build {A B} (R : A -> B -> Prop) l : (forall a, In a l -> exists b, R a b) -> exists l', Forall2 R l l'.
Proof.
  induction l as [|a l IH]; intros H; [exists []; constructor|]. destruct (H a (or_introl eq_refl)) as (b & Hb). destruct IH as (l' & Hl); [intros; apply H; right; assumption|]. exists (b :: l'). constructor; assumption.
Qed.
(** It is enough that each field still has values. *)
Lemma revalued_fields id items items' x : revalued id items items' -> comp_means id items x ->
  (forall t vs, In t (api_fields id) -> Forall2 (item_value t) (filter (for_field t) items) vs -> exists vs', Forall2 (item_value t) (filter (for_field t) items') vs') ->
  exists x', comp_means id items' x'.
Proof.
  intros R M H. inversion M as [? ? fs Sh Rq Op Cr Ot F]; subst.
  destruct (Forall2_build (fun t vs => Forall2 (item_value t) (filter (for_field t) items') vs) (api_fields id)) as (fs' & F').
  { intros t I. destruct (Forall2_left _ _ _ _ F I) as (vs & V). eapply H; eassumption. }
  exists (Sec id fs'). constructor; try assumption.
  + eapply revalued_shape; eassumption.
  + intros n I. rewrite (revalued_own _ _ _ R). auto.
  + intros n I. rewrite (revalued_own _ _ _ R). auto.
  + apply (revalued_cross _ _ _ R). exact Cr.
  + apply (revalued_cross _ _ _ R). exact Ot.
Qed.
Lemma here_means id pre l l' post x : upper (cl_name l') = upper (cl_name l) -> readable id l' -> comp_means id (pre ++ ILine l :: post) x -> exists x', comp_means id (pre ++ ILine l' :: post) x'.
Proof.
  intros Q Rd M. eapply revalued_fields; [apply Rv_here; eassumption|exact M|]. intros t vs I V. rewrite filter_app in V |- *. cbn [filter] in V |- *.
  destruct t as [pid|sid|]; cbn [for_field] in V |- *; [|exists vs; exact V|exists vs; exact V]. rewrite Q. destruct (beq (upper (cl_name l)) (read_name pid)) eqn:B; [|exists vs; exact V].
  apply beq_eq in B. destruct (Rd pid I) as (p & Mp); [congruence|]. apply Forall2_app_inv_l in V as (v1 & v2 & V1 & V2 & _). inversion V2; subst.
  eexists (v1 ++ FVProp pid p :: _). apply Forall2_app; [exact V1|]. constructor; [constructor; exact Mp|eassumption].
Qed.
Lemma other_means id pre b body body' e post x : Forall skippable body' -> comp_means id (pre ++ IOther b body e :: post) x -> exists x', comp_means id (pre ++ IOther b body' e :: post) x'.
Proof.
  intros Sk M. eapply revalued_fields; [apply Rv_other; eassumption|exact M|]. intros t vs I V. exists vs. rewrite filter_app in V |- *. cbn [filter] in V |- *. destruct t; exact V.
Qed.
Lemma flat_means id items items' x : children id = [] -> has_alarms id = false -> revalued id items items' -> comp_means id items x -> exists x', comp_means id items' x'.
Proof.
  intros NC NA R M. destruct R as [id pre l l' post Q Rd|id pre b body body' e post sid C R|id pre b ls l l' ls' e post sid K P N Q Rd|id pre b body body' e post Sk].
  - eapply here_means; eassumption.
  - rewrite NC in C. destruct C.
  - exfalso. inversion M as [? ? ? Sh]; subst. apply Forall_app in Sh as [_ Sh]. apply Forall_cons_iff in Sh as [Sh _]. inversion Sh. congruence.
  - eapply other_means; eassumption.
Qed.
Lemma revalued_means : forall id items items', revalued id items items' -> forall x, comp_means id items x -> exists x', comp_means id items' x'.
Proof.
  induction 1 as [id pre l l' post Q Rd|id pre b body body' e post sid C R IH|id pre b ls l l' ls' e post sid K P N Q Rd|id pre b body body' e post Sk]; intros x M.
  - eapply here_means; eassumption.
  - eapply revalued_fields; [eapply Rv_comp; eassumption|exact M|]. intros t vs I V. rewrite filter_app in V |- *. cbn [filter] in V |- *.
    destruct t as [pid|sid'|]; cbn [for_field] in V |- *; [exists vs; exact V| |exists vs; exact V]. destruct (beq (upper (cl_value b)) (comp_name sid')) eqn:B; [|exists vs; exact V].
    apply beq_eq in B. apply Forall2_app_inv_l in V as (v1 & v2 & V1 & V2 & _). inversion V2 as [|? v ? v3 Hv Hr]; subst. inversion Hv as [|? ? ? ? y My Ve|]; subst.
    assert (sid' = sid).
    { eapply children_one; [|exact C]. rewrite B. apply in_map with (f := fun t => t) in I. rewrite map_id in I. rewrite <- fields_table in I. apply in_map_iff in I as (fd & T & I). apply child_field. exists fd. split; [exact I|]. split; [exact T|].
      rewrite (names_table _ _ I), T. reflexivity. }
    subst sid'. destruct (IH y My) as (y' & My'). exists (v1 ++ FVSec y' :: v3). apply Forall2_app; [exact V1|]. constructor; [constructor; assumption|exact Hr].
  - eapply revalued_fields; [eapply Rv_alarm; eassumption|exact M|]. intros t vs I V. rewrite filter_app in V |- *. cbn [filter] in V |- *.
    destruct t as [pid|sid'|]; cbn [for_field] in V |- *; [exists vs; exact V|exists vs; exact V|].
    apply Forall2_app_inv_l in V as (v1 & v2 & V1 & V2 & _). inversion V2 as [|? v ? v3 Hv Hr]; subst. inversion Hv as [| |? ? ? sid' sub y AC VE My]; subst.
    assert (sid' = sid).
    { destruct K as (us & w & A & _ & Aw). destruct AC as [(us' & w' & A' & _ & Aw') _]. rewrite A in A'. apply app_inj_tail in A' as [_ <-]. eapply action_one; eassumption. }
    subst sid'. destruct (content_replaced _ _ _ _ _ _ _ AC P N Q Rd) as (sub' & RS & AC' & e' & more & more' & Q1 & Q2).
    assert (MY : exists y', comp_means sid sub' y').
    { destruct RS as [->|RS]; [exists y; exact My|]. destruct K as (us & w & _ & _ & Aw). destruct (kind_flat _ _ Aw) as [NC NA]. eapply flat_means; eassumption. }
    destruct MY as (y' & My'). exists (v1 ++ FVAlarm (Some y') :: v3). apply Forall2_app; [exact V1|]. constructor; [|exact Hr]. apply (IV_alarm _ _ _ sid sub'); [exact AC'| |exact My'].
    intros e2 m2 Q3. rewrite Q2 in Q3. apply app_inv_head in Q3. injection Q3 as <- _. exact (VE _ _ Q1).
  - eapply other_means; eassumption.
Qed.
Theorem decode_revalued b items items' e tail : framed b items e -> framed b items' e -> rest_ok tail -> revalued SCalendar items items' ->
  (exists cal, decode_bytes (frame_text b items e ++ tail) = Ok cal) -> exists cal, decode_bytes (frame_text b items' e ++ tail) = Ok cal.
Proof.
  intros F F' T R (cal & D). apply (decode_frame _ _ _ _ _ F T) in D as [M V]. apply means_exact in M. destruct (revalued_means _ _ _ R _ M) as (cal' & M').
  exists cal'. apply (decode_frame _ _ _ _ _ F' T). split; [apply means_exact; exact M'|exact V].
Qed.

(** ** Zones *)
Lemma value_zone cps : pmap_get (value_params cps) (bs "TZID") = last_given (bs "TZID") cps.
Proof.
  unfold value_params. cbn [flat_map]. destruct (last_given (bs "TZID") cps) as [t|]; destruct (last_given (bs "ENCODING") cps) as [u|]; cbn [app]; vm_compute; reflexivity.
Qed.
Lemma load_none id tz : load_location 0 tz = None -> load_location id tz = None.
Proof.
  unfold load_location. destruct (beq tz [] || beq tz (bs "UTC")); [discriminate|]. destruct (beq tz (bs "Local")); [discriminate|]. destruct (has_dotdot tz); [reflexivity|].
  destruct tz as [|c tz]; [reflexivity|]. destruct (beqc c "/"%char || beqc c "\"%char); [reflexivity|]. destruct (load_zone (c :: tz)); [discriminate|reflexivity].
Qed.
Lemma datetime_unknown id m tz s t : pmap_get m (bs "TZID") = Some tz -> load_location 0 tz = None -> datetime_decode id m s <> Ok t.
Proof. intros Z L. unfold datetime_decode. rewrite Z, (load_none id tz L). discriminate. Qed.
Lemma moment_unknown k m tz s v : k = KDateTime \/ k = KPeriod -> pmap_get m (bs "TZID") = Some tz -> load_location 0 tz = None -> value_decode k m s <> Ok v.
Proof.
  intros K Z L H. destruct K as [-> | ->]; cbn [value_decode] in H; unfold rmap in H; apply bind_ok in H as (t & H & _).
  - eapply datetime_unknown; eauto.
  - unfold period_decode in H. destruct (cut "/"%char s) as [[x y]|]; [|discriminate]. destruct y as [|c y]; [discriminate|]. apply bind_ok in H as (st & H & _). eapply datetime_unknown; eauto.
Qed.
Lemma moment_line pid cps d p tz : In pid moments -> given (bs "VALUE") cps = [] -> last_given (bs "TZID") cps = Some tz -> load_location 0 tz = None -> ~ line_means pid cps d p.
Proof.
  intros I NV Z L H. assert (K : rfc_words pid = [] /\ exists w k r, rfc_types pid = (w, k) :: r /\ (k = KDateTime \/ k = KPeriod)).
  { cbn [moments In] in I. repeat destruct I as [<-|I]; try contradiction; (split; [reflexivity|]); do 3 eexists; (split; [reflexivity|]); auto. }
  destruct K as (W & w & k & r & T & K). unfold line_means in H. rewrite W, T in H. destruct (api_struct pid) as [ps|].
  - destruct H as (l & a & w' & k' & b & v & _ & [Q [[-> _]|(x & G & _)]] & V & _); [|congruence]. cbn [app] in Q. injection Q as <- <- <-. eapply moment_unknown; eauto. rewrite value_zone. exact Z.
  - destruct H as (w' & k' & v & Q & V & _). injection Q as <- <- _. eapply moment_unknown; eauto. rewrite value_zone. exact Z.
Qed.
Theorem unknown_zone b items e tail id sub pid l tz : framed b items e -> rest_ok tail -> inside SCalendar items id sub -> In (FTProp pid) (api_fields id) -> In pid moments ->
  In l (own_lines (prop_name pid) sub) -> given (bs "VALUE") (cl_params l) = [] -> last_given (bs "TZID") (cl_params l) = Some tz -> load_location 0 tz = None ->
  forall cal, decode_bytes (frame_text b items e ++ tail) <> Ok cal.
Proof.
  intros F T I IF P IL NV Z L. assert (E : read_name pid = prop_name pid) by (cbn [moments In] in P; repeat destruct P as [<-|P]; try contradiction; reflexivity). rewrite <- E in IL.
  eapply bad_line; eauto. intros p. eapply moment_line; eauto.
Qed.
Lemma slash_zone id s : load_location id ("/"%char :: s) = None.
Proof. unfold load_location. cbn [beq orb]. change (beq ("/"%char :: s) (bs "UTC")) with false. change (beq ("/"%char :: s) (bs "Local")) with false. cbv iota. cbn [orb]. destruct (has_dotdot _); reflexivity. Qed.

(** A calendar with another definition of a zone is the same but for the definition. *)
Lemma filter_other t pre b body body' e post : t <> FTSec STimezone -> In t (api_fields SCalendar) -> upper (cl_value b) = bs "VTIMEZONE" ->
  filter (for_field t) (pre ++ IComp b body e :: post) = filter (for_field t) (pre ++ IComp b body' e :: post).
Proof.
  intros N I V. rewrite !filter_app. f_equal. cbn [filter]. assert (H : forall x, for_field t (IComp b x e) = false); [|rewrite !H; reflexivity].
  intros x. destruct t as [pid|sid|]; cbn [for_field]; [reflexivity| |reflexivity]. rewrite V. cbn in I. repeat destruct I as [I|I]; try contradiction; try discriminate I; injection I as <-; try reflexivity. destruct N. reflexivity.
Qed.
Lemma value_fun t i v v' : item_value t i v -> item_value t i v' -> In t (api_fields SCalendar) -> v = v'.
Proof.
  intros H H' I. inversion H as [pid l p Mp|sid b body e x Mx Ve|]; subst; inversion H' as [? ? p' Mp'|? ? ? ? x' Mx' Ve'|]; subst.
  - apply line_exact in Mp, Mp'. rewrite Mp in Mp'. apply Ok_inj in Mp'. congruence.
  - f_equal. apply means_exact in Mx, Mx'. apply CalProofs.means_smeans in Mx as [Mx _]. apply CalProofs.means_smeans in Mx' as [Mx' _]. eapply (proj1 CalProofs.smeans_fun); eassumption.
  - exfalso. cbn in I. repeat destruct I as [I|I]; try contradiction; discriminate I.
Qed.
Lemma values_fun t l : forall vs vs', Forall2 (item_value t) l vs -> Forall2 (item_value t) l vs' -> In t (api_fields SCalendar) -> vs = vs'.
Proof.
  induction l as [|i l IH]; intros vs vs' F F' I; inversion F; inversion F'; subst; [reflexivity|]. f_equal; [eapply value_fun; eassumption|eapply IH; eassumption].
Qed.
Theorem zone_rules_ignored b pre z body body' ze post e tail cal cal' :
  framed b (pre ++ IComp z body ze :: post) e -> framed b (pre ++ IComp z body' ze :: post) e -> rest_ok tail -> upper (cl_value z) = bs "VTIMEZONE" ->
  decode_bytes (frame_text b (pre ++ IComp z body ze :: post) e ++ tail) = Ok cal -> decode_bytes (frame_text b (pre ++ IComp z body' ze :: post) e ++ tail) = Ok cal' ->
  forall i t, nth_error (api_fields SCalendar) i = Some t -> t <> FTSec STimezone -> nth i (sec_fields cal) [] = nth i (sec_fields cal') [].
Proof.
  intros F F' T V D D' i t N NT. apply (decode_frame _ _ _ _ _ F T) in D as [M _]. apply (decode_frame _ _ _ _ _ F' T) in D' as [M' _]. apply means_exact in M, M'.
  inversion M as [? ? fs _ _ _ _ _ G]; subst. inversion M' as [? ? fs' _ _ _ _ _ G']; subst. cbn [sec_fields].
  pose proof (nth_error_In _ _ N) as I. apply (CompProofs.Forall2_nth _ []) in G as [_ G]. apply (CompProofs.Forall2_nth _ []) in G' as [_ G']. specialize (G _ _ N). specialize (G' _ _ N). cbv beta in G, G'.
  rewrite (filter_other t pre z body body' ze post NT I V) in G. eapply values_fun; eassumption.
Qed.

(** ** Stamps *)
Theorem stamps_read pid cps d p : In pid stamps -> (line_means pid cps d p <-> exists t, datetime_text 0 (last_given (bs "TZID") cps) d t /\ p = PNew (VDateTime t)).
Proof.
  intros I. assert (K : rfc_words pid = [] /\ api_struct pid = None /\ exists w, rfc_types pid = [(w, KDateTime)]).
  { cbn [stamps In] in I. repeat destruct I as [<-|I]; try contradiction; (split; [reflexivity|]); (split; [reflexivity|]); eexists; reflexivity. }
  destruct K as (W & A & w & T). unfold line_means. rewrite W, A, T. split.
  - intros (w' & k & v & Q & V & ->). injection Q as <- <-. apply datetime_lang in V as (t & V & ->). rewrite value_zone in V. exists t. auto.
  - intros (t & V & ->). exists w, KDateTime, (VDateTime t). split; [reflexivity|]. split; [|reflexivity]. apply datetime_lang. exists t. rewrite value_zone. auto.
Qed.
End Alone.
