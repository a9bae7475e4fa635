(** A line adds its own value and nothing else. *)
From Coq Require Import String Ascii ZArith Bool List Lia.
From Verif Require Import Base Lib GoStrings Strtok Tokeniser SpecContent TokeniserProofs GoTime Types Params ParamTable PropTable Props SecTable Sections Folder Codec SpecTree TreeProofs ExactProofs SpecRules ShapeProofs RulesProofs SpecEdits SpecProps SpecRfc SpecLine LineProofs SpecComp CompProofs RfcProofs SpecAlone SpecLang AloneProofs SpecPlace.
Import ListNotations.

Section Place.
Context {env : Env}.

(** ** Fields *)
Definition side (id : secid) (items : list item) : Prop :=
  Forall (shape_ok id) items /\ (forall n, In n (required id) -> length (own_lines n items) = 1) /\
  (forall n, In n (optional id) -> length (own_lines n items) <= 1) /\ cross_ok id items /\ one_of_two id items.
Lemma means_side id items x : comp_means id items x -> side id items.
Proof. intros M. inversion M; subst. repeat split; assumption. Qed.
Definition tname (t : ftype) : bytes := match t with FTProp pid => bs "P" ++ read_name pid | FTSec sid => bs "C" ++ comp_name sid | FTAlarm => bs "A" end.
Fixpoint all_apart (l : list bytes) : bool := match l with [] => true | a :: r => forallb (fun b => negb (beq a b)) r && all_apart r end.
Lemma apart_table : forallb (fun id => all_apart (map tname (api_fields id))) all_secs = true.
Proof. vm_compute. reflexivity. Qed.
Lemma apart_app a b : all_apart (a ++ b) = true -> forall x y, In x a -> In y b -> beq x y = false.
Proof.
  induction a as [|u a IH]; intros H x y I J; [destruct I|]. cbn [app all_apart] in H. apply andb_true_iff in H as [H1 H2]. destruct I as [<-|I].
  - rewrite forallb_forall in H1. apply negb_true_iff, H1, in_app_iff. right. exact J.
  - eapply IH; eassumption.
Qed.
Lemma apart id t1 t t2 t' : api_fields id = t1 ++ t :: t2 -> In t' (t1 ++ t2) -> tname t' <> tname t.
Proof.
  intros Q I E. pose proof apart_table as H. rewrite forallb_forall in H. assert (IA : In id all_secs) by (destruct id; cbn; tauto). specialize (H _ IA). cbv beta in H. rewrite Q, map_app in H. cbn [map] in H.
  apply in_app_iff in I as [I|I].
  - pose proof (apart_app _ _ H (tname t') (tname t)) as B. rewrite E, beq_refl in B. assert (X : true = false) by (apply B; [rewrite <- E; apply in_map, I|left; reflexivity]). discriminate X.
  - assert (H' : all_apart ((map tname t1 ++ [tname t]) ++ map tname t2) = true) by (rewrite <- app_assoc; exact H).
    pose proof (apart_app _ _ H' (tname t) (tname t')) as B. rewrite E, beq_refl in B. assert (X : true = false) by (apply B; [apply in_app_iff; right; left; reflexivity|rewrite <- E; apply in_map, I]). discriminate X.
Qed.
Lemma Forall2_len {A B} (R : A -> B -> Prop) l l' : Forall2 R l l' -> length l = length l'.
Proof. induction 1; cbn [length]; congruence. Qed.
Lemma Forall2_split {A B} (R : A -> B -> Prop) t1 t t2 l : Forall2 R (t1 ++ t :: t2) l -> exists a v c, l = a ++ v :: c /\ length a = length t1 /\ Forall2 R t1 a /\ R t v /\ Forall2 R t2 c.
Proof.
  intros F. apply Forall2_app_inv_l in F as (a & b & F1 & F2 & ->). inversion F2 as [|? v ? c Rv F3]; subst. exists a, v, c. split; [reflexivity|]. split; [symmetry; eapply Forall2_len; exact F1|]. auto.
Qed.
Lemma Forall2_split_at {A B} (R : A -> B -> Prop) t1 t t2 a v c : length a = length t1 -> Forall2 R (t1 ++ t :: t2) (a ++ v :: c) -> Forall2 R t1 a /\ R t v /\ Forall2 R t2 c.
Proof.
  intros L F. apply Forall2_app_inv_l in F as (a' & b & F1 & F2 & Q). assert (LA : length a' = length a) by (rewrite L; symmetry; eapply Forall2_len; exact F1).
  inversion F2 as [|? v' ? c' Rv F3]; subst. assert (a = a' /\ v :: c = v' :: c') as [-> Q'].
  { clear - LA Q. revert a' LA Q. induction a as [|x a IH]; intros [|x' a'] LA Q; cbn in LA; try discriminate LA; [split; [reflexivity|exact Q]|]. cbn [app] in Q. injection Q as -> Q. destruct (IH a' ltac:(congruence) Q) as [-> Q']. split; [reflexivity|exact Q']. }
  injection Q' as -> ->. auto.
Qed.
(** The items change in what goes into one field. *)
Lemma field_change id items items' t1 t t2 : api_fields id = t1 ++ t :: t2 -> (forall t', In t' (t1 ++ t2) -> filter (for_field t') items = filter (for_field t') items') ->
  forall a vs c vs', length a = length t1 -> comp_means id items (Sec id (a ++ vs :: c)) -> side id items' ->
    Forall2 (item_value t) (filter (for_field t) items) vs /\ (Forall2 (item_value t) (filter (for_field t) items') vs' -> comp_means id items' (Sec id (a ++ vs' :: c))).
Proof.
  intros Q S a vs c vs' L M (S1 & S2 & S3 & S4 & S5). inversion M as [? ? fs Sh Rq Op Cr Ot F]; subst. rewrite Q in F. destruct (Forall2_split_at _ _ _ _ _ _ _ L F) as (F1 & Fv & F2).
  split; [exact Fv|]. intros V. constructor; try assumption. rewrite Q. apply Forall2_app; [|constructor; [exact V|]].
  - eapply Forall2_in_imp; [|exact F1]. cbv beta. intros t' v I _ H. rewrite <- (S t') by (apply in_app_iff; left; exact I). exact H.
  - eapply Forall2_in_imp; [|exact F2]. cbv beta. intros t' v I _ H. rewrite <- (S t') by (apply in_app_iff; right; exact I). exact H.
Qed.
Lemma field_split id items t1 t t2 x : api_fields id = t1 ++ t :: t2 -> comp_means id items x -> exists a vs c, x = Sec id (a ++ vs :: c) /\ length a = length t1.
Proof.
  intros Q M. inversion M as [? ? fs _ _ _ _ _ F]; subst. rewrite Q in F. apply Forall2_split in F as (a & vs & c & -> & L & _). eauto.
Qed.

(** ** Here *)
Lemma own_lines_field pid items : length (own_lines (read_name pid) items) = length (filter (for_field (FTProp pid)) items).
Proof.
  induction items as [|i items IH]; [reflexivity|]. cbn [own_lines flat_map filter]. change (flat_map _ items) with (own_lines (read_name pid) items).
  destruct i as [l| | |]; cbn [for_field]; try exact IH. destruct (beq (upper (cl_name l)) (read_name pid)); cbn [app length]; [f_equal|]; exact IH.
Qed.
Lemma own_comps_field sid items : length (own_comps (comp_name sid) items) = length (filter (for_field (FTSec sid)) items).
Proof. reflexivity. Qed.
Lemma alarms_field items : length (alarms_in items) = length (filter (for_field FTAlarm) items).
Proof. reflexivity. Qed.
Lemma line_other id pid pre l post t1 t2 : api_fields id = t1 ++ FTProp pid :: t2 -> read_name pid = upper (cl_name l) ->
  forall t', In t' (t1 ++ t2) -> filter (for_field t') (pre ++ ILine l :: post) = filter (for_field t') (pre ++ post).
Proof.
  intros Q N t' I. rewrite !filter_app. cbn [filter]. assert (H : for_field t' (ILine l) = false); [|rewrite H; reflexivity].
  pose proof (apart _ _ _ _ _ Q I) as A. destruct t' as [pid'|sid'|]; cbn [for_field]; try reflexivity. apply beq_neq. intros E. apply A. cbn [tname]. congruence.
Qed.
Lemma line_own id pid pre l post : read_name pid = upper (cl_name l) -> is_plain l -> In (FTProp pid) (api_fields id) -> may_stand id pre l post ->
  (side id (pre ++ ILine l :: post) <-> side id (pre ++ post)).
Proof.
  intros N P IF (NR & OP & [RU1 RU2]). unfold side, rules_ok in *. rewrite !Forall_app, !Forall_cons_iff.
  assert (C : forall n, own_lines n (pre ++ ILine l :: post) = own_lines n pre ++ (if beq (upper (cl_name l)) n then [l] else []) ++ own_lines n post) by (intros n; rewrite own_lines_app; reflexivity).
  assert (C' : forall n, upper (cl_name l) <> n -> own_lines n (pre ++ ILine l :: post) = own_lines n (pre ++ post)) by (intros n X; rewrite C; apply beq_neq in X; rewrite X, own_lines_app; reflexivity).
  assert (PL : shape_ok id (ILine l)) by (constructor; exact P).
  split; intros (S1 & S2 & S3 & S4 & S5).
  - destruct (RU1 (conj S4 S5)) as [S4' S5']. split; [tauto|]. split; [|split; [|split; assumption]].
    + intros n I. rewrite <- C'; [auto|]. intros X; rewrite X in NR; contradiction.
    + intros n I. specialize (S3 n I). rewrite C, !app_length in S3. rewrite own_lines_app, app_length. lia.
  - destruct (RU2 (conj S4 S5)) as [S4' S5']. split; [tauto|]. split; [|split; [|split; assumption]].
    + intros n I. rewrite C'; [auto|]. intros X; rewrite X in NR; contradiction.
    + intros n I. destruct (beq (upper (cl_name l)) n) eqn:X; [apply beq_eq in X; subst n|apply beq_neq in X; rewrite C' by exact X; auto].
      specialize (OP I). rewrite own_lines_app in OP. apply app_eq_nil in OP as [O1 O2]. rewrite C, O1, O2. destruct (beq _ _); cbn; lia.
Qed.
Lemma here_take id pid pre l post x' : read_name pid = upper (cl_name l) -> is_plain l -> In (FTProp pid) (api_fields id) -> may_stand id pre l post ->
  comp_means id (pre ++ ILine l :: post) x' -> exists p x, line_means pid (cl_params l) (cl_value l) p /\ comp_means id (pre ++ post) x /\ put pid p (Here pre post) x x'.
Proof.
  intros N P IF MS M. apply in_split in IF as IF'. destruct IF' as (t1 & t2 & Q). destruct (field_split _ _ _ _ _ _ Q M) as (a & vs & c & -> & L).
  pose proof (line_other _ _ pre _ post _ _ Q N) as O. assert (SD : side id (pre ++ post)) by (apply (line_own id pid pre l post); try assumption; apply (means_side _ _ _ M)).
  destruct (field_change _ _ _ _ _ _ Q O a vs c [] L M SD) as [V _]. rewrite filter_app in V. cbn [filter for_field] in V. rewrite N, beq_refl in V.
  apply Forall2_app_inv_l in V as (u & w & V1 & V2 & ->). inversion V2 as [|? v ? w' Hv Hw]; subst. inversion Hv as [? ? p Mp| |]; subst.
  exists p, (Sec id (a ++ (u ++ w') :: c)). split; [exact Mp|]. split.
  - destruct (field_change _ _ _ _ _ _ Q O a (u ++ FVProp pid p :: w') c (u ++ w') L M SD) as [_ G]. apply G. rewrite filter_app. apply Forall2_app; [|exact Hw]. exact V1.
  - eapply Put_here; [exact Q|exact L|]. rewrite own_lines_field. symmetry. eapply Forall2_len. exact V1.
Qed.
Lemma Forall2_cut {A B} (R : A -> B -> Prop) l1 l2 : forall u v, length u = length l1 -> Forall2 R (l1 ++ l2) (u ++ v) -> Forall2 R l1 u /\ Forall2 R l2 v.
Proof.
  induction l1 as [|x l1 IH]; intros [|y u] v L F; cbn [length] in L; try discriminate L; [split; [constructor|exact F]|]. cbn [app] in F. inversion F; subst. destruct (IH u v) as [F1 F2]; [congruence|assumption|]. split; [constructor|]; assumption.
Qed.
Lemma here_put id pid pre l post p x x' : read_name pid = upper (cl_name l) -> is_plain l -> In (FTProp pid) (api_fields id) -> may_stand id pre l post ->
  line_means pid (cl_params l) (cl_value l) p -> comp_means id (pre ++ post) x -> put pid p (Here pre post) x x' -> comp_means id (pre ++ ILine l :: post) x'.
Proof.
  intros N P IF MS Mp M H. inversion H as [? ? id0 t1 t2 a u v c Q L LU| |]; subst. assert (id0 = id) by (inversion M; reflexivity). subst id0.
  pose proof (line_other _ _ pre _ post _ _ Q N) as O. assert (O' : forall t', In t' (t1 ++ t2) -> filter (for_field t') (pre ++ post) = filter (for_field t') (pre ++ ILine l :: post)) by (intros; symmetry; auto).
  assert (SD : side id (pre ++ ILine l :: post)) by (apply (line_own id pid pre l post); try assumption; apply (means_side _ _ _ M)).
  destruct (field_change _ _ _ _ _ _ Q O' a (u ++ v) c (u ++ FVProp pid p :: v) L M SD) as [V G]. apply G. rewrite filter_app in V |- *. cbn [filter for_field]. rewrite N, beq_refl.
  rewrite own_lines_field in LU. apply Forall2_cut in V as [V1 V2]; [|exact LU]. apply Forall2_app; [exact V1|]. constructor; [constructor; exact Mp|exact V2].
Qed.

(** ** In a component *)
Lemma child_type id w sid : In (w, sid) (children id) <-> In (FTSec sid) (api_fields id) /\ w = comp_name sid.
Proof.
  rewrite child_field, <- fields_table. split.
  - intros (fd & I & T & K). split; [rewrite <- T; apply in_map, I|]. rewrite <- K, (names_table _ _ I), T. reflexivity.
  - intros [I ->]. apply in_map_iff in I as (fd & T & I). exists fd. split; [exact I|]. split; [exact T|]. rewrite (names_table _ _ I), T. reflexivity.
Qed.
Lemma comp_other id sid pre b body body' e post t1 t2 : api_fields id = t1 ++ FTSec sid :: t2 -> upper (cl_value b) = comp_name sid ->
  forall t', In t' (t1 ++ t2) -> filter (for_field t') (pre ++ IComp b body e :: post) = filter (for_field t') (pre ++ IComp b body' e :: post).
Proof.
  intros Q N t' I. rewrite !filter_app. cbn [filter]. assert (H : forall y, for_field t' (IComp b y e) = false); [|rewrite !H; reflexivity]. intros y.
  pose proof (apart _ _ _ _ _ Q I) as A. destruct t' as [pid'|sid'|]; cbn [for_field]; try reflexivity. apply beq_neq. intros E. apply A. cbn [tname]. congruence.
Qed.
Lemma same_side id pre i i' post : match i, i' with IComp b _ _, IComp b' _ _ => b = b' | IAlarm _ _ _, IAlarm _ _ _ => True | _, _ => False end -> shape_ok id i' -> side id (pre ++ i :: post) -> side id (pre ++ i' :: post).
Proof.
  intros H Sh (S1 & S2 & S3 & S4 & S5). unfold side. rewrite Forall_app, Forall_cons_iff in S1 |- *.
  assert (O : forall n, own_lines n (pre ++ i' :: post) = own_lines n (pre ++ i :: post)) by (intros n; rewrite !own_lines_app; f_equal; destruct i, i'; try contradiction; reflexivity).
  assert (OC : forall n, length (own_comps n (pre ++ i' :: post)) = length (own_comps n (pre ++ i :: post))).
  { intros n. unfold own_comps. rewrite !filter_app, !app_length. f_equal. cbn [filter]. destruct i, i'; try contradiction; try reflexivity. subst. destruct (beq _ n); reflexivity. }
  assert (G : forall n, gives n (pre ++ i' :: post) <-> gives n (pre ++ i :: post)) by (intros n; unfold gives; rewrite O; tauto).
  split; [tauto|]. split; [intros n; rewrite O; auto|]. split; [intros n; rewrite O; auto|].
  assert (NE : forall n, own_comps n (pre ++ i :: post) <> [] -> own_comps n (pre ++ i' :: post) <> []) by (intros n X Y; specialize (OC n); rewrite Y in OC; destruct (own_comps n (pre ++ i :: post)); [congruence|discriminate OC]).
  split; destruct id; cbn [cross_ok one_of_two] in *; rewrite ?G; try exact S4; try exact S5. destruct S4 as [S4|S4]; [left|right]; apply NE, S4.
Qed.
Lemma comp_swap id pre b body body' e post sid a u x x' v c t1 t2 : api_fields id = t1 ++ FTSec sid :: t2 -> length a = length t1 -> upper (cl_value b) = comp_name sid -> length u = length (own_comps (comp_name sid) pre) ->
  Forall (shape_ok sid) body' -> (comp_means sid body x -> comp_means sid body' x') ->
  comp_means id (pre ++ IComp b body e :: post) (Sec id (a ++ (u ++ FVSec x :: v) :: c)) -> comp_means id (pre ++ IComp b body' e :: post) (Sec id (a ++ (u ++ FVSec x' :: v) :: c)).
Proof.
  intros Q L N LU SB IM M. pose proof (comp_other _ _ pre b body body' e post _ _ Q N) as O.
  assert (IC : In (upper (cl_value b), sid) (children id)) by (apply child_type; split; [rewrite Q; apply in_app_iff; right; left; reflexivity|exact N]).
  pose proof (means_side _ _ _ M) as SD. assert (SH : shape_ok id (IComp b body' e)).
  { destruct SD as [S1 _]. apply Forall_app in S1 as [_ S1]. apply Forall_cons_iff in S1 as [S1 _]. inversion S1 as [|? ? ? ? sid' B' C' G' E'| |]; subst. eapply So_comp; [exact B'|exact IC|exact SB|exact E']. }
  assert (SD' : side id (pre ++ IComp b body' e :: post)) by (eapply same_side; [|exact SH|exact SD]; reflexivity).
  destruct (field_change _ _ _ _ _ _ Q O a (u ++ FVSec x :: v) c (u ++ FVSec x' :: v) L M SD') as [V G]. apply G. rewrite filter_app in V |- *. cbn [filter for_field] in V |- *. rewrite N, beq_refl in V |- *.
  apply Forall2_cut in V as [V1 V2]; [|exact LU]. apply Forall2_app; [exact V1|]. inversion V2 as [|? ? ? ? Hv Hw]; subst. constructor; [|exact Hw]. inversion Hv; subst. constructor; auto.
Qed.
Lemma comp_split id pre b body e post sid y : In (upper (cl_value b), sid) (children id) -> comp_means id (pre ++ IComp b body e :: post) y ->
  exists t1 t2 a u x v c, api_fields id = t1 ++ FTSec sid :: t2 /\ length a = length t1 /\ upper (cl_value b) = comp_name sid /\ length u = length (own_comps (comp_name sid) pre) /\ comp_means sid body x /\ y = Sec id (a ++ (u ++ FVSec x :: v) :: c).
Proof.
  intros IC M. apply child_type in IC as [IF N]. apply in_split in IF as (t1 & t2 & Q). destruct (field_split _ _ _ _ _ _ Q M) as (a & vs & c & -> & L).
  destruct (field_change _ _ _ _ _ _ Q (fun t' _ => eq_refl) a vs c [] L M (means_side _ _ _ M)) as [V _]. rewrite filter_app in V. cbn [filter for_field] in V. rewrite N, beq_refl in V.
  apply Forall2_app_inv_l in V as (u & w & V1 & V2 & ->). inversion V2 as [|? v ? w' Hv Hw]; subst. inversion Hv as [|? ? ? ? x Mx Ve|]; subst.
  exists t1, t2, a, u, x, w', c. repeat split; try assumption. rewrite own_comps_field. symmetry. eapply Forall2_len, V1.
Qed.

(** ** In an alarm *)
Lemma plain_lines ls : flat_map ilines (map ILine ls) = ls.
Proof. induction ls as [|l ls IH]; [reflexivity|]. cbn [map flat_map ilines app]. f_equal. exact IH. Qed.
Lemma plain_items sid ls : Forall is_plain ls -> Forall (shape_ok sid) (map ILine ls).
Proof. intros F. apply Forall_map. eapply Forall_impl; [|exact F]. intros l P. constructor. exact P. Qed.
Lemma plain_sub sid ls e : forall sub e' more, Forall is_plain ls -> is_end e -> Forall (shape_ok sid) sub -> ls ++ [e] = flat_map ilines sub ++ e' :: more -> is_end e' -> sub = map ILine ls /\ e' = e /\ more = [].
Proof.
  induction ls as [|l ls IH]; intros sub e' more P E Sh Q E'.
  - destruct sub as [|i sub]; [cbn in Q; injection Q as <- <-; auto|]. exfalso. apply Forall_cons_iff in Sh as [Sh _]. cbn [flat_map app] in Q.
    assert (exists l0 r, ilines i = l0 :: r /\ ~ is_end l0) as (l0 & r & Qi & NE).
    { destruct Sh as [? l [_ P']|? b ? ? ? B|? b ? ? B|? b ? ? B]; cbn [ilines]; do 2 eexists; (split; [reflexivity|]); try exact P'; intros X; unfold is_begin, is_end, line_is in *; rewrite B in X; discriminate X. }
    rewrite Qi in Q. cbn [app] in Q. injection Q as <- _. contradiction.
  - apply Forall_cons_iff in P as [P F]. destruct sub as [|i sub]; [cbn in Q; injection Q as <- _; destruct P as [_ P]; contradiction|]. apply Forall_cons_iff in Sh as [Sh S2]. cbn [flat_map] in Q.
    destruct Sh as [? m Pm|? b ? ? ? B|? b ? ? B|? b ? ? B]; cbn [ilines app] in Q; injection Q as -> Q; try (destruct P as [P _]; contradiction).
    destruct (IH _ _ _ F E S2 Q E') as (-> & -> & ->). auto.
Qed.
Lemma alarm_value b ls e sid v : alarm_kind ls sid -> Forall is_plain ls -> is_end e ->
  (item_value FTAlarm (IAlarm b ls e) v <-> exists x, v = FVAlarm (Some x) /\ comp_means sid (map ILine ls) x /\ cl_value e = bs "VALARM").
Proof.
  intros K P E. split.
  - intros H. inversion H as [| |? ? ? sid' sub x AC VE M]; subst. exists x. split; [reflexivity|].
    assert (sid' = sid). { destruct K as (us & w & A & _ & Aw). destruct AC as [(us' & w' & A' & _ & Aw') _]. rewrite A in A'. apply app_inj_tail in A' as [_ <-]. eapply action_one; eassumption. }
    subst sid'. destruct AC as (_ & Sh & e' & more & Q & E'). destruct (plain_sub _ _ _ _ _ _ P E Sh Q E') as (-> & -> & ->). split; [exact M|]. exact (VE _ _ Q).
  - intros (x & -> & M & V). apply (IV_alarm _ _ _ sid (map ILine ls)); [|intros e' more Q; rewrite plain_lines in Q; apply app_inv_head in Q; injection Q as <- _; exact V|exact M].
    split; [exact K|]. split; [apply plain_items, P|]. exists e, []. rewrite plain_lines. auto.
Qed.
Lemma alarm_other id pre b ls ls' e post t1 t2 : api_fields id = t1 ++ FTAlarm :: t2 ->
  forall t', In t' (t1 ++ t2) -> filter (for_field t') (pre ++ IAlarm b ls e :: post) = filter (for_field t') (pre ++ IAlarm b ls' e :: post).
Proof.
  intros Q t' I. rewrite !filter_app. cbn [filter]. assert (H : forall y, for_field t' (IAlarm b y e) = false); [|rewrite !H; reflexivity]. intros y.
  pose proof (apart _ _ _ _ _ Q I) as A. destruct t' as [pid'|sid'|]; cbn [for_field]; try reflexivity. destruct A. reflexivity.
Qed.
Lemma alarm_field id : has_alarms id = true <-> In FTAlarm (api_fields id).
Proof.
  split; [destruct id; try discriminate; intros _; cbn [api_fields]; apply in_app_iff; right; left; reflexivity|].
  intros I. assert (H : existsb (fun t => match t with FTAlarm => true | _ => false end) (api_fields id) = true) by (apply existsb_exists; exists FTAlarm; auto). destruct id; vm_compute in H; (reflexivity || discriminate H).
Qed.
Lemma alarm_swap id pre b ls ls' e post sid sid' a u x x' v c t1 t2 : api_fields id = t1 ++ FTAlarm :: t2 -> length a = length t1 -> length u = length (alarms_in pre) ->
  alarm_kind ls sid -> Forall is_plain ls -> alarm_kind ls' sid' -> Forall is_plain ls' -> is_end e -> Forall (fun l => cl_name l <> bs "BEGIN" /\ cl_name l <> bs "END") ls' ->
  (comp_means sid (map ILine ls) x -> comp_means sid' (map ILine ls') x') ->
  comp_means id (pre ++ IAlarm b ls e :: post) (Sec id (a ++ (u ++ FVAlarm (Some x) :: v) :: c)) -> comp_means id (pre ++ IAlarm b ls' e :: post) (Sec id (a ++ (u ++ FVAlarm (Some x') :: v) :: c)).
Proof.
  intros Q L LU K P K' P' E NB IM M. pose proof (alarm_other id pre b ls ls' e post _ _ Q) as O.
  pose proof (means_side _ _ _ M) as SD. assert (SH : shape_ok id (IAlarm b ls' e)).
  { destruct SD as [S1 _]. apply Forall_app in S1 as [_ S1]. apply Forall_cons_iff in S1 as [S1 _]. inversion S1; subst. constructor; assumption. }
  assert (SD' : side id (pre ++ IAlarm b ls' e :: post)) by (eapply same_side; [|exact SH|exact SD]; exact Logic.I).
  destruct (field_change _ _ _ _ _ _ Q O a (u ++ FVAlarm (Some x) :: v) c (u ++ FVAlarm (Some x') :: v) L M SD') as [V G]. apply G. rewrite filter_app in V |- *. cbn [filter for_field] in V |- *.
  rewrite alarms_field in LU. apply Forall2_cut in V as [V1 V2]; [|exact LU]. apply Forall2_app; [exact V1|]. inversion V2 as [|? ? ? ? Hv Hw]; subst. constructor; [|exact Hw].
  apply (alarm_value b ls e sid) in Hv as (x0 & Q0 & Mx & VE); try assumption. injection Q0 as <-. apply (alarm_value b ls' e sid'); try assumption. eauto.
Qed.
Lemma alarm_split id pre b ls e post sid y : has_alarms id = true -> alarm_kind ls sid -> Forall is_plain ls -> is_end e -> comp_means id (pre ++ IAlarm b ls e :: post) y ->
  exists t1 t2 a u x v c, api_fields id = t1 ++ FTAlarm :: t2 /\ length a = length t1 /\ length u = length (alarms_in pre) /\ comp_means sid (map ILine ls) x /\ y = Sec id (a ++ (u ++ FVAlarm (Some x) :: v) :: c).
Proof.
  intros HA K P E M. apply alarm_field in HA. apply in_split in HA as (t1 & t2 & Q). destruct (field_split _ _ _ _ _ _ Q M) as (a & vs & c & -> & L).
  destruct (field_change _ _ _ _ _ _ Q (fun t' _ => eq_refl) a vs c [] L M (means_side _ _ _ M)) as [V _]. rewrite filter_app in V. cbn [filter for_field] in V.
  apply Forall2_app_inv_l in V as (u & w & V1 & V2 & ->). inversion V2 as [|? v ? w' Hv Hw]; subst. apply (alarm_value b ls e sid) in Hv as (x & -> & Mx & VE); try assumption.
  exists t1, t2, a, u, x, w', c. repeat split; try assumption. rewrite alarms_field. symmetry. eapply Forall2_len, V1.
Qed.

(** ** Any place *)
Lemma kind_without ls l ls' sid : cl_name l <> bs "ACTION" -> (alarm_kind (ls ++ l :: ls') sid <-> alarm_kind (ls ++ ls') sid).
Proof.
  intros N. unfold alarm_kind, values_named. assert (Q : map cl_value (filter (fun l0 => beq (cl_name l0) (bs "ACTION")) (ls ++ l :: ls')) = map cl_value (filter (fun l0 => beq (cl_name l0) (bs "ACTION")) (ls ++ ls'))).
  { rewrite !filter_app. cbn [filter]. apply beq_neq in N. rewrite N. reflexivity. }
  rewrite Q. tauto.
Qed.
Lemma action_table : forallb (fun id => forallb (fun t => match t with FTProp pid => negb (beq (read_name pid) (bs "ACTION")) | _ => true end) (api_fields id)) all_secs = true.
Proof. vm_compute. reflexivity. Qed.
Lemma no_action id pid l : In (FTProp pid) (api_fields id) -> read_name pid = upper (cl_name l) -> cl_name l <> bs "ACTION".
Proof.
  intros IF N Q. rewrite Q in N. change (upper (bs "ACTION")) with (bs "ACTION") in N. pose proof action_table as H. rewrite forallb_forall in H. assert (IA : In id all_secs) by (destruct id; cbn; tauto).
  specialize (H _ IA). cbv beta in H. rewrite forallb_forall in H. specialize (H _ IF). cbv beta iota in H. rewrite N in H. discriminate H.
Qed.
Lemma plain_exact l : is_plain l -> cl_name l <> bs "BEGIN" /\ cl_name l <> bs "END".
Proof. intros [P1 P2]. split; intros Q; [apply P1|apply P2]; unfold is_begin, is_end, line_is; rewrite Q; reflexivity. Qed.
Lemma fill_shape q l : forall id id' pre post, leads id q id' pre post -> Forall (shape_ok id) (fill q (Some l)) -> Forall (shape_ok id) (fill q None).
Proof.
  induction q as [p0 q0|p0 b q IH e q0|p0 b ls ls' e q0]; intros id id' pre post Ld F; cbn [fill] in *; rewrite !Forall_app in F |- *.
  - destruct F as (F1 & _ & F3). split; [exact F1|]. split; [constructor|exact F3].
  - rewrite !Forall_cons_iff in F |- *. destruct F as (F1 & F2 & F3). split; [exact F1|]. split; [|exact F3]. inversion Ld as [|? ? ? ? ? ? sid ? ? ? IC Ld'|]; subst.
    inversion F2 as [|? ? ? ? sid' B' C' G' E'| |]; subst. assert (sid' = sid) by (eapply children_one; eassumption). subst sid'. eapply So_comp; eauto.
  - rewrite !Forall_cons_iff in F |- *. destruct F as (F1 & F2 & F3). split; [exact F1|]. split; [|exact F3]. inversion F2; subst. constructor; try assumption.
    cbn [app] in *. match goal with H : Forall _ (ls ++ _) |- _ => rewrite Forall_app, Forall_cons_iff in H; rewrite Forall_app; tauto end.
Qed.
Theorem place_take q l pid : is_plain l -> read_name pid = upper (cl_name l) -> forall id id' pre post x', leads id q id' pre post -> In (FTProp pid) (api_fields id') -> may_stand id' pre l post ->
  comp_means id (fill q (Some l)) x' -> exists p x, line_means pid (cl_params l) (cl_value l) p /\ comp_means id (fill q None) x /\ put pid p q x x'.
Proof.
  intros P N. induction q as [p0 q0|p0 b q IH e q0|p0 b ls ls' e q0]; intros id id' pre post x' Ld IF MS M; pose proof (means_side _ _ _ M) as [SH _]; pose proof (fill_shape _ _ _ _ _ _ Ld SH) as SH'; inversion Ld as [|? ? ? ? ? ? sid ? ? ? IC Ld'|? ? ? ? ? ? ? sid HA K PL E]; subst; cbn [fill] in *.
  - cbn [app] in *. eapply here_take; eassumption.
  - destruct (comp_split _ _ _ _ _ _ _ _ IC M) as (t1 & t2 & a & u & y & v & c & Q & L & NB & LU & My & ->).
    destruct (IH _ _ _ _ _ Ld' IF MS My) as (p & x & Mp & Mx & PT). exists p, (Sec id (a ++ (u ++ FVSec x :: v) :: c)). split; [exact Mp|]. split; [|eapply Put_comp; eassumption].
    eapply comp_swap; [exact Q|exact L|exact NB|exact LU|apply (means_side _ _ _ Mx)| |exact M]. intros _. exact Mx.
  - cbn [app] in *. assert (NA : cl_name l <> bs "ACTION") by (eapply no_action; eassumption). assert (K' : alarm_kind (ls ++ l :: ls') id') by (apply kind_without; assumption).
    assert (PL' : Forall is_plain (ls ++ l :: ls')) by (rewrite !Forall_app, ?Forall_cons_iff in *; tauto).
    destruct (alarm_split _ _ _ _ _ _ _ _ HA K' PL' E M) as (t1 & t2 & a & u & y & v & c & Q & L & LU & My & ->). rewrite map_app in My. cbn [map] in My.
    destruct (here_take _ _ _ _ _ _ N P IF MS My) as (p & x & Mp & Mx & PT). exists p, (Sec id (a ++ (u ++ FVAlarm (Some x) :: v) :: c)). split; [exact Mp|]. split; [|eapply Put_alarm; eassumption].
    eapply (alarm_swap id _ _ _ _ _ _ id' id'); [exact Q|exact L|exact LU|exact K'|exact PL'|exact K|exact PL|exact E| | |exact M].
    + eapply Forall_impl; [|exact PL]. apply plain_exact.
    + intros _. rewrite map_app. exact Mx.
Qed.
Theorem place_put q l pid p : is_plain l -> read_name pid = upper (cl_name l) -> line_means pid (cl_params l) (cl_value l) p -> forall id id' pre post x x', leads id q id' pre post -> In (FTProp pid) (api_fields id') -> may_stand id' pre l post ->
  comp_means id (fill q None) x -> put pid p q x x' -> comp_means id (fill q (Some l)) x'.
Proof.
  intros P N Mp. induction q as [p0 q0|p0 b q IH e q0|p0 b ls ls' e q0]; intros id id' pre post x x' Ld IF MS M PT; inversion Ld as [|? ? ? ? ? ? sid ? ? ? IC Ld'|? ? ? ? ? ? ? sid HA K PL E]; subst; cbn [fill] in *.
  - cbn [app] in *. eapply here_put; eassumption.
  - inversion PT as [|? ? ? ? ? id0 t1 sid0 t2 a u y y' v c Q L NB LU PT'|]; subst. assert (id0 = id) by (inversion M; reflexivity). subst id0.
    assert (sid0 = sid). { eapply children_one; [|exact IC]. apply child_type. split; [rewrite Q; apply in_app_iff; right; left; reflexivity|exact NB]. } subst sid0.
    assert (My : comp_means sid (fill q None) y).
    { destruct (field_change _ _ _ _ _ _ Q (fun t' _ => eq_refl) a _ c [] L M (means_side _ _ _ M)) as [V _]. rewrite filter_app in V. cbn [filter for_field] in V. rewrite NB, beq_refl in V.
      apply Forall2_cut in V as [_ V2]; [|exact LU]. inversion V2 as [|? ? ? ? Hv _]; subst. inversion Hv; subst. assumption. }
    pose proof (IH _ _ _ _ _ _ Ld' IF MS My PT') as My'. eapply comp_swap; [exact Q|exact L|exact NB|exact LU|apply (means_side _ _ _ My')| |exact M]. intros _. exact My'.
  - cbn [app] in *. inversion PT as [| |? ? ? ? ? ? id0 t1 t2 a u y y' v c Q L LU PT']; subst. assert (id0 = id) by (inversion M; reflexivity). subst id0.
    assert (NA : cl_name l <> bs "ACTION") by (eapply no_action; eassumption). assert (K' : alarm_kind (ls ++ l :: ls') id') by (apply kind_without; assumption).
    assert (PL' : Forall is_plain (ls ++ l :: ls')) by (rewrite !Forall_app, ?Forall_cons_iff in *; tauto).
    eapply (alarm_swap id _ _ _ _ _ _ id' id'); [exact Q|exact L|exact LU|exact K|exact PL|exact K'|exact PL'|exact E| | |exact M].
    + eapply Forall_impl; [|exact PL']. apply plain_exact.
    + intros My. rewrite map_app in My |- *. cbn [map]. eapply here_put; eassumption.
Qed.
Lemma fill_lines q l : forall (Q : cline -> Prop), Forall Q (flat_map ilines (fill q (Some l))) -> Forall Q (flat_map ilines (fill q None)).
Proof.
  intros Q. induction q as [p0 q0|p0 b q IH e q0|p0 b ls ls' e q0]; cbn [fill]; rewrite !flat_map_app; cbn [flat_map ilines app]; rewrite ?flat_map_app; rewrite ?Forall_app; cbn [app]; rewrite ?Forall_cons_iff, ?Forall_app; cbn [app]; rewrite ?Forall_cons_iff, ?Forall_app; tauto.
Qed.
Theorem decode_place b q l e tail id pre post pid cal : framed b (fill q (Some l)) e -> rest_ok tail -> leads SCalendar q id pre post -> is_plain l ->
  In (FTProp pid) (api_fields id) -> read_name pid = upper (cl_name l) -> may_stand id pre l post ->
  framed b (fill q None) e /\
  (decode_bytes (frame_text b (fill q (Some l)) e ++ tail) = Ok cal <->
   exists p cal0, line_means pid (cl_params l) (cl_value l) p /\ decode_bytes (frame_text b (fill q None) e ++ tail) = Ok cal0 /\ put pid p q cal0 cal).
Proof.
  intros F T Ld P IF N MS. assert (F' : framed b (fill q None) e).
  { destruct F as (B & V & Sh & E & W). split; [exact B|]. split; [exact V|]. split; [eapply fill_shape; eassumption|]. split; [exact E|]. rewrite Forall_cons_iff, Forall_app in W |- *. destruct W as (W1 & W2 & W3). split; [exact W1|]. split; [|exact W3]. eapply fill_lines; exact W2. }
  split; [exact F'|]. rewrite (decode_frame _ _ _ _ _ F T). split.
  - intros [M V]. apply means_exact in M. destruct (place_take q l pid P N _ _ _ _ _ Ld IF MS M) as (p & x & Mp & Mx & PT). exists p, x. split; [exact Mp|]. split; [|exact PT]. apply (decode_frame _ _ _ _ _ F' T). split; [apply means_exact; exact Mx|exact V].
  - intros (p & x & Mp & D & PT). apply (decode_frame _ _ _ _ _ F' T) in D as [M V]. apply means_exact in M. split; [apply means_exact; eapply place_put; eassumption|exact V].
Qed.
End Place.
