(** The rules hold in every component of a text that decodes. *)
From Coq Require Import String Ascii ZArith Bool List Lia.
From Verif Require Import Base Lib Strtok Tokeniser SpecContent TokeniserProofs GoTime Types Params ParamTable PropTable Props SecTable Sections Codec SpecTree TreeProofs ExactProofs SpecRules ShapeProofs.
Import ListNotations.

Section Rules.
Context {env : Env}.

Lemma action_one w a b : action_is w a -> action_is w b -> a = b.
Proof. intros A B. apply action_spec in A, B. congruence. Qed.

Lemma alarm_content_means b body e v sid sub : item_means FTAlarm (IAlarm b body e) v -> alarm_content body e sid sub -> exists y, v = FVAlarm (Some y) /\ means sid sub y.
Proof.
  intros IM ((us & w & A & Fu & Aw) & Sh & e' & more & Q & E'). inversion IM as [| |? ? ? us0 w0 sid0 sub0 e0 more0 y Fb Ne A0 Fu0 Aw0 Q0 E0 V0 M0]; subst.
  rewrite A in A0. apply app_inj_tail in A0 as [<- <-]. rewrite <- (action_one _ _ _ Aw Aw0) in *. rewrite Q0 in Q. cbn [app] in Q.
  assert (Sh0 : Forall (shape_ok sid) sub0) by (eapply means_shape; eauto).
  destruct (shape_unique _ sid sub0 sub _ _ _ _ (le_n _) Sh0 Sh E0 E' Q) as (<- & _ & _). eauto.
Qed.

Lemma inside_means id items sid sub : inside id items sid sub -> forall x, means id items x -> exists y, means sid sub y.
Proof.
  induction 1 as [id items|id items b body e sid id' sub I C H IH|id items b body e sid sub I AC]; intros x M; [eauto| |].
  - apply child_field in C as (fd & If & T & K). destruct (means_holds _ _ _ _ M If) as (vs & Ho & _).
    assert (Be : belongs fd (IComp b body e)) by (cbn [belongs]; rewrite T; auto). destruct (holds_item _ _ _ Ho _ I Be) as (v & IM). rewrite T in IM.
    inversion IM; subst. eauto.
  - destruct M as [id items fs F L H X]. rewrite Forall_forall in F. pose proof (F _ I) as OK. cbn [item_ok] in OK. destruct OK as (B & fd & If & T & Be).
    apply In_nth_error in If as [i N]. destruct (H i fd N) as [Ho _]. destruct (holds_item _ _ _ Ho _ I Be) as (v & IM). rewrite T in IM.
    destruct (alarm_content_means _ _ _ _ _ _ IM AC) as (y & _ & M). eauto.
Qed.

(** ** Counting *)
Lemma holds_lines : forall fd items vs, holds fd items vs -> forall pid, fd_type fd = FTProp pid -> length vs = length (own_lines (fd_key fd) items).
Proof.
  assert (OWN : forall fd pid i, fd_type fd = FTProp pid -> (belongs fd i <-> exists l, i = ILine l /\ upper (cl_name l) = fd_key fd)).
  { intros fd pid i T. destruct i; cbn [belongs]; try rewrite T; (split; [intros H|intros (l0 & Q & H); try discriminate Q]).
    - eexists. split; [reflexivity|exact H]. - injection Q as ->. exact H. - destruct H. - destruct H. - destruct H. }
  induction 1 as [fd|fd i items vs NB H IH|fd i items v vs B M H IH]; intros pid T; [reflexivity| |]; specialize (IH pid T); unfold own_lines in *; cbn [flat_map length]; rewrite app_length, IH.
  - destruct i as [l|? ? ?|? ? ?|? ? ?]; try reflexivity. destruct (beq (upper (cl_name l)) (fd_key fd)) eqn:E; [|reflexivity].
    apply beq_eq in E. destruct NB. apply (OWN fd pid _ T). eauto.
  - apply (OWN fd pid _ T) in B as (l & -> & E). rewrite E, beq_refl. reflexivity.
Qed.
Lemma holds_comps : forall fd items vs, holds fd items vs -> forall sid, fd_type fd = FTSec sid -> length vs = length (own_comps (fd_key fd) items).
Proof.
  induction 1 as [fd|fd i items vs NB H IH|fd i items v vs B M H IH]; intros sid T; [reflexivity| |]; cbn [own_comps filter]; specialize (IH sid T); unfold own_comps in IH.
  - destruct i as [l|b ? ?|? ? ?|? ? ?]; try assumption. destruct (beq (upper (cl_value b)) (fd_key fd)) eqn:E; [|exact IH].
    apply beq_eq in E. destruct NB. cbn [belongs]. rewrite T. exact E.
  - destruct i as [l|b ? ?|? ? ?|? ? ?]; cbn [belongs] in B; try rewrite T in B; try contradiction. rewrite B, beq_refl. cbn [length]. congruence.
Qed.

Definition mode_names (m : fmode) (id : secid) : list bytes := flat_map (fun f => match fd_type f, fd_mode f, m with
  | FTProp _, FReq, FReq | FTProp _, FOpt, FOpt | FTProp _, FMany, FMany => [fd_key f] | _, _, _ => [] end) (fields_of id).
Definition sub_list (a b : list bytes) : bool := forallb (fun x => existsb (beq x) b) a.
Lemma rules_tables : forallb (fun id =>
  sub_list (required id) (mode_names FReq id) && sub_list (mode_names FReq id) (required id) &&
  (sub_list (optional id) (mode_names FOpt id) && sub_list (mode_names FOpt id) (optional id)) &&
  (sub_list (repeated id) (mode_names FMany id) && sub_list (mode_names FMany id) (repeated id))) all_secs = true.
Proof. vm_compute. reflexivity. Qed.
Lemma sub_list_in a b x : sub_list a b = true -> In x a -> In x b.
Proof. unfold sub_list. rewrite forallb_forall. intros H I. apply H in I. apply existsb_exists in I as (y & J & E). apply beq_eq in E. subst. exact J. Qed.
Lemma rules_table id : (forall n, In n (required id) <-> In n (mode_names FReq id)) /\ (forall n, In n (optional id) <-> In n (mode_names FOpt id)) /\
  (forall n, In n (repeated id) <-> In n (mode_names FMany id)).
Proof.
  pose proof rules_tables as T. rewrite forallb_forall in T. specialize (T id (all_secs_in id)). cbv beta in T. rewrite !andb_true_iff in T.
  destruct T as [[[A B] [C D]] [E F]]. repeat split; intros; eauto using sub_list_in.
Qed.
Lemma mode_name m id n : In n (mode_names m id) <-> exists fd pid, In fd (fields_of id) /\ fd_type fd = FTProp pid /\ fd_mode fd = m /\ fd_key fd = n.
Proof.
  unfold mode_names. rewrite in_flat_map. split.
  - intros (fd & I & H). destruct (fd_type fd) as [pid| |] eqn:T; [|destruct H|destruct H]. exists fd, pid. destruct (fd_mode fd), m; cbn [In] in H; try contradiction; destruct H as [H|[]]; auto.
  - intros (fd & pid & I & T & M & K). exists fd. split; [exact I|]. rewrite T, M. destruct m; left; exact K.
Qed.

Lemma means_required id items x n : means id items x -> In n (required id) -> length (own_lines n items) = 1.
Proof.
  intros M I. apply (proj1 (rules_table id)) in I. apply mode_name in I as (fd & pid & If & T & Md & <-). destruct (means_holds _ _ _ _ M If) as (vs & Ho & C).
  rewrite <- (holds_lines _ _ _ Ho pid T). rewrite Md in C. exact C.
Qed.
Lemma means_optional id items x n : means id items x -> In n (optional id) -> length (own_lines n items) <= 1.
Proof.
  intros M I. apply (proj1 (proj2 (rules_table id))) in I. apply mode_name in I as (fd & pid & If & T & Md & <-). destruct (means_holds _ _ _ _ M If) as (vs & Ho & C).
  rewrite <- (holds_lines _ _ _ Ho pid T). rewrite Md in C. exact C.
Qed.

(** ** Rules between properties *)
Lemma means_extra id items x : means id items x -> exists has, Forall (extra_ok has) (sp_reqs (sec_spec id)) /\
  (forall i fd pid, nth_error (fields_of id) i = Some fd -> fd_type fd = FTProp pid -> (has i = true <-> own_lines (fd_key fd) items <> [])) /\
  (forall i fd sid, nth_error (fields_of id) i = Some fd -> fd_type fd = FTSec sid -> (has i = true <-> own_comps (fd_key fd) items <> [])).
Proof.
  intros M. destruct M as [id items fs F L H X]. exists (present fs). split; [exact X|].
  split; [intros i fd pid N T|intros i fd sid N T]; destruct (H i fd N) as [Ho _]; unfold present.
  - pose proof (holds_lines _ _ _ Ho pid T) as Q. destruct (nth i fs []); destruct (own_lines (fd_key fd) items); cbn [length] in Q; try discriminate Q; split; congruence.
  - pose proof (holds_comps _ _ _ Ho sid T) as Q. destruct (nth i fs []); destruct (own_comps (fd_key fd) items); cbn [length] in Q; try discriminate Q; split; congruence.
Qed.

Lemma means_cross id items x : means id items x -> cross_ok id items.
Proof.
  intros M. apply means_extra in M as (has & X & HP & HS). unfold gives.
  destruct id; cbn [cross_ok]; try exact Logic.I; cbn [sec_spec sp_reqs] in X; unfold gives.
  - inversion X as [|? ? X1 _]; subst. cbn [extra_ok] in X1. pose proof (HP 18 _ _ eq_refl eq_refl) as A. pose proof (HP 19 _ _ eq_refl eq_refl) as B. cbn [fd_key] in A, B.
    intros [Ga Gb]. apply A in Ga. apply B in Gb. destruct X1; congruence.
  - inversion X as [|? ? X1 X']; subst. inversion X' as [|? ? X2 _]; subst. cbn [extra_ok] in X1, X2.
    pose proof (HP 18 _ _ eq_refl eq_refl) as A. pose proof (HP 19 _ _ eq_refl eq_refl) as B. pose proof (HP 6 _ _ eq_refl eq_refl) as C. cbn [fd_key] in A, B, C.
    split; [intros [Ga Gb]; apply A in Ga; apply B in Gb; destruct X2; congruence|]. intros G. apply C, X1, B, G.
  - inversion X as [|? ? X1 _]; subst. cbn [extra_ok] in X1. pose proof (HS 3 _ _ eq_refl eq_refl) as A. pose proof (HS 4 _ _ eq_refl eq_refl) as B. cbn [fd_key] in A, B.
    destruct X1 as [H|H]; [left; apply A, H|right; apply B, H].
  - inversion X as [|? ? X1 _]; subst. pose proof (HP 10 _ _ eq_refl eq_refl) as A. pose proof (HP 9 _ _ eq_refl eq_refl) as B. cbn [fd_key] in A, B. intros G. apply B, X1, A, G.
  - inversion X as [|? ? X1 _]; subst. pose proof (HP 10 _ _ eq_refl eq_refl) as A. pose proof (HP 9 _ _ eq_refl eq_refl) as B. cbn [fd_key] in A, B. intros G. apply B, X1, A, G.
  - inversion X as [|? ? X1 _]; subst. pose proof (HP 12 _ _ eq_refl eq_refl) as A. pose proof (HP 11 _ _ eq_refl eq_refl) as B. cbn [fd_key] in A, B. intros G. apply B, X1, A, G.
  - inversion X as [|? ? X1 _]; subst. pose proof (HP 9 _ _ eq_refl eq_refl) as A. pose proof (HP 8 _ _ eq_refl eq_refl) as B. cbn [fd_key] in A, B. intros G. apply B, X1, A, G.
Qed.

Lemma means_repeat id items x : id = SAlarmEmail \/ id = SAlarmURI -> means id items x -> (gives "DURATION" items <-> ~ gives "REPEAT" items).
Proof.
  intros Hid M. apply means_extra in M as (has & X & HP & _). unfold gives.
  destruct Hid as [-> | ->]; cbn [sec_spec sp_reqs] in X; inversion X as [|? ? _ X']; subst; inversion X' as [|? ? X2 _]; subst; cbn [extra_ok] in X2.
  - pose proof (HP 4 _ _ eq_refl eq_refl) as A. pose proof (HP 5 _ _ eq_refl eq_refl) as B. cbn [fd_key] in A, B. rewrite <- A, <- B, X2. destruct (has 5); cbn [negb]; split; intros; congruence.
  - pose proof (HP 1 _ _ eq_refl eq_refl) as A. pose proof (HP 2 _ _ eq_refl eq_refl) as B. cbn [fd_key] in A, B. rewrite <- A, <- B, X2. destruct (has 2); cbn [negb]; split; intros; congruence.
Qed.

(** ** On texts *)
Lemma decoded_means b items e tail cal id sub : framed b items e -> rest_ok tail -> decode_bytes (frame_text b items e ++ tail) = Ok cal -> inside SCalendar items id sub ->
  exists y, means id sub y.
Proof. intros F T D I. apply decode_frame in D as [M _]; [|assumption|assumption]. eapply inside_means; eauto. Qed.

Lemma decoded_required b items e tail cal id sub n : framed b items e -> rest_ok tail -> decode_bytes (frame_text b items e ++ tail) = Ok cal ->
  inside SCalendar items id sub -> In n (required id) -> length (own_lines n sub) = 1.
Proof. intros F T D I. destruct (decoded_means _ _ _ _ _ _ _ F T D I) as [y M]. eapply means_required; eauto. Qed.
Lemma decoded_optional b items e tail cal id sub n : framed b items e -> rest_ok tail -> decode_bytes (frame_text b items e ++ tail) = Ok cal ->
  inside SCalendar items id sub -> In n (optional id) -> length (own_lines n sub) <= 1.
Proof. intros F T D I. destruct (decoded_means _ _ _ _ _ _ _ F T D I) as [y M]. eapply means_optional; eauto. Qed.
Lemma decoded_cross b items e tail cal id sub : framed b items e -> rest_ok tail -> decode_bytes (frame_text b items e ++ tail) = Ok cal ->
  inside SCalendar items id sub -> cross_ok id sub.
Proof. intros F T D I. destruct (decoded_means _ _ _ _ _ _ _ F T D I) as [y M]. eapply means_cross; eauto. Qed.
Lemma decoded_repeat b items e tail cal id sub : framed b items e -> rest_ok tail -> decode_bytes (frame_text b items e ++ tail) = Ok cal ->
  inside SCalendar items id sub -> id = SAlarmEmail \/ id = SAlarmURI -> (gives "DURATION" sub <-> ~ gives "REPEAT" sub).
Proof. intros F T D I. destruct (decoded_means _ _ _ _ _ _ _ F T D I) as [y M]. intros. eapply means_repeat; eauto. Qed.

(** ** On calendars *)
Lemma holds_value : forall fd items vs, holds fd items vs -> forall v, In v vs -> exists i, item_means (fd_type fd) i v.
Proof. induction 1 as [fd|fd i items vs NB H IH|fd i items v vs B M H IH]; intros v0 I; [destruct I|auto|]. destruct I as [<-|I]; eauto. Qed.
Lemma part_means y x : part_of y x -> forall id items, means id items x -> exists id' items', means id' items' y.
Proof.
  assert (GET : forall id items id' fs vs v, means id items (Sec id' fs) -> In vs fs -> In v vs -> exists t i, item_means t i v).
  { intros id items id' fs vs v M I Iv. inversion M as [? ? ? F L H X]; subst. destruct (In_nth _ _ [] I) as (i & Li & E). rewrite L in Li.
    destruct (nth_error (fields_of id') i) as [fd|] eqn:N; [|apply nth_error_None in N; lia]. destruct (H i fd N) as [Ho _]. rewrite E in Ho.
    destruct (holds_value _ _ _ Ho v Iv) as (it & IM). eauto. }
  induction 1 as [x|y x id0 fs vs I Iv P IH|y x id0 fs vs I Iv P IH]; intros id items M; [eauto| |].
  - destruct (GET _ _ _ _ _ _ M I Iv) as (t & i & IM). inversion IM; subst. eauto.
  - destruct (GET _ _ _ _ _ _ M I Iv) as (t & i & IM). inversion IM; subst. eauto.
Qed.
Lemma held_nth : forall l fs i fd, length fs = length l -> nth_error l i = Some fd -> (forall j g, nth_error l j = Some g -> fd_key g = fd_key fd -> j = i) ->
  flat_map (fun p => if beq (fd_key (fst p)) (fd_key fd) then snd p else []) (combine l fs) = nth i fs ([] : list fval).
Proof.
  assert (NONE : forall l k (fs : list (list fval)), (forall g, In g l -> fd_key g <> k) -> flat_map (fun p => if beq (fd_key (fst p)) k then snd p else []) (combine l fs) = []).
  { induction l as [|g l IH]; intros k [|v fs] H; cbn [combine flat_map]; try reflexivity. cbn [fst]. assert (N : fd_key g <> k) by (apply H; left; reflexivity). apply beq_neq in N. rewrite N. cbn [app].
    apply IH. intros. apply H. right. assumption. }
  induction l as [|g l IH]; intros fs i fd L N U; [destruct i; discriminate|]. destruct fs as [|v fs]; [discriminate|]. cbn [combine flat_map fst snd]. destruct i as [|i]; cbn [nth_error nth] in *.
  - injection N as ->. rewrite beq_refl. rewrite NONE; [apply app_nil_r|]. intros h I K. apply In_nth_error in I as [j J]. specialize (U (S j) h J K). discriminate.
  - destruct (beq (fd_key g) (fd_key fd)) eqn:E; [apply beq_eq in E; specialize (U 0 g eq_refl E); discriminate|]. cbn [app]. apply IH; [injection L as L; exact L|exact N|].
    intros j h J K. specialize (U (S j) h J K). injection U as U. exact U.
Qed.
Lemma keys_distinct : forallb (fun id => (fix d l := match l with [] => true | x :: l' => negb (existsb (beq x) l') && d l' end) (map fd_key (fields_of id))) all_secs = true.
Proof. vm_compute. reflexivity. Qed.
Lemma distinct_keys l : (fix d l := match l with [] => true | x :: l' => negb (existsb (beq x) l') && d l' end) l = true -> NoDup l.
Proof.
  induction l as [|x l IH]; intros H; [constructor|]. apply andb_true_iff in H as [H1 H2]. apply negb_true_iff in H1. constructor; [|auto].
  intros I. assert (T : existsb (beq x) l = true) by (apply existsb_exists; exists x; split; [exact I|apply beq_refl]). congruence.
Qed.
Lemma key_one id i j f g : nth_error (fields_of id) i = Some f -> nth_error (fields_of id) j = Some g -> fd_key g = fd_key f -> j = i.
Proof.
  intros F G K. pose proof keys_distinct as T. rewrite forallb_forall in T. specialize (T id (all_secs_in id)). cbv beta in T. apply distinct_keys in T.
  pose proof (proj1 (NoDup_nth_error (map fd_key (fields_of id))) T) as T'. apply T'.
  - rewrite map_length. apply nth_error_Some. congruence.
  - rewrite !nth_error_map, F, G. cbn [option_map]. congruence.
Qed.
Lemma held_field id fs i fd : length fs = length (fields_of id) -> nth_error (fields_of id) i = Some fd -> held (fd_key fd) (Sec id fs) = nth i fs [].
Proof. intros L N. unfold held. cbn [sec_id sec_fields]. apply held_nth; [exact L|exact N|]. intros j g J K. eapply key_one; eauto. Qed.

Lemma means_lawful id items x : means id items x -> lawful x.
Proof.
  intros M. destruct M as [id items fs F L H X]. unfold lawful. cbn [sec_id].
  assert (HF : forall i fd, nth_error (fields_of id) i = Some fd -> (present fs i = true <-> held (fd_key fd) (Sec id fs) <> [])).
  { intros i fd N. rewrite (held_field _ _ _ _ L N). unfold present. destruct (nth i fs []); split; congruence. }
  split; [|split].
  - intros n I. apply (proj1 (rules_table id)) in I. apply mode_name in I as (fd & pid & If & T & Md & <-). apply In_nth_error in If as [i N]. rewrite (held_field _ _ _ _ L N).
    destruct (H i fd N) as [_ C]. rewrite Md in C. exact C.
  - intros n I. apply (proj1 (proj2 (rules_table id))) in I. apply mode_name in I as (fd & pid & If & T & Md & <-). apply In_nth_error in If as [i N]. rewrite (held_field _ _ _ _ L N).
    destruct (H i fd N) as [_ C]. rewrite Md in C. exact C.
  - unfold has_field. destruct id; try exact Logic.I; cbn [sec_spec sp_reqs] in X.
    + inversion X as [|? ? X1 _]; subst. cbn [extra_ok] in X1. pose proof (HF 18 _ eq_refl) as A. pose proof (HF 19 _ eq_refl) as B. cbn [fd_key] in A, B. rewrite <- A, <- B. intros [P Q]. destruct X1; congruence.
    + inversion X as [|? ? X1 X']; subst. inversion X' as [|? ? X2 _]; subst. cbn [extra_ok] in X1, X2.
      pose proof (HF 18 _ eq_refl) as A. pose proof (HF 19 _ eq_refl) as B. pose proof (HF 6 _ eq_refl) as C. cbn [fd_key] in A, B, C. rewrite <- A, <- B, <- C.
      split; [intros [P Q]; destruct X2; congruence|exact X1].
    + inversion X as [|? ? X1 _]; subst. pose proof (HF 3 _ eq_refl) as A. pose proof (HF 4 _ eq_refl) as B. cbn [fd_key] in A, B. rewrite <- A, <- B. exact X1.
    + inversion X as [|? ? X1 _]; subst. pose proof (HF 10 _ eq_refl) as A. pose proof (HF 9 _ eq_refl) as B. cbn [fd_key] in A, B. rewrite <- A, <- B. exact X1.
    + inversion X as [|? ? X1 _]; subst. pose proof (HF 10 _ eq_refl) as A. pose proof (HF 9 _ eq_refl) as B. cbn [fd_key] in A, B. rewrite <- A, <- B. exact X1.
    + inversion X as [|? ? X1 _]; subst. pose proof (HF 12 _ eq_refl) as A. pose proof (HF 11 _ eq_refl) as B. cbn [fd_key] in A, B. rewrite <- A, <- B. exact X1.
    + inversion X as [|? ? X1 _]; subst. pose proof (HF 9 _ eq_refl) as A. pose proof (HF 8 _ eq_refl) as B. cbn [fd_key] in A, B. rewrite <- A, <- B. exact X1.
Qed.
Lemma decoded_lawful s cal y : decode_bytes s = Ok cal -> part_of y cal -> lawful y.
Proof.
  intros D P. apply decode_has_frame in D as (b & items & e & tail & _ & _ & _ & M & _). destruct (part_means _ _ P _ _ M) as (id' & items' & M'). eapply means_lawful; eauto.
Qed.
End Rules.
