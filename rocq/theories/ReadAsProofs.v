(** What is read of a calendar is what is read of its properties. *)
From Coq Require Import String Ascii ZArith Bool List Lia.
From Verif Require Import Base Lib SpecLines Unfolder Tokeniser SpecContent GoTime Types Params ParamTable PropTable Props SecTable Sections Folder Codec UnfolderProofs DecodeProofs FolderProofs SpecTree TreeProofs ExactProofs SpecRules SpecEdits SpecProps SpecRfc SpecLine LineProofs PropProofs RulesProofs ShapeProofs EncodeProofs PrefixProofs HangProofs GroupProofs SpecCal CalProofs RoundProofs SpecAbroad SpecLined LinedProofs SpecReadAs.
Import ListNotations.

Section R.
Context {env : Env}.
Lemma F2_len {A B} (R : A -> B -> Prop) l m : Forall2 R l m -> length l = length m.
Proof. induction 1; cbn [length]; congruence. Qed.
Lemma F2_back {A B} (R : A -> B -> Prop) l m b : Forall2 R l m -> In b m -> exists a, In a l /\ R a b.
Proof. intros F. induction F as [|x y l m H _ IH]; intros I; [destruct I|]. destruct I as [<-|I]; [exists x; split; [left; reflexivity|exact H]|]. destruct (IH I) as (a & J & Q). exists a. split; [right; exact J|exact Q]. Qed.
Definition body_as (x : sec) : Prop := forall x' id fs, x = Sec id fs -> cal_as x x' -> exists items,
  writes (flat_map (flat_map fval_encode) fs) (flat_map ilines items) /\ smeans id items (forget x') /\
  Forall (fun i => exists k fd, nth_error (fields_of id) k = Some fd /\ item_of (fd_type fd) i) items.
Lemma as_item id k fd v v' : nth_error (fields_of id) k = Some fd -> fval_as (fd_type fd) v v' ->
  (forall x, v = FVSec x \/ v = FVAlarm (Some x) -> body_as x) ->
  exists i, writes (fval_encode v) (ilines i) /\ item_of (fd_type fd) i /\ (is_last_modified fd = false -> sitem (fd_type fd) i (forget_val v')).
Proof.
  intros N G IH. destruct (field_facts id k fd N) as (NW & NB & _ & _ & OWN).
  assert (LINE : forall pid p l, fd_type fd = FTProp pid -> v = FVProp pid p -> prop_lined pid p l -> writes (fval_encode v) (ilines (ILine l)) /\ item_of (fd_type fd) (ILine l)).
  { intros pid p l T -> ((ws & E & C) & W & LN). rewrite T. split; [|constructor; exact LN].
    cbn [fval_encode ilines]. split; [exists ws; split; [exact E|]|constructor; [exact W|constructor]]. rewrite C. unfold lines_text. cbn [map concat]. rewrite app_nil_r. reflexivity. }
  inversion G as [pid p q PA T1 T2 T3|p q l PL T1 T2 T3|sid fs fs' GC T1 T2 T3|w sid fs fs' A GC T1 T2 T3]; subst v v'.
  - destruct PA as (l & PL & LM). exists (ILine l). destruct (LINE pid p l (eq_sym T1) eq_refl PL) as [L1 L2]. split; [exact L1|]. split; [first [exact L2|rewrite T1; exact L2]|]. intros _. rewrite <- ?T1. constructor. apply line_exact, LM.
  - exists (ILine l). destruct (LINE _ p l (eq_sym T1) eq_refl PL) as [L1 L2]. split; [exact L1|]. split; [first [exact L2|rewrite T1; exact L2]|]. intros Q. rewrite (proj2 (last_modified_field id fd (nth_error_In _ _ N)) (eq_sym T1)) in Q. discriminate Q.
  - rewrite <- T1 in *. destruct (IH _ (or_introl eq_refl) _ sid fs eq_refl GC) as (items & WB & M & _). exists (IComp (begin_of (sp_name (sec_spec sid))) items (end_of (sp_name (sec_spec sid)))).
    split; [|split; [constructor|intros _; cbn [forget_val]; constructor; [exact M|reflexivity|reflexivity]]].
    change (fval_encode (FVSec (Sec sid fs))) with (sec_encode (Sec sid fs)). cbn [ilines]. rewrite sec_encode_eq, (OWN sid eq_refl). change (begin_of (sp_name (sec_spec sid)) :: flat_map ilines items ++ [end_of (sp_name (sec_spec sid))]) with ([begin_of (sp_name (sec_spec sid))] ++ flat_map ilines items ++ [end_of (sp_name (sec_spec sid))]).
    apply writes_app; [apply writes_begin, NW|]. apply writes_app; [exact WB|apply writes_end, NW].
  - rewrite <- T1 in *. destruct (IH _ (or_intror eq_refl) _ sid fs eq_refl GC) as (items & WB & M & OF). destruct (action_facts _ _ A) as (AW & WW & OW & VN & PR).
    pose (al := CLine (bs "ACTION") [] w).
    assert (ITL : Forall (fun i => exists l, i = ILine l /\ cl_name l <> bs "BEGIN" /\ cl_name l <> bs "END" /\ cl_name l <> bs "ACTION") items).
    { eapply Forall_impl; [|exact OF]. intros i (k' & fd' & N' & O'). destruct (field_facts _ _ _ N') as (_ & NB' & _). rewrite Forall_forall in PR. destruct (PR fd' (nth_error_In _ _ N')) as (pid & P). rewrite P in *.
      inversion O' as [pid' l LN X1 X2| |]. subst. exists l. split; [reflexivity|]. cbn [item_word] in NB'. rewrite LN. repeat split; intros Q; apply NB'; rewrite Q; cbn; auto. }
    assert (WFB : flat_map ilines items = flat_map (fun i => match i with ILine l => [l] | _ => [] end) items).
    { clear - ITL. induction ITL as [|i items (l & -> & _) _ IH]; [reflexivity|]. cbn [flat_map ilines]. rewrite IH. reflexivity. }
    exists (IAlarm (begin_of (bs "VALARM")) (al :: flat_map ilines items) (end_of (bs "VALARM"))). split; [|split; [constructor|]].
    + change (fval_encode (FVAlarm (Some (Sec sid fs)))) with ([Wr (begin_line (bs "VALARM")); Wr (bs "ACTION:" ++ alarm_word sid ++ CRLF)] ++ sec_encode (Sec sid fs) ++ [Wr (end_line (bs "VALARM"))]). cbn [ilines]. rewrite AW, sec_encode_eq, OW. cbn [app]. rewrite app_nil_r.
      change (begin_of (bs "VALARM") :: al :: flat_map ilines items ++ [end_of (bs "VALARM")]) with ([begin_of (bs "VALARM")] ++ [al] ++ flat_map ilines items ++ [end_of (bs "VALARM")]).
      change (Wr (begin_line (bs "VALARM")) :: Wr (bs "ACTION:" ++ w ++ CRLF) :: flat_map (flat_map fval_encode) fs ++ [Wr (end_line (bs "VALARM"))]) with
        ([Wr (begin_line (bs "VALARM"))] ++ [Wr (bs "ACTION:" ++ w ++ CRLF)] ++ flat_map (flat_map fval_encode) fs ++ [Wr (end_line (bs "VALARM"))]).
      apply writes_app; [apply writes_begin; reflexivity|]. apply writes_app; [apply writes_one; [unfold al, cline_render; cbn [cl_name cl_params cl_value map concat app]; rewrite <- ?app_assoc; reflexivity|apply word_line; [exact WW|reflexivity]]|].
      apply writes_app; [exact WB|apply writes_end; reflexivity].
    + intros _. cbn [forget_val]. apply (SI_alarm _ _ _ [] w sid (ILine al :: items) (end_of (bs "VALARM")) []).
      * constructor; [split; discriminate|]. clear - ITL. induction ITL as [|i items (l & -> & A & B & _) _ IH]; [constructor|]. cbn [flat_map ilines app]. constructor; [split; assumption|exact IH].
      * reflexivity.
      * unfold values_named. cbn [filter map]. change (beq (cl_name al) (bs "ACTION")) with true. cbv iota. cbn [map al cl_value app]. f_equal.
        clear - ITL. induction ITL as [|i items (l & -> & _ & _ & C) _ IH]; [reflexivity|]. cbn [flat_map ilines app filter]. apply beq_neq in C. rewrite C. exact IH.
      * constructor.
      * exact A.
      * cbn [flat_map ilines app]. reflexivity.
      * reflexivity.
      * rewrite VN. reflexivity.
      * inversion M as [id' items' fs2 IOK L H C X1 X2 X3]. subst. apply SMeans; [|exact L| |exact C].
        -- constructor; [|exact IOK]. cbn [item_ok]. split; discriminate.
        -- intros j fd' Nj. apply SH_skip; [|exact (H j fd' Nj)].
           destruct (field_facts _ _ _ Nj) as (_ & _ & NA & _). rewrite Forall_forall in PR. destruct (PR fd' (nth_error_In _ _ Nj)) as (pid & P).
           unfold belongs, line_is. rewrite P. cbn [cl_name]. intros Q. apply NA. rewrite <- Q. reflexivity.
Qed.

Lemma as_items id k fd vs vs' : nth_error (fields_of id) k = Some fd -> Forall2 (fval_as (fd_type fd)) vs vs' ->
  (forall x, In (FVSec x) vs \/ In (FVAlarm (Some x)) vs -> body_as x) ->
  exists items, writes (flat_map fval_encode vs) (flat_map ilines items) /\ Forall (item_of (fd_type fd)) items /\ (is_last_modified fd = false -> Forall2 (sitem (fd_type fd)) items (map forget_val vs')).
Proof.
  intros N. induction 1 as [|v v' vs vs' G _ IH]; intros B; [exists []; split; [apply writes_nil|split; [constructor|intros _; constructor]]|].
  destruct IH as (items & W & O & M); [intros x [H|H]; apply B; [left|right]; right; exact H|].
  destruct (as_item id k fd v v' N G) as (i & W1 & O1 & M1); [intros x [H|H]; apply B; [left|right]; left; exact H|].
  exists (i :: items). split; [cbn [flat_map]; apply writes_app; assumption|]. split; [constructor; assumption|]. intros Q. cbn [map]. constructor; auto.
Qed.

Lemma as_fields id : forall n fds fs fs', (forall i fd, nth_error fds i = Some fd -> nth_error (fields_of id) (n + i) = Some fd) -> length fs = length fds -> length fs' = length fds ->
  (forall i fd vs vs', nth_error fds i = Some fd -> nth_error fs i = Some vs -> nth_error fs' i = Some vs' -> Forall2 (fval_as (fd_type fd)) vs vs') ->
  (forall vs x, In vs fs -> In (FVSec x) vs \/ In (FVAlarm (Some x)) vs -> body_as x) ->
  exists items, writes (flat_map (flat_map fval_encode) fs) (flat_map ilines items) /\
    Forall (fun i => exists k fd, nth_error (fields_of id) k = Some fd /\ item_of (fd_type fd) i) items /\
    forall j fd', nth_error (fields_of id) j = Some fd' -> sholds fd' items (if Nat.leb n j then nth (j - n) (blank fds (map (map forget_val) fs')) [] else []).
Proof.
  intros n fds. revert n. induction fds as [|fd fds IH]; intros n [|vs fs] [|vs' fs'] IDX L L' G B; cbn [length] in L, L'; try lia.
  - exists []. split; [apply writes_nil|]. split; [constructor|]. intros j fd' _. cbn [map blank]. destruct (Nat.leb n j); [destruct (j - n)|]; constructor.
  - destruct (IH (S n) fs fs') as (items & W & O & H); [|lia|lia| | |].
    + intros i fd' N. replace (S n + i) with (n + S i) by lia. apply IDX. exact N.
    + intros i fd' us us' N V V'. exact (G (S i) fd' us us' N V V').
    + intros us x I. apply B. right. exact I.
    + assert (NF : nth_error (fields_of id) n = Some fd) by (rewrite <- (IDX 0 fd eq_refl); f_equal; lia).
      destruct (as_items id n fd vs vs' NF (G 0 fd vs vs' eq_refl eq_refl eq_refl)) as (its & W1 & O1 & M1); [intros x; apply B; left; reflexivity|].
      exists (its ++ items). split; [cbn [flat_map]; rewrite flat_map_app; apply writes_app; assumption|]. split.
      * apply Forall_app. split; [|exact O]. eapply Forall_impl; [|exact O1]. intros i Oi. exists n, fd. auto.
      * intros j fd' Nj. cbn [map blank]. destruct (Nat.eqb_spec j n) as [->|NE].
        -- assert (fd' = fd) by congruence. subst fd'. rewrite Nat.leb_refl, Nat.sub_diag. cbn [nth]. specialize (H n fd Nj). replace (Nat.leb (S n) n) with false in H by (symmetry; apply Nat.leb_gt; lia).
           destruct (is_last_modified fd) eqn:LM.
           ++ change (@nil fval) with (@nil fval ++ []). apply sholds_app; [|exact H]. apply sholds_none. eapply Forall_impl; [|exact O1]. intros i Oi Bi. apply (item_goes id n n fd fd i Nj Nj Oi) in Bi as [_ Bi]. congruence.
           ++ rewrite <- (app_nil_r (map forget_val vs')). apply sholds_app; [|exact H]. apply sholds_all. specialize (M1 eq_refl). clear - M1 O1 Nj LM. revert O1. induction M1 as [|i v its us M _ IH]; intros O1; [constructor|]. inversion O1; subst. constructor; [|auto]. split; [|exact M].
              apply (item_goes id n n fd fd i Nj Nj); auto.
        -- assert (H0 : sholds fd' its []). { apply sholds_none. eapply Forall_impl; [|exact O1]. intros i Oi Bi. apply (item_goes id n j fd fd' i NF Nj Oi) in Bi as [Bi _]. congruence. }
           specialize (H j fd' Nj). pose proof (sholds_app _ _ _ _ _ H0 H) as HH. cbn [app] in HH. destruct (Nat.leb n j) eqn:LE.
           ++ apply Nat.leb_le in LE. replace (Nat.leb (S n) j) with true in HH by (symmetry; apply Nat.leb_le; lia). replace (j - n) with (S (j - S n)) by lia. exact HH.
           ++ apply Nat.leb_gt in LE. replace (Nat.leb (S n) j) with false in HH by (symmetry; apply Nat.leb_gt; lia). exact HH.
Qed.

Theorem as_body : forall x, body_as x.
Proof.
  intros x. induction x as [id0 fs0 IH] using sec_induct. intros x' id fs E G. injection E as <- <-. inversion G as [id' fs1 fs' L L' F X1 X2]. subst id' fs1 x'.
  destruct (as_fields id0 0 (fields_of id0) fs0 fs') as (items & W & O & H); [auto|exact L|exact L'| |exact IH|].
  - intros i fd vs vs' N V V'. exact (proj2 (F i fd vs vs' N V V')).
  - exists items. split; [exact W|]. split; [|exact O]. change (forget (Sec id0 fs')) with (Sec id0 (blank (fields_of id0) (map (map forget_val) fs'))).
    assert (LM : length (map (map forget_val) fs') = length (fields_of id0)) by (rewrite map_length; exact L').
    apply SMeans.
    + eapply Forall_impl; [|exact O]. intros i (k & fd & N & Oi). destruct (field_facts _ _ _ N) as (NW & NB & _). apply name_word_facts in NW as (_ & U & _).
      inversion Oi as [pid l LN X1 X2|sid body e X1 X2|body e X1 X2]; subst i; rewrite <- X1 in *; cbn [item_word] in *; cbn [item_ok].
      * unfold is_plain, is_begin, is_end, line_is. rewrite LN, U. split; intros Q; apply NB; rewrite Q; cbn; auto.
      * split; [reflexivity|]. exists fd, sid. split; [eapply nth_error_In; exact N|]. split; [congruence|]. apply (item_goes id0 k k fd fd _ N N); [rewrite <- X1; constructor|]. split; [reflexivity|].
        destruct (is_last_modified fd) eqn:Q; [|reflexivity]. pose proof (goes_spec id0 k k fd fd N N) as GS. rewrite Q, andb_false_r in GS. exfalso. clear - GS N X1 Q. 
        assert (T : forallb (fun id => forallb (fun f => negb (is_last_modified f) || match fd_type f with FTProp _ => true | _ => false end) (fields_of id)) all_secs = true) by (vm_compute; reflexivity).
        rewrite forallb_forall in T. specialize (T id0 (all_secs_in id0)). cbv beta in T. rewrite forallb_forall in T. specialize (T fd (nth_error_In _ _ N)). cbv beta in T. rewrite Q, <- X1 in T. discriminate.
      * split; [reflexivity|]. exists fd. split; [eapply nth_error_In; exact N|]. split; [congruence|]. apply (item_goes id0 k k fd fd _ N N); [rewrite <- X1; constructor|]. split; [reflexivity|].
        destruct (is_last_modified fd) eqn:Q; [|reflexivity]. exfalso. clear - N X1 Q.
        assert (T : forallb (fun id => forallb (fun f => negb (is_last_modified f) || match fd_type f with FTProp _ => true | _ => false end) (fields_of id)) all_secs = true) by (vm_compute; reflexivity).
        rewrite forallb_forall in T. specialize (T id0 (all_secs_in id0)). cbv beta in T. rewrite forallb_forall in T. specialize (T fd (nth_error_In _ _ N)). cbv beta in T. rewrite Q, <- X1 in T. discriminate.
    + apply length_blank, LM.
    + intros i fd N. specialize (H i fd N). cbn [Nat.leb] in H. rewrite Nat.sub_0_r in H. exact H.
    + intros i fd N. rewrite nth_blank, N, map_nth_nil by exact LM.
      destruct (nth_error fs0 i) as [vs|] eqn:V; [|apply nth_error_None in V; assert (i < length (fields_of id0)) by (apply nth_error_Some; congruence); lia].
      destruct (nth_error fs' i) as [vs'|] eqn:V'; [|apply nth_error_None in V'; assert (i < length (fields_of id0)) by (apply nth_error_Some; congruence); lia].
      rewrite (nth_error_nth _ _ _ V'). destruct (F i fd vs vs' N V V') as [C A]. apply F2_len in A. destruct (is_last_modified fd) eqn:LMI.
      * destruct (field_facts _ _ _ N) as (_ & _ & _ & NR & _). specialize (NR LMI). destruct (fd_mode fd); cbn [count_ok length]; [contradiction|lia|exact I].
      * rewrite map_length, <- A. exact C.
Qed.

(** ** The rules *)
Inductive cal_kind : sec -> Prop :=
| CK id fs : length fs = length (fields_of id) ->
    (forall i fd vs, nth_error (fields_of id) i = Some fd -> nth_error fs i = Some vs -> True /\ Forall (fval_kind (fd_type fd)) vs) -> cal_kind (Sec id fs)
with fval_kind : ftype -> fval -> Prop :=
| VK_prop pid (p : prop) : True -> fval_kind (FTProp pid) (FVProp pid p)
| VK_sec sid fs : cal_kind (Sec sid fs) -> fval_kind (FTSec sid) (FVSec (Sec sid fs))
| VK_alarm (w : bytes) sid fs : action_is w sid -> cal_kind (Sec sid fs) -> fval_kind FTAlarm (FVAlarm (Some (Sec sid fs))).
Lemma kind_value id fs vs v : cal_kind (Sec id fs) -> In vs fs -> In v vs -> exists i fd, nth_error (fields_of id) i = Some fd /\ nth_error fs i = Some vs /\ fval_kind (fd_type fd) v.
Proof.
  intros G I J. inversion G as [? ? L F]; subst. apply In_nth_error in I as [i N]. destruct (nth_error (fields_of id) i) as [fd|] eqn:Nf.
  - exists i, fd. split; [exact Nf|]. split; [exact N|]. destruct (F i fd vs Nf N) as [_ X]. rewrite Forall_forall in X. auto.
  - apply nth_error_None in Nf. assert (i < length fs) by (apply nth_error_Some; congruence). lia.
Qed.
Lemma kind_forget id fs w : cal_kind (Sec id fs) -> ((exists ws, In ws (sec_fields (forget (Sec id fs))) /\ In w ws) <-> exists vs v, In vs fs /\ In v vs /\ w = forget_val v /\ (forall p, v <> FVProp PrLastModified p)).
Proof.
  intros G. change (sec_fields (forget (Sec id fs))) with (blank (fields_of id) (map (map forget_val) fs)). split.
  - intros (ws & I & J). destruct (blank_in _ _ _ I w J) as (i & fd & us & N & NU & Q & K). rewrite nth_error_map in NU. destruct (nth_error fs i) as [vs|] eqn:NV; [|discriminate]. injection NU as <-. apply in_map_iff in K as (v & <- & K).
    exists vs, v. split; [eapply nth_error_In; exact NV|]. split; [exact K|]. split; [reflexivity|]. intros p ->. inversion G as [? ? L F]; subst. destruct (F i fd vs N NV) as [_ X]. rewrite Forall_forall in X. specialize (X _ K). inversion X as [pid p' _ T X2| |]; subst.
    assert (is_last_modified fd = true) by (apply (last_modified_field id); [eapply nth_error_In; exact N|auto]). congruence.
  - intros (vs & v & I & J & -> & NP). destruct (kind_value _ _ _ _ G I J) as (i & fd & N & NV & FG). exists (map forget_val vs). split; [|apply in_map, J]. apply (in_blank _ _ i fd); [exact N|rewrite nth_error_map, NV; reflexivity|].
    destruct (is_last_modified fd) eqn:Q; [|reflexivity]. apply (last_modified_field id) in Q; [|eapply nth_error_In; exact N]. rewrite Q in FG. inversion FG; subst. destruct (NP p eq_refl).
Qed.

Lemma kind_rules cal : cal_kind cal -> (all_extras (forget cal) <-> rules_met cal).
Proof.
  induction cal as [id fs IH] using sec_induct. intros G. pose proof (kind_forget id fs) as FV. inversion G as [? ? L F]; subst. unfold all_extras, rules_met.
  destruct (forget (Sec id fs)) as [id' fs'] eqn:E. assert (EX : extras (Sec id' fs') <-> extras (Sec id fs)) by (rewrite <- E; apply extras_forget, L). assert (id' = id) by (change (forget (Sec id fs)) with (Sec id (blank (fields_of id) (map (map forget_val) fs))) in E; congruence). subst id'.
  rewrite !parts_eq, EX, (obeys_extras (Sec id fs) L). cbn [sec_fields] in FV.
  assert (SUB : forall vs v, In vs fs -> In v vs -> (val_part extras (forget_val v) <-> val_part obeys v)).
  { intros vs v I J. destruct (kind_value _ _ _ _ G I J) as (i & fd & N & NV & FG). destruct v as [pid p|x|[x|]]; cbn [val_part]; [tauto| | |tauto].
    - change (forget_val (FVSec x)) with (FVSec (forget x)). cbn [val_part]. apply (IH vs x I (or_introl J)). inversion FG; subst; assumption.
    - change (forget_val (FVAlarm (Some x))) with (FVAlarm (Some (forget x))). cbn [val_part]. apply (IH vs x I (or_intror J)). inversion FG; subst; assumption. }
  split; intros [H1 H2]; (split; [exact H1|]).
  - intros vs v I J. destruct v as [pid p|x|[x|]]; try exact Logic.I; apply (SUB vs _ I J).
    + destruct (proj2 (FV (forget_val (FVSec x)) G)) as (ws & A & B); [exists vs, (FVSec x); repeat split; auto; discriminate|]. eauto.
    + destruct (proj2 (FV (forget_val (FVAlarm (Some x))) G)) as (ws & A & B); [exists vs, (FVAlarm (Some x)); repeat split; auto; discriminate|]. eauto.
  - intros ws w I J. destruct (proj1 (FV w G)) as (vs & v & A & B & -> & _); [exists ws; auto|]. apply (SUB vs v A B). eauto.
Qed.


Lemma as_kind : forall x x', cal_as x x' -> cal_kind x'.
Proof.
  intros x. induction x as [id0 fs0 IH] using sec_induct. intros x' G. inversion G as [id' fs1 fs' L L' F X1 X2]; subst. constructor; [exact L'|]. intros i fd vs' N V'. split; [exact Logic.I|].
  destruct (nth_error fs0 i) as [vs|] eqn:V; [|apply nth_error_None in V; assert (i < length (fields_of id0)) by (apply nth_error_Some; congruence); lia].
  destruct (F i fd vs vs' N V V') as [_ A]. apply nth_error_In in V. apply Forall_forall. intros v' J'. destruct (F2_back _ _ _ _ A J') as (v & J & R).
  inversion R as [| |sid gs gs' H|w sid gs gs' AI H]; subst; [constructor; exact Logic.I|constructor; exact Logic.I| |].
  - constructor. apply (IH vs _ V (or_introl J) _ H).
  - apply (VK_alarm w); [exact AI|]. apply (IH vs _ V (or_intror J) _ H).
Qed.
Theorem read_as cal cal' c : sec_id cal = SCalendar -> sec_valid cal = None -> cal_as cal cal' -> (read_again cal (Ok c) <-> rules_met cal' /\ c = forget cal').
Proof.
  intros I V G. pose proof (as_kind _ _ G) as K. destruct cal as [id fs]. cbn [sec_id] in I. subst id. destruct (as_body (Sec SCalendar fs) cal' SCalendar fs eq_refl G) as (items & [(ws & E0 & C0') W0] & M & _).
  set (qs := begin_line (bs "VCALENDAR") :: ws). assert (EN : sec_encode (Sec SCalendar fs) = wrs (qs ++ [last_piece])).
  { rewrite sec_encode_eq, E0. change (sp_own (sec_spec SCalendar)) with true. change (sp_name (sec_spec SCalendar)) with (bs "VCALENDAR"). cbv iota. cbn [app]. unfold wrs, qs. cbn [app]. rewrite map_cons, map_app. reflexivity. }
  assert (W : wf_lines (begin_of (bs "VCALENDAR") :: flat_map ilines items ++ [end_of (bs "VCALENDAR")])) by (constructor; [reflexivity|]; apply Forall_app; split; [exact W0|]; constructor; [reflexivity|constructor]).
  assert (C : concat qs = lines_text (begin_of (bs "VCALENDAR") :: flat_map ilines items)) by (unfold qs; cbn [concat]; rewrite C0', lines_text_cons, app_assoc; reflexivity).
  set (cal := Sec SCalendar fs) in *.
  assert (E : exists out, Encode ok_writer [] cal = EncDone None out).
  { unfold Encode. rewrite V, run_trace_spec. cbv zeta. rewrite EN.
    replace (hangs (wrs (qs ++ [last_piece]))) with false; [|symmetry; clear; generalize (qs ++ [last_piece]); induction l; [reflexivity|exact IHl]].
    unfold new_folder. destruct (folder_writes_ok (pieces (wrs (qs ++ [last_piece]))) 0 []) as (new & -> & _). eexists. reflexivity. }
  destruct E as (out & E).
  assert (D : decode_bytes (unfold (concat out)) = Ok c <-> rules_met cal' /\ c = forget cal').
  { rewrite (encode_unfold _ _ _ E). unfold content. rewrite EN, pieces_wrs, concat_app, C. cbn [concat]. rewrite app_nil_r.
    assert (Q : lines_text (begin_of (bs "VCALENDAR") :: flat_map ilines items) ++ last_piece = lines_text (begin_of (bs "VCALENDAR") :: flat_map ilines items ++ [end_of (bs "VCALENDAR")])).
    { rewrite app_comm_cons, lines_text_app. reflexivity. }
    rewrite Q, (lines_unfold _ W), <- Q, (cal_decodes items (forget cal') c W M), (kind_rules cal' K). reflexivity. }
  pose proof (encode_ok_out _ _ _ E) as [_ O]. rewrite EN, pieces_wrs, folds_app in O. pose proof (folds_line qs C0 0 ltac:(discriminate)) as FL. rewrite C in FL.
  assert (NN : begin_of (bs "VCALENDAR") :: flat_map ilines items <> []) by discriminate. specialize (FL (lines_runc _ C0 NN)). destruct (folds 0 qs) as [o l]. cbn [snd] in FL. subst l.
  assert (O' : concat out = o ++ last_piece) by (rewrite O; reflexivity).
  assert (ONE : forall w sizes, (forall i, 1 <= sizes i) -> length (concat out) <= sizes 0 -> exists n, forall fuel, n <= fuel -> Decode fuel sizes [concat out] w = decode_bytes (unfold (concat out))).
  { intros w sizes S1 S2. apply decode_one_read; [|exact S1|exact S2]. intros _. rewrite O'. apply last_piece_tail. }
  rewrite <- D. split.
  - intros (out' & E' & H). rewrite E in E'. injection E' as <-. pose (sizes := fun _ : nat => S (length (concat out))).
    assert (S1 : forall i, 1 <= sizes i) by (intros i; unfold sizes; lia). assert (S2 : length (concat out) <= sizes 0) by (unfold sizes; lia).
    destruct (ONE false sizes S1 S2) as (n & N). destruct (H false sizes S1 S2) as (m & HM). rewrite <- (N (n + m) ltac:(lia)). apply HM. lia.
  - intros H. exists out. split; [exact E|]. intros w sizes S1 S2. destruct (ONE w sizes S1 S2) as (n & N). exists n. intros fuel F. rewrite (N fuel F). exact H.
Qed.
End R.
