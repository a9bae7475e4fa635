(** Calendars with last-modified times: what is written for them says all of them. *)
From Coq Require Import String Ascii ZArith Bool List Lia.
From Verif Require Import Base Lib Utf8 GoStrings Strtok Tokeniser SpecContent TokeniserProofs GoTime Types Params ParamTable PropTable Props SecTable Sections Folder Codec SpecTree TreeProofs ExactProofs SpecRules ShapeProofs RulesProofs EncodeProofs PrefixProofs SpecParams ParamProofs SpecProps PropProofs HangProofs GroupProofs SpecCal CalProofs RoundProofs.
Import ListNotations.

Section L.
Context {env : Env}.

(** The name under which the decoder looks for a last-modified time. *)
Definition ren (l : cline) : cline := if beq (cl_name l) (bs "LAST-MODIFIED") then CLine (bs "LAST-MOD") (cl_params l) (cl_value l) else l.
Definition rwrites (tr : list wev) (ls' : list cline) : Prop := exists ls, writes tr ls /\ map ren ls = ls'.
Lemma rwrites_nil : rwrites [] [].
Proof. exists []. split; [apply writes_nil|reflexivity]. Qed.
Lemma rwrites_app a la b lb : rwrites a la -> rwrites b lb -> rwrites (a ++ b) (la ++ lb).
Proof. intros (x & A & <-) (y & B & <-). exists (x ++ y). split; [apply writes_app; assumption|apply map_app]. Qed.
Lemma rwrites_same tr ls : writes tr ls -> Forall (fun l => cl_name l <> bs "LAST-MODIFIED") ls -> rwrites tr ls.
Proof.
  intros W F. exists ls. split; [exact W|]. clear W. induction F as [|l ls N _ IH]; [reflexivity|]. cbn [map]. rewrite IH. unfold ren. apply beq_neq in N. rewrite N. reflexivity.
Qed.
Lemma rwrites_begin n : name_word n = true -> rwrites [Wr (begin_line n)] [begin_of n].
Proof using env. intros N. apply rwrites_same; [apply writes_begin, N|constructor; [discriminate|constructor]]. Qed.
Lemma rwrites_end n : name_word n = true -> rwrites [Wr (end_line n)] [end_of n].
Proof using env. intros N. apply rwrites_same; [apply writes_end, N|constructor; [discriminate|constructor]]. Qed.

Definition read_word (t : ftype) : bytes := match t with FTProp PrLastModified => bs "LAST-MOD" | _ => item_word t end.
Inductive ritem_of : ftype -> item -> Prop :=
| RO_prop pid l : cl_name l = read_word (FTProp pid) -> ritem_of (FTProp pid) (ILine l)
| RO_sec sid body e : ritem_of (FTSec sid) (IComp (begin_of (sp_name (sec_spec sid))) body e)
| RO_alarm body e : ritem_of FTAlarm (IAlarm (begin_of (bs "VALARM")) body e).
Definition rgoes (fd fd' : field) : bool := same_sort (fd_type fd) (fd_type fd') && beq (read_word (fd_type fd)) (fd_key fd').
Definition rfields_ok (id : secid) : bool :=
  let fds := indexed 0 (fields_of id) in
  forallb (fun p => forallb (fun q => Bool.eqb (rgoes (snd p) (snd q)) (Nat.eqb (fst p) (fst q))) fds) fds &&
  forallb (fun p => name_word (read_word (fd_type (snd p))) && negb (existsb (beq (read_word (fd_type (snd p)))) [bs "BEGIN"; bs "END"; bs "ACTION"])) fds.
Lemma rfields_table : forallb rfields_ok all_secs = true.
Proof. vm_compute. reflexivity. Qed.
Lemma rfields_of id : rfields_ok id = true.
Proof. pose proof rfields_table as T. rewrite forallb_forall in T. apply T, all_secs_in. Qed.
Lemma rgoes_spec id i j fd fd' : nth_error (fields_of id) i = Some fd -> nth_error (fields_of id) j = Some fd' -> rgoes fd fd' = Nat.eqb i j.
Proof.
  intros A B. pose proof (rfields_of id) as T. unfold rfields_ok in T. rewrite andb_true_iff in T. destruct T as [T _].
  rewrite forallb_forall in T. specialize (T _ (indexed_in _ 0 _ _ A)). cbv beta in T. rewrite forallb_forall in T. specialize (T _ (indexed_in _ 0 _ _ B)). cbv beta in T. cbn [fst snd] in T.
  apply eqb_prop in T. exact T.
Qed.
Lemma rfield_facts id i fd : nth_error (fields_of id) i = Some fd -> name_word (read_word (fd_type fd)) = true /\ ~ In (read_word (fd_type fd)) [bs "BEGIN"; bs "END"; bs "ACTION"].
Proof.
  intros A. pose proof (rfields_of id) as T. unfold rfields_ok in T. rewrite andb_true_iff in T. destruct T as [_ T].
  rewrite forallb_forall in T. specialize (T _ (indexed_in _ 0 _ _ A)). cbv beta in T. cbn [snd] in T. rewrite andb_true_iff in T. destruct T as [T1 T2]. split; [exact T1|].
  intros I. apply negb_true_iff in T2. assert (X : existsb (beq (read_word (fd_type fd))) [bs "BEGIN"; bs "END"; bs "ACTION"] = true); [|congruence].
  apply existsb_exists. exists (read_word (fd_type fd)). split; [exact I|apply beq_eq; reflexivity].
Qed.
Lemma ritem_goes id i j fd fd' it : nth_error (fields_of id) i = Some fd -> nth_error (fields_of id) j = Some fd' -> ritem_of (fd_type fd) it -> (belongs fd' it <-> i = j).
Proof.
  intros A B O. pose proof (rgoes_spec id i j fd fd' A B) as G. destruct (rfield_facts id i fd A) as (W & _). apply name_word_facts in W as (_ & U & _).
  assert (X : belongs fd' it <-> rgoes fd fd' = true).
  { unfold rgoes. inversion O as [pid l N T1 T2|sid body e T1 T2|body e T1 T2]; subst it; unfold belongs, line_is; rewrite <- T1 in *.
    - rewrite N, U. destruct (fd_type fd'); cbn [same_sort andb]; [rewrite beq_eq; reflexivity|split; [contradiction|discriminate]|split; [contradiction|discriminate]].
    - cbn [read_word item_word] in *. cbn [begin_of cl_value]. rewrite U. destruct (fd_type fd'); cbn [same_sort andb]; [split; [contradiction|discriminate]|rewrite beq_eq; reflexivity|split; [contradiction|discriminate]].
    - cbn [read_word item_word] in *. cbn [begin_of cl_value]. rewrite U. destruct (fd_type fd'); cbn [same_sort andb]; [split; [contradiction|discriminate]|split; [contradiction|discriminate]|rewrite beq_eq; reflexivity]. }
  rewrite X, G. apply Nat.eqb_eq.
Qed.
Lemma ren_prop pid l : cl_name l = fst (prop_spec pid) -> cl_name (ren l) = read_word (FTProp pid) /\ cl_params (ren l) = cl_params l /\ cl_value (ren l) = cl_value l.
Proof.
  intros N. unfold ren. rewrite N. assert (T : beq (fst (prop_spec pid)) (bs "LAST-MODIFIED") = match pid with PrLastModified => true | _ => false end) by (destruct pid; vm_compute; reflexivity).
  rewrite T. destruct pid; cbn [cl_name cl_params cl_value read_word item_word]; auto.
Qed.

Definition rbody_good (x : sec) : Prop := forall id fs, x = Sec id fs -> cal_good x -> exists items,
  rwrites (flat_map (flat_map fval_encode) fs) (flat_map ilines items) /\ smeans id items x /\
  Forall (fun i => exists k fd, nth_error (fields_of id) k = Some fd /\ ritem_of (fd_type fd) i) items.

Lemma rvalue_item id k fd v : nth_error (fields_of id) k = Some fd -> fval_good (fd_type fd) v ->
  (forall x, v = FVSec x \/ v = FVAlarm (Some x) -> rbody_good x) ->
  exists i, rwrites (fval_encode v) (ilines i) /\ ritem_of (fd_type fd) i /\ sitem (fd_type fd) i v.
Proof.
  intros N G IH. destruct (field_facts id k fd N) as (NW & NB & _ & _ & OWN). clear NB. inversion G as [pid p GP T1 T2|sid fs GC T1 T2|w sid fs A GC T1 T2]; subst v; rewrite <- T1 in *.
  - destruct (prop_rt pid p GP) as (l & (ws & E & C) & W & LN & D). destruct (ren_prop pid l LN) as (RN & RP & RV). exists (ILine (ren l)). split; [|split; [constructor; exact RN|constructor; rewrite RP, RV; exact D]].
    cbn [fval_encode ilines]. exists [l]. split; [|reflexivity]. split; [exists ws; split; [exact E|]|constructor; [exact W|constructor]]. rewrite C. unfold lines_text. cbn [map concat]. rewrite app_nil_r. reflexivity.
  - destruct (IH _ (or_introl eq_refl) sid fs eq_refl GC) as (items & WB & M & _). exists (IComp (begin_of (sp_name (sec_spec sid))) items (end_of (sp_name (sec_spec sid)))).
    split; [|split; [constructor|constructor; [exact M|reflexivity|reflexivity]]].
    change (fval_encode (FVSec (Sec sid fs))) with (sec_encode (Sec sid fs)). cbn [ilines]. rewrite sec_encode_eq, (OWN sid eq_refl). change (begin_of (sp_name (sec_spec sid)) :: flat_map ilines items ++ [end_of (sp_name (sec_spec sid))]) with ([begin_of (sp_name (sec_spec sid))] ++ flat_map ilines items ++ [end_of (sp_name (sec_spec sid))]).
    apply rwrites_app; [apply rwrites_begin, NW|]. apply rwrites_app; [exact WB|apply rwrites_end, NW].
  - destruct (IH _ (or_intror eq_refl) sid fs eq_refl GC) as (items & WB & M & OF). destruct (action_facts _ _ A) as (AW & WW & OW & VN & PR).
    pose (al := CLine (bs "ACTION") [] w).
    assert (ITL : Forall (fun i => exists l, i = ILine l /\ cl_name l <> bs "BEGIN" /\ cl_name l <> bs "END" /\ cl_name l <> bs "ACTION") items).
    { eapply Forall_impl; [|exact OF]. intros i (k' & fd' & N' & O'). destruct (rfield_facts _ _ _ N') as (_ & NB'). rewrite Forall_forall in PR. destruct (PR fd' (nth_error_In _ _ N')) as (pid & P). rewrite P in *.
      inversion O' as [pid' l LN X1 X2| |]. subst. exists l. split; [reflexivity|]. rewrite LN. repeat split; intros Q; apply NB'; rewrite Q; cbn; auto. }
    assert (WFB : flat_map ilines items = flat_map (fun i => match i with ILine l => [l] | _ => [] end) items).
    { clear - ITL. induction ITL as [|i items (l & -> & _) _ IH]; [reflexivity|]. cbn [flat_map ilines]. rewrite IH. reflexivity. }
    exists (IAlarm (begin_of (bs "VALARM")) (al :: flat_map ilines items) (end_of (bs "VALARM"))). split; [|split; [constructor|]].
    + change (fval_encode (FVAlarm (Some (Sec sid fs)))) with ([Wr (begin_line (bs "VALARM")); Wr (bs "ACTION:" ++ alarm_word sid ++ CRLF)] ++ sec_encode (Sec sid fs) ++ [Wr (end_line (bs "VALARM"))]). cbn [ilines]. rewrite AW, sec_encode_eq, OW. cbn [app]. rewrite app_nil_r.
      change (begin_of (bs "VALARM") :: al :: flat_map ilines items ++ [end_of (bs "VALARM")]) with ([begin_of (bs "VALARM")] ++ [al] ++ flat_map ilines items ++ [end_of (bs "VALARM")]).
      change (Wr (begin_line (bs "VALARM")) :: Wr (bs "ACTION:" ++ w ++ CRLF) :: flat_map (flat_map fval_encode) fs ++ [Wr (end_line (bs "VALARM"))]) with
        ([Wr (begin_line (bs "VALARM"))] ++ [Wr (bs "ACTION:" ++ w ++ CRLF)] ++ flat_map (flat_map fval_encode) fs ++ [Wr (end_line (bs "VALARM"))]).
      apply rwrites_app; [apply rwrites_begin; reflexivity|]. apply rwrites_app; [apply rwrites_same; [apply writes_one; [unfold al, cline_render; cbn [cl_name cl_params cl_value map concat app]; rewrite <- ?app_assoc; reflexivity|apply word_line; [exact WW|reflexivity]]|constructor; [discriminate|constructor]]|].
      apply rwrites_app; [exact WB|apply rwrites_end; reflexivity].
    + apply (SI_alarm _ _ _ [] w sid (ILine al :: items) (end_of (bs "VALARM")) []).
      * constructor; [split; discriminate|]. clear - ITL. induction ITL as [|i items (l & -> & A & B & _) _ IH]; [constructor|]. cbn [flat_map ilines app]. constructor; [split; assumption|exact IH].
      * reflexivity.
      * unfold values_named. cbn [filter map]. change (beq (cl_name al) (bs "ACTION")) with true. cbv iota. cbn [map al cl_value app]. f_equal.
        clear - ITL. induction ITL as [|i items (l & -> & _ & _ & C) _ IH]; [reflexivity|]. cbn [flat_map ilines app filter]. apply beq_neq in C. rewrite C. exact IH.
      * constructor.
      * exact A.
      * cbn [flat_map ilines app]. reflexivity.
      * reflexivity.
      * rewrite VN. reflexivity.
      * inversion M as [id' items' fs' IOK L H C X1 X2 X3]. subst. apply SMeans; [|exact L| |exact C].
        -- constructor; [|exact IOK]. cbn [item_ok]. split; discriminate.
        -- intros j fd' Nj. apply SH_skip; [|exact (H j fd' Nj)].
           destruct (field_facts _ _ _ Nj) as (_ & _ & NA & _). rewrite Forall_forall in PR. destruct (PR fd' (nth_error_In _ _ Nj)) as (pid & P).
           unfold belongs, line_is. rewrite P. cbn [cl_name]. intros Q. apply NA. rewrite <- Q. reflexivity.
Qed.

Lemma rvalues_items id k fd vs : nth_error (fields_of id) k = Some fd -> Forall (fval_good (fd_type fd)) vs ->
  (forall x, In (FVSec x) vs \/ In (FVAlarm (Some x)) vs -> rbody_good x) ->
  exists items, rwrites (flat_map fval_encode vs) (flat_map ilines items) /\ Forall (ritem_of (fd_type fd)) items /\ Forall2 (sitem (fd_type fd)) items vs.
Proof.
  intros N. induction 1 as [|v vs G _ IH]; intros B; [exists []; split; [apply rwrites_nil|split; constructor]|].
  destruct IH as (items & W & O & M); [intros x [H|H]; apply B; [left|right]; right; exact H|].
  destruct (rvalue_item id k fd v N G) as (i & W1 & O1 & M1); [intros x [H|H]; apply B; [left|right]; left; exact H|].
  exists (i :: items). split; [cbn [flat_map]; apply rwrites_app; assumption|]. split; [constructor; assumption|]. cbn [map]. constructor; assumption.
Qed.

Lemma rfields_items id : forall n fds fs, (forall i fd, nth_error fds i = Some fd -> nth_error (fields_of id) (n + i) = Some fd) -> length fs = length fds ->
  (forall i fd vs, nth_error fds i = Some fd -> nth_error fs i = Some vs -> Forall (fval_good (fd_type fd)) vs) ->
  (forall vs x, In vs fs -> In (FVSec x) vs \/ In (FVAlarm (Some x)) vs -> rbody_good x) ->
  exists items, rwrites (flat_map (flat_map fval_encode) fs) (flat_map ilines items) /\
    Forall (fun i => exists k fd, nth_error (fields_of id) k = Some fd /\ ritem_of (fd_type fd) i) items /\
    forall j fd', nth_error (fields_of id) j = Some fd' -> sholds fd' items (if Nat.leb n j then nth (j - n) fs [] else []).
Proof.
  intros n fds. revert n. induction fds as [|fd fds IH]; intros n [|vs fs] IDX L G B; cbn [length] in L; try lia.
  - exists []. split; [apply rwrites_nil|]. split; [constructor|]. intros j fd' _. destruct (Nat.leb n j); [destruct (j - n)|]; constructor.
  - destruct (IH (S n) fs) as (items & W & O & H); [|lia| | |].
    + intros i fd' N. replace (S n + i) with (n + S i) by lia. apply IDX. exact N.
    + intros i fd' vs' N V. exact (G (S i) fd' vs' N V).
    + intros vs' x I. apply B. right. exact I.
    + assert (NF : nth_error (fields_of id) n = Some fd) by (rewrite <- (IDX 0 fd eq_refl); f_equal; lia).
      destruct (rvalues_items id n fd vs NF (G 0 fd vs eq_refl eq_refl)) as (its & W1 & O1 & M1); [intros x; apply B; left; reflexivity|].
      exists (its ++ items). split; [cbn [flat_map]; rewrite flat_map_app; apply rwrites_app; assumption|]. split.
      * apply Forall_app. split; [|exact O]. eapply Forall_impl; [|exact O1]. intros i Oi. exists n, fd. auto.
      * intros j fd' Nj. destruct (Nat.eqb_spec j n) as [->|NE].
        -- assert (fd' = fd) by congruence. subst fd'. rewrite Nat.leb_refl, Nat.sub_diag. cbn [nth]. specialize (H n fd Nj). replace (Nat.leb (S n) n) with false in H by (symmetry; apply Nat.leb_gt; lia).
           rewrite <- (app_nil_r vs). apply sholds_app; [|exact H]. apply sholds_all. clear - M1 O1 Nj. revert O1. induction M1 as [|i v its vs' M _ IH]; intros O1; [constructor|]. inversion O1; subst. constructor; [|auto]. split; [|exact M].
           apply (ritem_goes id n n fd fd i Nj Nj); auto.
        -- assert (H0 : sholds fd' its []). { apply sholds_none. eapply Forall_impl; [|exact O1]. intros i Oi Bi. apply (ritem_goes id n j fd fd' i NF Nj Oi) in Bi. congruence. }
           specialize (H j fd' Nj). pose proof (sholds_app _ _ _ _ _ H0 H) as HH. cbn [app] in HH. destruct (Nat.leb n j) eqn:LE.
           ++ apply Nat.leb_le in LE. replace (Nat.leb (S n) j) with true in HH by (symmetry; apply Nat.leb_le; lia). replace (j - n) with (S (j - S n)) by lia. exact HH.
           ++ apply Nat.leb_gt in LE. replace (Nat.leb (S n) j) with false in HH by (symmetry; apply Nat.leb_gt; lia). exact HH.
Qed.

Theorem rbody_rt : forall x, rbody_good x.
Proof.
  intros x. induction x as [id0 fs0 IH] using sec_induct. intros id fs E G. injection E as <- <-. inversion G as [id' fs' L F X]. subst id' fs'.
  destruct (rfields_items id0 0 (fields_of id0) fs0) as (items & W & O & H); [auto|exact L| |exact IH|].
  - intros i fd vs N V. exact (proj2 (F i fd vs N V)).
  - exists items. split; [exact W|]. split; [|exact O].
    apply SMeans.
    + eapply Forall_impl; [|exact O]. intros i (k & fd & N & Oi). destruct (rfield_facts _ _ _ N) as (NW & NB). apply name_word_facts in NW as (_ & U & _).
      inversion Oi as [pid l LN X1 X2|sid body e X1 X2|body e X1 X2]; subst i; rewrite <- X1 in *; cbn [item_ok].
      * unfold is_plain, is_begin, is_end, line_is. rewrite LN, U. split; intros Q; apply NB; rewrite Q; cbn; auto.
      * split; [reflexivity|]. exists fd, sid. split; [eapply nth_error_In; exact N|]. split; [congruence|]. apply (ritem_goes id0 k k fd fd _ N N); [rewrite <- X1; constructor|reflexivity].
      * split; [reflexivity|]. exists fd. split; [eapply nth_error_In; exact N|]. split; [congruence|]. apply (ritem_goes id0 k k fd fd _ N N); [rewrite <- X1; constructor|reflexivity].
    + exact L.
    + intros i fd N. specialize (H i fd N). cbn [Nat.leb] in H. rewrite Nat.sub_0_r in H. exact H.
    + intros i fd N. destruct (nth_error fs0 i) as [vs|] eqn:V; [|apply nth_error_None in V; assert (i < length (fields_of id0)) by (apply nth_error_Some; congruence); lia].
      rewrite (nth_error_nth _ _ _ V). exact (proj1 (F i fd vs N V)).
Qed.

Lemma lines_text_inj : forall ls ls', wf_lines ls -> wf_lines ls' -> lines_text ls = lines_text ls' -> ls = ls'.
Proof using env.
  assert (K : forall l ls, cline_wf l = true -> lines_text (l :: ls) <> []) by (intros l ls _ Q; rewrite lines_text_cons in Q; apply (f_equal (@length _)) in Q; rewrite !app_length in Q; cbn in Q; lia).
  induction ls as [|l ls IH]; intros [|l' ls'] W W' Q; [reflexivity| | |].
  - inversion W'; subst. symmetry in Q. exfalso. eapply K; eassumption.
  - inversion W; subst. exfalso. eapply K; eassumption.
  - inversion W as [|? ? A B]; inversion W' as [|? ? A' B']; subst. rewrite !lines_text_cons in Q.
    assert (T : forall x, rest_ok (CRLF ++ x)) by (intros x; right; exists x; reflexivity).
    pose proof (render_inj _ _ _ _ A A' (T _) (T _) Q) as ->. apply app_inv_head, app_inv_head in Q. f_equal. apply IH; assumption.
Qed.
Lemma ren_wf ls : wf_lines ls -> wf_lines (map ren ls).
Proof.
  intros W. induction W as [|l ls W _ IH]; [constructor|]. constructor; [|exact IH]. unfold ren. destruct (beq (cl_name l) (bs "LAST-MODIFIED")); [|exact W].
  revert W. unfold cline_wf. rewrite !andb_true_iff. cbn [cl_name cl_params cl_value]. intros [[[_ _] P] V]. repeat split; assumption.
Qed.
(** What is written for a calendar, and what its lines say once LAST-MODIFIED is called LAST-MOD. *)
Lemma cal_says cal : sec_id cal = SCalendar -> cal_good cal -> exists ls items, content cal = lines_text ls /\ wf_lines ls /\
  map ren ls = begin_of (bs "VCALENDAR") :: flat_map ilines items ++ [end_of (bs "VCALENDAR")] /\ smeans SCalendar items cal.
Proof.
  destruct cal as [id fs]. cbn [sec_id]. intros -> G. destruct (rbody_rt (Sec SCalendar fs) SCalendar fs eq_refl G) as (items & (ls & [(ws & E & C) W] & R) & M & _).
  exists (begin_of (bs "VCALENDAR") :: ls ++ [end_of (bs "VCALENDAR")]), items. split; [|split; [|split; [|exact M]]].
  - unfold content. rewrite sec_encode_eq, E. change (sp_own (sec_spec SCalendar)) with true. change (sp_name (sec_spec SCalendar)) with (bs "VCALENDAR"). cbv iota.
    assert (Q : [Wr (begin_line (bs "VCALENDAR"))] ++ wrs ws ++ [Wr (end_line (bs "VCALENDAR"))] = wrs (begin_line (bs "VCALENDAR") :: ws ++ [end_line (bs "VCALENDAR")])) by (unfold wrs; cbn [app map]; rewrite map_app; reflexivity).
    rewrite Q, pieces_wrs. cbn [concat]. rewrite concat_app, C, lines_text_cons, lines_text_app. reflexivity.
  - constructor; [reflexivity|]. apply Forall_app. split; [exact W|]. constructor; [reflexivity|constructor].
  - cbn [map]. rewrite map_app, R. reflexivity.
Qed.
Theorem said_apart cal cal' e e' out out' : sec_id cal = SCalendar -> sec_id cal' = SCalendar -> cal_good cal -> cal_good cal' ->
  Encode ok_writer [] cal = EncDone e out -> Encode ok_writer [] cal' = EncDone e' out' -> concat out = concat out' -> cal = cal'.
Proof.
  intros I I' G G' E E' Q. destruct (cal_says cal I G) as (ls & items & CT & W & R & M). destruct (cal_says cal' I' G') as (ls' & items' & CT' & W' & R' & M').
  pose proof (encode_unfold cal e out E) as U. pose proof (encode_unfold cal' e' out' E') as U'. rewrite Q, U', CT, CT' in U.
  rewrite (lines_unfold _ W), (lines_unfold _ W') in U. apply lines_text_inj in U; [|assumption|assumption]. subst ls'. rewrite R in R'. apply ren_wf in W. rewrite R in W.
  pose proof W as W2. rewrite R' in W2. assert (T : rest_ok CRLF) by (right; exists []; reflexivity).
  assert (U : frame_text (begin_of (bs "VCALENDAR")) items (end_of (bs "VCALENDAR")) ++ CRLF = frame_text (begin_of (bs "VCALENDAR")) items' (end_of (bs "VCALENDAR")) ++ CRLF).
  { injection R' as R'. apply app_inj_tail in R' as [R' _]. unfold frame_text. rewrite R'. reflexivity. }
  destruct (frames_same _ _ _ _ _ _ _ _ (cal_framed _ _ W M) (cal_framed _ _ W2 M') T T U) as (_ & QI & _). subst items'. exact (proj1 smeans_fun _ _ _ M _ M').
Qed.
End L.
