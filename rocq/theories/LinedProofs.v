(** One property that cannot be read. *)
From Coq Require Import String Ascii ZArith Bool List Lia.
From Verif Require Import Base Lib SpecLines Unfolder Tokeniser SpecContent GoTime Types Params ParamTable PropTable Props SecTable Sections Folder Codec UnfolderProofs DecodeProofs FolderProofs SpecTree TreeProofs ExactProofs SpecRules SpecEdits SpecProps SpecRfc SpecLine LineProofs PropProofs RulesProofs ShapeProofs EncodeProofs PrefixProofs HangProofs GroupProofs SpecCal CalProofs RoundProofs SpecLined.
Import ListNotations.

Section L.
Context {env : Env}.
Definition can_read (pid : propid) (p : prop) : Prop := exists l q, prop_lined pid p l /\ line_means pid (cl_params l) (cl_value l) q.
Definition val_has (v : fval) (pid : propid) (p : prop) : Prop :=
  match v with FVProp pid' p' => pid' = pid /\ p' = p | FVSec x | FVAlarm (Some x) => has_prop x pid p | FVAlarm None => False end.
Definition item_for (id : secid) (t : ftype) (v : fval) (i : item) : Prop := item_of t i /\ shape_ok id i /\
  forall u, sitem t i u -> forall pid p, val_has v pid p -> pid <> PrLastModified -> can_read pid p.
Definition body_lined (x : sec) : Prop := forall id fs, x = Sec id fs -> cal_lined x -> exists items,
  writes (flat_map (flat_map fval_encode) fs) (flat_map ilines items) /\
  Forall (fun i => exists k fd, nth_error (fields_of id) k = Some fd /\ item_of (fd_type fd) i) items /\ Forall (shape_ok id) items /\
  forall y, smeans id items y -> forall pid p, has_prop x pid p -> pid <> PrLastModified -> can_read pid p.

Lemma comp_key id k fd it : nth_error (fields_of id) k = Some fd -> item_of (fd_type fd) it -> (forall pid, fd_type fd <> FTProp pid) -> belongs fd it.
Proof.
  intros N O P. apply (item_goes id k k fd fd it N N O). split; [reflexivity|]. destruct (is_last_modified fd) eqn:Q; [|reflexivity]. apply (last_modified_field id fd (nth_error_In _ _ N)) in Q. destruct (P _ Q).
Qed.
Lemma lined_item id k fd v : nth_error (fields_of id) k = Some fd -> fval_lined (fd_type fd) v ->
  (forall x, v = FVSec x \/ v = FVAlarm (Some x) -> body_lined x) ->
  exists i, writes (fval_encode v) (ilines i) /\ item_for id (fd_type fd) v i.
Proof.
  intros N G IH. destruct (field_facts id k fd N) as (NW & NB & _ & _ & OWN). pose proof (fun it O P => comp_key id k fd it N O P) as KEY.
  inversion G as [pid p l GP T1 T2|sid fs GC T1 T2|w sid fs A GC T1 T2]; subst v; rewrite <- T1 in *.
  - pose proof GP as ((ws & E & C) & W & LN). exists (ILine l). split; [|split; [constructor; exact LN|split]].
    + cbn [fval_encode ilines]. split; [exists ws; split; [exact E|]|constructor; [exact W|constructor]]. rewrite C. unfold lines_text. cbn [map concat]. rewrite app_nil_r. reflexivity.
    + constructor. apply name_word_facts in NW as (_ & U & _). cbn [item_word] in *. unfold is_plain, is_begin, is_end, line_is. rewrite LN, U. split; intros Q; apply NB; rewrite Q; cbn; auto.
    + intros u SI pid' p' [<- <-] _. inversion SI as [? ? q D| |]; subst. exists l, q. split; [exact GP|]. apply line_exact. exact D.
  - destruct (IH _ (or_introl eq_refl) sid fs eq_refl GC) as (items & WB & _ & SH & M). exists (IComp (begin_of (sp_name (sec_spec sid))) items (end_of (sp_name (sec_spec sid)))).
    split; [|split; [constructor|split]].
    + change (fval_encode (FVSec (Sec sid fs))) with (sec_encode (Sec sid fs)). cbn [ilines]. rewrite sec_encode_eq, (OWN sid eq_refl). change (begin_of (sp_name (sec_spec sid)) :: flat_map ilines items ++ [end_of (sp_name (sec_spec sid))]) with ([begin_of (sp_name (sec_spec sid))] ++ flat_map ilines items ++ [end_of (sp_name (sec_spec sid))]).
      apply writes_app; [apply writes_begin, NW|]. apply writes_app; [exact WB|apply writes_end, NW].
    + apply (So_comp id _ _ _ sid); [reflexivity| |exact SH|reflexivity]. apply child_field. exists fd. split; [exact (nth_error_In _ _ N)|]. split; [symmetry; exact T1|].
      pose proof (KEY (IComp (begin_of (sp_name (sec_spec sid))) items (end_of (sp_name (sec_spec sid)))) ltac:(constructor) ltac:(discriminate)) as B. unfold belongs in B. rewrite <- T1 in B. symmetry. exact B.
    + intros u SI pid p H NL. inversion SI as [|? ? ? ? y My Ey Vy|]; subst. exact (M y My pid p H NL).
  - destruct (IH _ (or_intror eq_refl) sid fs eq_refl GC) as (items & WB & OF & _ & M). destruct (action_facts _ _ A) as (AW & WW & OW & VN & PR).
    pose (al := CLine (bs "ACTION") [] w).
    assert (ITL : Forall (fun i => exists l, i = ILine l /\ cl_name l <> bs "BEGIN" /\ cl_name l <> bs "END" /\ cl_name l <> bs "ACTION" /\ is_plain l) items).
    { eapply Forall_impl; [|exact OF]. intros i (k' & fd' & N' & O'). destruct (field_facts _ _ _ N') as (NW' & NB' & _). rewrite Forall_forall in PR. destruct (PR fd' (nth_error_In _ _ N')) as (pid & P). rewrite P in *.
      inversion O' as [pid' l LN X1 X2| |]. subst. exists l. split; [reflexivity|]. cbn [item_word] in NB', NW'. apply name_word_facts in NW' as (_ & U & _). unfold is_plain, is_begin, is_end, line_is. rewrite LN, U. repeat split; intros Q; apply NB'; rewrite Q; cbn; auto. }
    exists (IAlarm (begin_of (bs "VALARM")) (al :: flat_map ilines items) (end_of (bs "VALARM"))). split; [|split; [constructor|split]].
    + change (fval_encode (FVAlarm (Some (Sec sid fs)))) with ([Wr (begin_line (bs "VALARM")); Wr (bs "ACTION:" ++ alarm_word sid ++ CRLF)] ++ sec_encode (Sec sid fs) ++ [Wr (end_line (bs "VALARM"))]). cbn [ilines]. rewrite AW, sec_encode_eq, OW. cbn [app]. rewrite app_nil_r.
      change (begin_of (bs "VALARM") :: al :: flat_map ilines items ++ [end_of (bs "VALARM")]) with ([begin_of (bs "VALARM")] ++ [al] ++ flat_map ilines items ++ [end_of (bs "VALARM")]).
      change (Wr (begin_line (bs "VALARM")) :: Wr (bs "ACTION:" ++ w ++ CRLF) :: flat_map (flat_map fval_encode) fs ++ [Wr (end_line (bs "VALARM"))]) with
        ([Wr (begin_line (bs "VALARM"))] ++ [Wr (bs "ACTION:" ++ w ++ CRLF)] ++ flat_map (flat_map fval_encode) fs ++ [Wr (end_line (bs "VALARM"))]).
      apply writes_app; [apply writes_begin; reflexivity|]. apply writes_app; [apply writes_one; [unfold al, cline_render; cbn [cl_name cl_params cl_value map concat app]; rewrite <- ?app_assoc; reflexivity|apply word_line; [exact WW|reflexivity]]|].
      apply writes_app; [exact WB|apply writes_end; reflexivity].
    + pose proof (KEY (IAlarm (begin_of (bs "VALARM")) (al :: flat_map ilines items) (end_of (bs "VALARM"))) ltac:(constructor) ltac:(discriminate)) as B. unfold belongs in B. rewrite <- T1 in B.
      destruct (proj2 (ShapeProofs.alarm_field id (bs "VALARM"))) as [HA _]; [exists fd; split; [exact (nth_error_In _ _ N)|split; [symmetry; exact T1|symmetry; exact B]]|].
      apply So_alarm; [reflexivity|exact HA|reflexivity| |reflexivity]. constructor; [split; discriminate|]. clear - ITL. induction ITL as [|i items (l & -> & A & B & _) _ IH]; [constructor|]. cbn [flat_map ilines app]. constructor; [split; assumption|exact IH].
    + clear AW. intros u SI pid p H NL. inversion SI as [| |? ? ? us0 w0 sid0 sub0 e0 more0 y Fb0 Ne0 A0 Fu0 Aw0 Q0 E0 V0 M0]; subst.
      assert (VA : values_named (bs "ACTION") (al :: flat_map ilines items) = [w]).
      { unfold values_named. cbn [filter map]. change (beq (cl_name al) (bs "ACTION")) with true. cbv iota. cbn [map al cl_value app]. f_equal.
        clear - ITL. induction ITL as [|i items (l & -> & _ & _ & C & _) _ IH]; [reflexivity|]. cbn [flat_map ilines app filter]. apply beq_neq in C. rewrite C. exact IH. }
      rewrite VA in A0. change [w] with ([] ++ [w]) in A0. apply app_inj_tail in A0 as [<- <-]. rewrite <- (action_one _ _ _ A Aw0) in *.
      assert (Sh0 : Forall (shape_ok sid) sub0) by (eapply smeans_shape; eauto).
      assert (Sh : Forall (shape_ok sid) (ILine al :: items)). { constructor; [constructor; split; discriminate|]. eapply Forall_impl; [|exact ITL]. intros i (l & -> & _ & _ & _ & P). constructor. exact P. }
      change ((al :: flat_map ilines items) ++ [end_of (bs "VALARM")]) with (flat_map ilines (ILine al :: items) ++ [end_of (bs "VALARM")]) in Q0. cbn [app] in Q0.
      destruct (shape_unique _ sid (ILine al :: items) sub0 (end_of (bs "VALARM")) e0 [] more0 (le_n _) Sh Sh0 (eq_refl : is_end (end_of (bs "VALARM"))) E0 Q0) as (<- & _ & _).
      inversion M0 as [id' items' fs' IOK L0 H0 C0 X1 X2 X3]; subst. apply (M (Sec sid fs')); [|exact H|exact NL]. apply Forall_cons_iff in IOK as [_ IOK].
      apply SMeans; [exact IOK|exact L0| |exact C0]. intros j fd' Nj. specialize (H0 j fd' Nj).
      assert (NBL : ~ belongs fd' (ILine al)). { destruct (field_facts _ _ _ Nj) as (_ & _ & NA & _). rewrite Forall_forall in PR. destruct (PR fd' (nth_error_In _ _ Nj)) as (pid' & P). unfold belongs, line_is. rewrite P. cbn [cl_name al]. intros Q. apply NA. rewrite <- Q. reflexivity. }
      inversion H0; subst; [assumption|contradiction].
Qed.

Lemma lined_values id k fd vs : nth_error (fields_of id) k = Some fd -> Forall (fval_lined (fd_type fd)) vs ->
  (forall x, In (FVSec x) vs \/ In (FVAlarm (Some x)) vs -> body_lined x) ->
  exists items, writes (flat_map fval_encode vs) (flat_map ilines items) /\ Forall2 (item_for id (fd_type fd)) vs items.
Proof.
  intros N. induction 1 as [|v vs G _ IH]; intros B; [exists []; split; [apply writes_nil|constructor]|].
  destruct IH as (items & W & O); [intros x [H|H]; apply B; [left|right]; right; exact H|].
  destruct (lined_item id k fd v N G) as (i & W1 & O1); [intros x [H|H]; apply B; [left|right]; left; exact H|].
  exists (i :: items). split; [cbn [flat_map]; apply writes_app; assumption|]. constructor; assumption.
Qed.
Lemma Forall2_right {A B} (R : A -> B -> Prop) (P : B -> Prop) l m : Forall2 R l m -> (forall a b, R a b -> P b) -> Forall P m.
Proof. intros F H. induction F; constructor; eauto. Qed.
Lemma Forall2_find {A B} (R : A -> B -> Prop) l m a : Forall2 R l m -> In a l -> exists b, In b m /\ R a b.
Proof. intros F. induction F as [|x y l m H _ IH]; intros I; [destruct I|]. destruct I as [<-|I]; [exists y; split; [left; reflexivity|exact H]|]. destruct (IH I) as (b & J & Q). exists b. split; [right; exact J|exact Q]. Qed.
Lemma lined_fields id : forall n fds fs, (forall i fd, nth_error fds i = Some fd -> nth_error (fields_of id) (n + i) = Some fd) -> length fs = length fds ->
  (forall i fd vs, nth_error fds i = Some fd -> nth_error fs i = Some vs -> Forall (fval_lined (fd_type fd)) vs) ->
  (forall vs x, In vs fs -> In (FVSec x) vs \/ In (FVAlarm (Some x)) vs -> body_lined x) ->
  exists items, writes (flat_map (flat_map fval_encode) fs) (flat_map ilines items) /\
    Forall (fun i => exists k fd, nth_error (fields_of id) k = Some fd /\ item_of (fd_type fd) i) items /\ Forall (shape_ok id) items /\
    forall vs v, In vs fs -> In v vs -> exists k fd i, nth_error (fields_of id) k = Some fd /\ In i items /\ item_for id (fd_type fd) v i /\ fval_lined (fd_type fd) v.
Proof.
  intros n fds. revert n. induction fds as [|fd fds IH]; intros n [|vs fs] IDX L G B; cbn [length] in L; try lia.
  - exists []. split; [apply writes_nil|]. split; [constructor|]. split; [constructor|]. intros vs v [].
  - destruct (IH (S n) fs) as (items & W & O & Sh & H); [|lia| | |].
    + intros i fd' N. replace (S n + i) with (n + S i) by lia. apply IDX. exact N.
    + intros i fd' vs' N V. exact (G (S i) fd' vs' N V).
    + intros vs' x I. apply B. right. exact I.
    + assert (NF : nth_error (fields_of id) n = Some fd) by (rewrite <- (IDX 0 fd eq_refl); f_equal; lia).
      pose proof (G 0 fd vs eq_refl eq_refl) as GV. destruct (lined_values id n fd vs NF GV) as (its & W1 & O1); [intros x; apply B; left; reflexivity|].
      exists (its ++ items). split; [cbn [flat_map]; rewrite flat_map_app; apply writes_app; assumption|]. split; [|split].
      * apply Forall_app. split; [|exact O]. apply (Forall2_right _ _ _ _ O1). intros v i (Oi & _). exists n, fd. auto.
      * apply Forall_app. split; [|exact Sh]. apply (Forall2_right _ _ _ _ O1). intros v i (_ & Si & _). exact Si.
      * intros ws v [<-|I] J.
        -- destruct (Forall2_find _ _ _ _ O1 J) as (i & Ii & R). exists n, fd, i. split; [exact NF|]. split; [apply in_or_app; left; exact Ii|]. split; [exact R|]. rewrite Forall_forall in GV. exact (GV v J).
        -- destruct (H ws v I J) as (k & fd' & i & Nk & Ii & R). exists k, fd', i. split; [exact Nk|]. split; [apply in_or_app; right; exact Ii|exact R].
Qed.
Theorem lined_body : forall x, body_lined x.
Proof.
  intros x. induction x as [id0 fs0 IH] using sec_induct. intros id fs E G. injection E as <- <-. inversion G as [id' fs' L F X]. subst id' fs'.
  destruct (lined_fields id0 0 (fields_of id0) fs0) as (items & W & O & Sh & H); [auto|exact L|exact F|exact IH|].
  exists items. split; [exact W|]. split; [exact O|]. split; [exact Sh|]. intros y M pid p P NL.
  assert (V : exists vs v, In vs fs0 /\ In v vs /\ val_has v pid p). { apply has_prop_eq in P as [(vs & I & J)|(vs & x & I & [J|J] & P)]; exists vs; eexists; (split; [exact I|]); (split; [exact J|]); [split; reflexivity|exact P|exact P]. }
  destruct V as (vs & v & I & J & VH). destruct (H vs v I J) as (k & fd & i & N & Ii & (Oi & _ & R) & FL).
  assert (B : belongs fd i).
  { apply (item_goes id0 k k fd fd i N N Oi). split; [reflexivity|]. destruct (is_last_modified fd) eqn:Q; [|reflexivity]. exfalso. apply (last_modified_field id0 fd (nth_error_In _ _ N)) in Q. rewrite Q in FL. inversion FL; subst. destruct VH as [<- _]. apply NL. reflexivity. }
  destruct (smeans_holds _ _ _ _ M (nth_error_In _ _ N)) as (us & SH). destruct (sholds_item _ _ _ SH _ Ii B) as (u & SI). exact (R u SI pid p VH NL).
Qed.

Theorem unread_refused cal pid p : sec_id cal = SCalendar -> sec_valid cal = None -> cal_lined cal -> has_prop cal pid p -> pid <> PrLastModified ->
  (forall l q, prop_lined pid p l -> ~ line_means pid (cl_params l) (cl_value l) q) ->
  exists out, Encode ok_writer [] cal = EncDone None out /\
    forall w sizes, (forall i, 1 <= sizes i) -> length (concat out) <= sizes 0 -> exists n, forall fuel c, n <= fuel -> Decode fuel sizes [concat out] w <> Ok c.
Proof.
  destruct cal as [id fs]. cbn [sec_id]. intros -> V G HP NL U. destruct (lined_body (Sec SCalendar fs) SCalendar fs eq_refl G) as (items & [(ws & E0 & C0') W0] & _ & Sh & R).
  set (qs := begin_line (bs "VCALENDAR") :: ws). assert (EN : sec_encode (Sec SCalendar fs) = wrs (qs ++ [last_piece])).
  { rewrite sec_encode_eq, E0. change (sp_own (sec_spec SCalendar)) with true. change (sp_name (sec_spec SCalendar)) with (bs "VCALENDAR"). cbv iota. cbn [app]. unfold wrs, qs. cbn [app]. rewrite map_cons, map_app. reflexivity. }
  assert (W : wf_lines (begin_of (bs "VCALENDAR") :: flat_map ilines items ++ [end_of (bs "VCALENDAR")])) by (constructor; [reflexivity|]; apply Forall_app; split; [exact W0|]; constructor; [reflexivity|constructor]).
  assert (C : concat qs = lines_text (begin_of (bs "VCALENDAR") :: flat_map ilines items)) by (unfold qs; cbn [concat]; rewrite C0', lines_text_cons, app_assoc; reflexivity).
  set (cal := Sec SCalendar fs) in *.
  assert (E : exists out, Encode ok_writer [] cal = EncDone None out).
  { unfold Encode. rewrite V, run_trace_spec. cbv zeta. rewrite EN.
    replace (hangs (wrs (qs ++ [last_piece]))) with false; [|symmetry; clear; generalize (qs ++ [last_piece]); induction l; [reflexivity|exact IHl]].
    unfold new_folder. destruct (folder_writes_ok (pieces (wrs (qs ++ [last_piece]))) 0 []) as (new & -> & _). eexists. reflexivity. }
  destruct E as (out & E). exists out. split; [exact E|]. intros w sizes S1 S2.
  pose proof (encode_ok_out _ _ _ E) as [_ O]. rewrite EN, pieces_wrs, folds_app in O. pose proof (folds_line qs C0 0 ltac:(discriminate)) as FL. rewrite C in FL.
  assert (NN : begin_of (bs "VCALENDAR") :: flat_map ilines items <> []) by discriminate. specialize (FL (lines_runc _ C0 NN)). destruct (folds 0 qs) as [o l]. cbn [snd] in FL. subst l.
  assert (O' : concat out = o ++ last_piece) by (rewrite O; reflexivity).
  destruct (decode_one_read (concat out) w sizes) as (n & N); [|exact S1|exact S2|].
  { intros _. rewrite O'. apply last_piece_tail. }
  exists n. intros fuel c F. rewrite (N fuel F), (encode_unfold _ _ _ E). unfold content. rewrite EN, pieces_wrs, concat_app, C. cbn [concat]. rewrite app_nil_r.
  assert (Q : lines_text (begin_of (bs "VCALENDAR") :: flat_map ilines items) ++ last_piece = lines_text (begin_of (bs "VCALENDAR") :: flat_map ilines items ++ [end_of (bs "VCALENDAR")])).
  { rewrite app_comm_cons, lines_text_app. reflexivity. }
  rewrite Q, (lines_unfold _ W), <- Q.
  assert (Q2 : lines_text (begin_of (bs "VCALENDAR") :: flat_map ilines items) ++ last_piece = frame_text (begin_of (bs "VCALENDAR")) items (end_of (bs "VCALENDAR")) ++ CRLF) by (unfold frame_text; rewrite <- app_assoc; reflexivity).
  rewrite Q2. intros D. apply decode_frame in D as [M _]; [|repeat split; [exact Sh|exact W]|right; exists []; reflexivity].
  apply means_smeans in M as [M _]. destruct (R c M pid p HP NL) as (l & q & PL & LM). exact (U l q PL LM).
Qed.
Lemma good_lined x : cal_good x -> cal_lined x.
Proof.
  induction x as [id fs IH] using sec_induct. intros G. inversion G as [? ? L F]; subst. constructor; [exact L|]. intros i fd vs N V. destruct (F i fd vs N V) as [_ A]. apply Forall_forall. intros v J. rewrite Forall_forall in A. specialize (A v J).
  pose proof (nth_error_In _ _ V) as I. inversion A as [pid p PG|sid fs' CG|w sid fs' AC CG]; subst.
  - destruct (prop_rt pid p PG) as (l & WL). destruct WL as (A1 & A2 & A3 & _). apply (VL_prop pid p l). split; [exact A1|split; assumption].
  - constructor. apply (IH vs _ I (or_introl J) CG).
  - apply (VL_alarm w); [exact AC|]. apply (IH vs _ I (or_intror J) CG).
Qed.
End L.
