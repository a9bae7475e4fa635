(** How many calls of Decode wait for each other. *)
From Coq Require Import String Ascii ZArith Bool List Lia.
From Verif Require Import Base Lib GoStrings Strtok Tokeniser SpecContent TokeniserProofs GoTime Types Params ParamTable PropTable Props SecTable Sections Codec SpecTree TreeProofs ExactProofs SpecBadLine SpecFail FailProofs FailTextProofs FailMoreProofs ShapeProofs.
From Verif Require Import SpecRules SpecEdits AddProofs Stack SpecStack.
Import ListNotations.

Section Up.
Context {env : Env}.

Lemma balance_app a b : balance (a ++ b) = (balance a + balance b)%Z.
Proof. unfold balance. induction a as [|l a IH]; cbn [app fold_right]; [reflexivity|]. rewrite IH. lia. Qed.

(** No beginning of the lines has more than [n] BEGINs more than ENDs. *)
Definition rises (n : Z) (ls : list cline) : Prop := forall m b, ls = m ++ b -> (balance m <= n)%Z.
Lemma rises_app n a b : rises n (a ++ b) -> rises (n - balance a) b.
Proof. intros H m c ->. specialize (H (a ++ m) c ltac:(rewrite app_assoc; reflexivity)). rewrite balance_app in H. lia. Qed.
Lemma rises_0 n ls : rises n ls -> (0 <= n)%Z.
Proof. intros H. exact (H [] ls eq_refl). Qed.
Lemma rises_le n m ls : rises n ls -> (n <= m)%Z -> rises m ls.
Proof. intros H L a b E. specialize (H a b E). lia. Qed.
Lemma within_rises n ls : nested_within n ls -> rises (Z.of_nat n) ls.
Proof. intros H m b ->. apply (H [] m b). reflexivity. Qed.
Lemma within_part n a m b : nested_within n (a ++ m ++ b) -> nested_within n m.
Proof. intros H a' m' b' ->. apply (H (a ++ a') m' (b' ++ b)). rewrite <- !app_assoc. reflexivity. Qed.
Lemma within_end n a b : nested_within n (a ++ b) -> nested_within n b.
Proof. intros H. apply (within_part n a b []). rewrite app_nil_r. exact H. Qed.

Lemma balance_plain l : is_plain l -> step_of l = 0%Z.
Proof. intros P. destruct (plain_tests l P) as [A B]. unfold step_of. rewrite A, B. reflexivity. Qed.
Lemma balance_begin l : is_begin l -> step_of l = 1%Z.
Proof. intros B. unfold step_of. replace (beq (upper (cl_name l)) (bs "BEGIN")) with true; [reflexivity|]. symmetry. apply beq_eq. exact B. Qed.
Lemma balance_end l : is_end l -> step_of l = (-1)%Z.
Proof.
  intros B. unfold step_of. replace (beq (upper (cl_name l)) (bs "BEGIN")) with false.
  - replace (beq (upper (cl_name l)) (bs "END")) with true; [reflexivity|]. symmetry. apply beq_eq. exact B.
  - symmetry. apply beq_neq. rewrite B. discriminate.
Qed.
Lemma balance_skips : forall d, skippable d -> balance (dlines d) = 0%Z.
Proof.
  fix IH 2. intros d [l P|b body e B E V F].
  - cbn [dlines]. unfold balance. cbn [fold_right]. rewrite balance_plain by exact P. reflexivity.
  - cbn [dlines]. change (b :: flat_map dlines body ++ [e]) with ([b] ++ flat_map dlines body ++ [e]). rewrite !balance_app.
    assert (K : balance (flat_map dlines body) = 0%Z).
    { clear - IH F. induction F as [|d' ds D F K]; [reflexivity|]. cbn [flat_map]. rewrite balance_app, K, (IH d' D). reflexivity. }
    rewrite K. unfold balance. cbn [fold_right]. rewrite balance_begin, balance_end by assumption. reflexivity.
Qed.
Lemma balance_skipped ds : Forall skippable ds -> balance (flat_map dlines ds) = 0%Z.
Proof. induction 1 as [|d ds D F K]; [reflexivity|]. cbn [flat_map]. rewrite balance_app, K, (balance_skips d D). reflexivity. Qed.

Lemma dummy_bound : forall fuel n s ls en k, src_ok s -> feeds s ls en -> rises k ls -> (Z.of_nat (dummy_calls fuel n s) <= 1 + k)%Z.
Proof.
  induction fuel as [|f IH]; intros n s ls en k O F R; pose proof (rises_0 _ _ R) as K; cbn [dummy_calls]; [lia|].
  destruct F as [s en E|s l s1 ls en G F].
  - destruct (get_ph s) as [[[data|] s1]| | |] eqn:G; try lia. exfalso. destruct en; cbn [ends] in E.
    + destruct E. congruence.
    + destruct E. congruence.
    + subst s. discriminate G.
  - rewrite G. destruct (get_ph_line s _ s1 O G) as (l' & Q & W & O1). apply cline_tokens_inj in Q. subst l'. rewrite parts_tokens.
    pose proof (rises_app k [l] ls R) as R1. destruct (beq (upper (cl_name l)) (bs "BEGIN")) eqn:B.
    + replace (balance [l]) with 1%Z in R1 by (unfold balance; cbn [fold_right]; unfold step_of; rewrite B; reflexivity).
      pose proof (IH (cl_value l) s1 ls en _ O1 F R1) as A1.
      assert (A2 : (Z.of_nat (match dec_dummy f (cl_value l) s1 with Ok s => dummy_calls f n s | _ => 1 end) <= 1 + k)%Z).
      { destruct (dec_dummy f (cl_value l) s1) as [s2| | |] eqn:D; try lia.
        apply skip_sound in D as (ds & e & Rd & Wd & Fd & E & V & O2); [|exact O1].
        destruct (feeds_reads _ _ _ Rd _ _ F) as (b & -> & Fb). apply (IH n s2 b en k O2 Fb).
        apply rises_app in R1. rewrite balance_app, balance_skipped in R1 by exact Fd. unfold balance in R1. cbn [fold_right] in R1.
        rewrite balance_end in R1 by exact E. eapply rises_le; [exact R1|lia]. }
      lia.
    + destruct (beq (upper (cl_name l)) (bs "END")) eqn:E; [lia|]. apply (IH n s1 ls en k O1 F). eapply rises_le; [exact R1|].
      unfold balance. cbn [fold_right]. unfold step_of. rewrite B, E. lia.
Qed.

(** How deep components that are known can be nested. *)
Definition height (id : secid) : nat :=
  match id with SCalendar => 4 | SEvent | STodo => 3 | STimezone => 2 | _ => 1 end.
Lemma height_tables : forallb (fun id => (1 <=? height id)%nat && forallb (fun fd => match fd_type fd with FTSec sid => (height sid <? height id)%nat | FTAlarm => (2 <? height id)%nat | _ => true end) (fields_of id)) all_secs = true.
Proof. vm_compute. reflexivity. Qed.
Lemma height_ok id : 1 <= height id /\ forall fd, In fd (fields_of id) -> match fd_type fd with FTSec sid => height sid < height id | FTAlarm => 2 < height id | _ => True end.
Proof.
  pose proof height_tables as H. rewrite forallb_forall in H. specialize (H id (all_secs_in id)). cbv beta in H. apply andb_true_iff in H as [H1 H2].
  apply Nat.leb_le in H1. split; [exact H1|]. intros fd I. rewrite forallb_forall in H2. specialize (H2 fd I). cbv beta in H2.
  destruct (fd_type fd); [exact Logic.I| |]; apply Nat.ltb_lt in H2; exact H2.
Qed.
Lemma alarm_height w sid : action_is w sid -> height sid = 1.
Proof. unfold action_is. cbn [In]. intros H. repeat (destruct H as [H|H]; [injection H as _ <-; reflexivity|]). destruct H. Qed.

Lemma sec_bound : forall fuel id fs s ls en k, src_ok s -> length fs = length (fields_of id) -> feeds s ls en -> nested_within k ls -> sec_calls fuel id fs s <= height id + k.
Proof.
  induction fuel as [|f IH]; intros id fs s ls en k O L F R; destruct (height_ok id) as [H1 H2]; cbn [sec_calls]; [lia|].
  destruct F as [s en E|s l s1 ls en G F].
  - destruct (get_ph s) as [[[data|] s1]| | |] eqn:G; try lia. exfalso. destruct en; cbn [ends] in E.
    + destruct E. congruence.
    + destruct E. congruence.
    + subst s. discriminate G.
  - rewrite G. destruct (get_ph_line s _ s1 O G) as (l' & Q & W & O1). apply cline_tokens_inj in Q. subst l'. rewrite parts_tokens. cbv zeta.
    pose proof (within_end k [l] ls R) as R1. destruct (beq (upper (cl_name l)) (bs "BEGIN")) eqn:B.
    + destruct (find_field _ _) as [[i fd]|] eqn:FF.
      * apply find_field_some in FF as [FF _]. specialize (H2 fd (nth_error_In _ _ FF)). destruct (full fd i fs); [lia|].
        destruct (fd_type fd) as [pid|sid|]; [lia| |].
        -- pose proof (IH sid (no_fields sid) s1 ls en k O1 (no_fields_length sid) F R1) as A1.
           assert (A2 : match dec_sec f sid (no_fields sid) s1 with Ok (x, s) => sec_calls f id (add_field i (FVSec x) fs) s | _ => 1 end <= height id + k).
           { destruct (dec_sec f sid (no_fields sid) s1) as [[x s2]| | |] eqn:D; try lia.
             apply dec_sec_means in D as (body & e & Rd & _ & O2 & _); [|exact O1]. destruct (feeds_reads _ _ _ Rd _ _ F) as (b & -> & Fb).
             apply (IH id _ s2 b en k O2); [rewrite add_field_length; exact L|exact Fb|eapply within_end; exact R1]. }
           lia.
        -- destruct (gather f None [] s1) as [[[pt [sid|]] s2]| | |] eqn:D; try lia.
           apply gather_sound in D as (body & e & Rd & Wd & -> & _ & _ & T & O2); [|exact O1]. destruct (feeds_reads _ _ _ Rd _ _ F) as (b & -> & Fb). cbn [app].
           assert (Hs : height sid = 1).
           { destruct T as [(us & w & id' & _ & _ & A & Q)|[_ Q]]; [|discriminate Q]. injection Q as <-. eapply alarm_height; exact A. }
           pose proof (IH sid (no_fields sid) (SrcList (as_phrases (body ++ [e]))) _ _ k (ok_list _ Wd) (no_fields_length sid) (feeds_list (body ++ [e])) (within_part k [] (body ++ [e]) b R1)) as A1.
           assert (A2 : match dec_sec f sid (no_fields sid) (SrcList (as_phrases (body ++ [e]))) with Ok (x, _) => sec_calls f id (add_field i (FVAlarm (Some x)) fs) s2 | _ => 1 end <= height id + k).
           { destruct (dec_sec f sid _ _) as [[x s3]| | |]; try lia.
             apply (IH id _ s2 b en k O2); [rewrite add_field_length; exact L|exact Fb|eapply within_end; exact R1]. }
           lia.
      * assert (R2 : rises (Z.of_nat k - 1) ls).
        { apply within_rises in R. apply (rises_app _ [l]) in R. unfold balance in R. cbn [fold_right] in R. unfold step_of in R. rewrite B in R. exact R. }
        pose proof (dummy_bound f (upper (cl_value l)) s1 ls en _ O1 F R2) as A1.
        assert (A2 : match dec_dummy f (upper (cl_value l)) s1 with Ok s => sec_calls f id fs s | _ => 1 end <= height id + k).
        { destruct (dec_dummy f _ s1) as [s2| | |] eqn:D; try lia. apply skip_sound in D as (ds & e & Rd & Wd & Fd & E & V & O2); [|exact O1].
          destruct (feeds_reads _ _ _ Rd _ _ F) as (b & -> & Fb). apply (IH id fs s2 b en k O2 L Fb). eapply within_end; exact R1. }
        lia.
    + destruct (find_field _ _) as [[i fd]|] eqn:FF.
      * destruct (full fd i fs); [lia|]. destruct (fd_type fd) as [pid|sid|]; [|lia|lia]. destruct (prop_decode pid _ _); try lia.
        apply (IH id _ s1 ls en k O1); [rewrite add_field_length; exact L|exact F|exact R1].
      * destruct (beq (upper (cl_name l)) (bs "END")); [lia|]. apply (IH id fs s1 ls en k O1 L F R1).
Qed.
Theorem calls_bound s ls en n : cut_into s ls en -> nested_within n ls -> decode_calls s <= 5 + n.
Proof.
  intros C R. apply cut_feeds in C. unfold decode_calls, src_calls. assert (O : src_ok (SrcTok (new_tokeniser s))) by (econstructor; constructor).
  destruct C as [t en E|t l s1 ls en G F].
  - destruct (get_ph t) as [[[data|] s1]| | |] eqn:G; try lia. exfalso. destruct en; cbn [ends] in E.
    + destruct E. congruence.
    + destruct E. congruence.
    + subst t. discriminate G.
  - rewrite G. destruct (get_ph_line _ _ s1 O G) as (l' & Q & W & O1). apply cline_tokens_inj in Q. subst l'. rewrite parts_tokens.
    destruct (_ && _); [|lia]. pose proof (sec_bound (S (S (length s))) SCalendar (no_fields SCalendar) s1 ls en n O1 (no_fields_length _) F (within_end n [l] ls R)). cbn [height] in *. lia.
Qed.

(** ** The other way *)
Lemma dummy_deep : forall bs f n s s', Forall is_begin bs -> reads s bs s' -> length bs < f -> 1 + length bs <= dummy_calls f n s.
Proof.
  induction bs as [|b bs IH]; intros f n s s' F R L; cbn [length] in *.
  - destruct f as [|f]; [lia|]. cbn [dummy_calls]. destruct (get_ph s) as [[[d|] s1]| | |]; try lia. destruct (parts d) as [[[nm ps] v]| | |]; try lia.
    assert (P : forall f n s, 1 <= dummy_calls f n s).
    { clear. induction f as [|f IH]; intros n s; cbn [dummy_calls]; [lia|]. destruct (get_ph s) as [[[d|] s1]| | |]; try lia. destruct (parts d) as [[[nm ps] v]| | |]; try lia.
      destruct (beq (upper nm) _); [lia|]. destruct (beq (upper nm) _); [lia|]. apply IH. }
    destruct (beq (upper nm) _); [lia|]. destruct (beq (upper nm) _); [lia|]. apply P.
  - destruct f as [|f]; [lia|]. apply Forall_cons_iff in F as [B F]. inversion R as [|? ? s1 ? ? G R1]; subst. cbn [dummy_calls]. rewrite G, parts_tokens.
    replace (beq (upper (cl_name b)) (Base.bs "BEGIN")) with true by (symmetry; apply beq_eq; exact B).
    specialize (IH f (cl_value b) s1 s' F R1 ltac:(lia)). lia.
Qed.

Theorem calls_deep s b m rest en : cut_into s (b :: m ++ rest) en -> opens_calendar b -> Forall is_begin m ->
  (forall x m', m = x :: m' -> ~ In (upper (cl_value x)) (map fst (children SCalendar))) -> 2 + length m <= decode_calls s.
Proof.
  intros C [B V] F N. pose proof (cut_length _ _ _ C) as L. cbn [length] in L. rewrite app_length in L. apply cut_feeds in C. unfold decode_calls, src_calls.
  inversion C as [|? ? s1 ? ? G C1]; subst. rewrite G, parts_tokens.
  replace (beq (upper (cl_name b)) (bs "BEGIN")) with true by (symmetry; apply beq_eq; exact B).
  replace (beq (upper (cl_value b)) (bs "VCALENDAR")) with true by (symmetry; apply beq_eq; exact V). cbn [andb].
  assert (P : forall f id fs s, 1 <= sec_calls f id fs s).
  { clear. induction f as [|f IH]; intros id fs s; cbn [sec_calls]; [lia|]. destruct (get_ph s) as [[[d|] s1]| | |]; try lia. destruct (parts d) as [[[nm ps] v]| | |]; try lia. cbv zeta.
    destruct (beq (upper nm) _).
    - destruct (find_field _ _) as [[i fd]|]; [|lia]. destruct (full fd i fs); [lia|]. destruct (fd_type fd); [lia|lia|]. destruct (gather _ _ _ _) as [[[pt [sid|]] s2]| | |]; lia.
    - destruct (find_field _ _) as [[i fd]|].
      + destruct (full fd i fs); [lia|]. destruct (fd_type fd); try lia. destruct (prop_decode _ _ _); try lia. apply IH.
      + destruct (beq (upper nm) _); [lia|apply IH]. }
  destruct m as [|x m]; cbn [length] in *.
  { specialize (P (S (S (length s))) SCalendar (no_fields SCalendar) s1). lia. }
  apply Forall_cons_iff in F as [X F]. destruct (feeds_split (x :: m) s1 rest en C1) as (s2 & R & _). inversion R as [|? ? s3 ? ? G' R1]; subst.
  specialize (N x m eq_refl). remember (S (length s)) as f eqn:Ef. cbn [sec_calls]. rewrite G', parts_tokens. cbv zeta.
  replace (beq (upper (cl_name x)) (bs "BEGIN")) with true by (symmetry; apply beq_eq; exact X).
  replace (find_field (is_sec_field (upper (cl_value x))) (fields_of SCalendar)) with (@None (nat * field)).
  - pose proof (dummy_deep m f (upper (cl_value x)) s3 s2 F R1 ltac:(lia)). lia.
  - symmetry. apply find_field_absent. intros g I. destruct (is_sec_field (upper (cl_value x)) g) eqn:T; [|reflexivity]. exfalso. apply N.
    apply sec_field_true in T as [T1 T2]. assert (K : exists sid, fd_type g = FTSec sid).
    { clear - I T1. revert g I T1. assert (K : forallb (fun g => match fd_type g with FTAlarm => false | _ => true end) (fields_of SCalendar) = true) by reflexivity.
      rewrite forallb_forall in K. intros g I T. specialize (K g I). cbv beta in K. unfold sec_field in T. destruct (fd_type g); [discriminate T|eauto|discriminate K]. }
    destruct K as [sid K]. apply in_map_iff. exists (upper (cl_value x), sid). split; [reflexivity|]. apply child_field. exists g. split; [exact I|]. split; [exact K|exact T2].
Qed.

(** ** Boxes *)
Lemma boxes_skip n : Forall skippable (boxes n).
Proof. induction n as [|n IH]; cbn [boxes]; constructor; [|constructor]. constructor; [reflexivity|reflexivity|reflexivity|exact IH]. Qed.
Lemma boxes_wf n : wf_lines (flat_map dlines (boxes n)).
Proof.
  induction n as [|n IH]; cbn [boxes flat_map dlines app]; [constructor|]. rewrite app_nil_r. constructor; [reflexivity|].
  apply Forall_app. split; [exact IH|]. constructor; [reflexivity|constructor].
Qed.
Lemma boxes_start n : exists more, flat_map dlines (boxes n) = repeat box_begin n ++ more.
Proof.
  induction n as [|n [more IH]]; [exists []; reflexivity|]. cbn [boxes flat_map dlines repeat app]. rewrite IH, app_nil_r. exists (more ++ [box_end]). rewrite <- app_assoc. reflexivity.
Qed.
Lemma boxes_length n : length (lines_text (flat_map dlines (boxes n))) = 16 * n.
Proof.
  induction n as [|n IH]; [reflexivity|]. cbn [boxes flat_map dlines]. rewrite app_nil_r. change (box_begin :: flat_map dlines (boxes n) ++ [box_end]) with ([box_begin] ++ flat_map dlines (boxes n) ++ [box_end]).
  unfold lines_text in *. rewrite !map_app, !concat_app, !app_length, IH. change (length (concat (map _ [box_begin]))) with 9. change (length (concat (map _ [box_end]))) with 7. lia.
Qed.

Theorem calls_boxes b items e tail cal n : framed b items e -> rest_ok tail -> decode_bytes (frame_text b items e ++ tail) = Ok cal ->
  framed b (box n :: items) e /\ decode_bytes (frame_text b (box n :: items) e ++ tail) = Ok cal /\
  3 + n <= decode_calls (frame_text b (box n :: items) e ++ tail) /\
  length (frame_text b (box n :: items) e ++ tail) = length (frame_text b items e ++ tail) + 16 * S n.
Proof.
  intros F T D. pose proof F as (B & V & Sh & E & W).
  assert (SO : shape_ok SCalendar (box n)).
  { apply So_other; [reflexivity|reflexivity|reflexivity|apply boxes_skip| |]; change (upper (cl_value box_begin)) with (bs "X"); cbn [children map fst In]; [|intros [Q _]; discriminate Q].
    intros Q. repeat (destruct Q as [Q|Q]; [discriminate Q|]). exact Q. }
  assert (F' : framed b (box n :: items) e).
  { split; [exact B|]. split; [exact V|]. split; [constructor; assumption|]. split; [exact E|]. cbn [flat_map]. rewrite <- app_assoc. apply Forall_cons_iff in W as [W0 W]. constructor; [exact W0|].
    apply Forall_app. split; [|exact W].
    pose proof (boxes_wf (S n)) as X. cbn [boxes flat_map dlines] in X. rewrite app_nil_r in X. exact X. }
  split; [exact F'|]. split.
  { apply (decode_unknown_comp b items (box n :: items) e tail F F' T); [|exact D]. apply (Ad_here unknown_comp no_line SCalendar [] (box n) items). exists box_begin, (boxes n), box_end. split; [reflexivity|exact SO]. }
  assert (TX : frame_text b (box n :: items) e ++ tail = lines_text (b :: flat_map dlines (boxes (S n))) ++ lines_text (flat_map ilines items) ++ cline_render e ++ tail).
  { unfold frame_text. cbn [flat_map boxes]. change (ilines (box n)) with (dlines (DComp box_begin (boxes n) box_end)). rewrite app_nil_r. unfold lines_text. cbn [map concat]. rewrite map_app, concat_app, <- !app_assoc. reflexivity. }
  split.
  - rewrite TX. destruct (cut_total (lines_text (flat_map ilines items) ++ cline_render e ++ tail)) as (ls & en & C).
    assert (WB : wf_lines (b :: flat_map dlines (boxes (S n)))). { constructor; [apply Forall_cons_iff in W as [W0 _]; exact W0|apply boxes_wf]. }
    pose proof (cut_app _ _ _ _ WB C) as C1. destruct (boxes_start (S n)) as [more Q]. rewrite Q in C1 at 2. cbn [app] in C1. rewrite <- app_assoc in C1.
    pose proof (calls_deep _ b (repeat box_begin (S n)) (more ++ ls) en C1 (conj B V)) as H. rewrite repeat_length in H. apply H.
    + apply Forall_forall. intros x I. apply repeat_spec in I. subst x. reflexivity.
    + intros x m' Q'. cbn [repeat] in Q'. injection Q' as <- _. change (upper (cl_value box_begin)) with (bs "X"). cbn [children map fst In]. intros R. repeat (destruct R as [R|R]; [discriminate R|]). exact R.
  - rewrite TX. change (b :: flat_map dlines (boxes (S n))) with ([b] ++ flat_map dlines (boxes (S n))). unfold frame_text. change (b :: flat_map ilines items) with ([b] ++ flat_map ilines items).
    pose proof (boxes_length (S n)) as L. unfold lines_text in *. rewrite !map_app, !concat_app, !app_length, L. lia.
Qed.
End Up.
