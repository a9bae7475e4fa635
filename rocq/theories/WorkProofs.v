(** How often Decode handles a line. *)
From Coq Require Import String Ascii ZArith Bool List Lia.
From Verif Require Import Base Lib GoStrings Strtok Tokeniser SpecContent TokeniserProofs GoTime Types Params ParamTable PropTable Props SecTable Sections Codec SpecTree TreeProofs ExactProofs SpecBadLine SpecFail FailProofs FailTextProofs FailMoreProofs ShapeProofs Work SpecWork.
Import ListNotations.

Section W.
Context {env : Env} (c p : list token -> nat).
Notation C := (fun l => c (cline_tokens l)).
Notation CP := (fun l => c (cline_tokens l) + p (cline_tokens l)).
Notation CCP := (fun l => 2 * c (cline_tokens l) + p (cline_tokens l)).

Lemma over_app f a b : over f (a ++ b) = over f a + over f b.
Proof. unfold over. rewrite map_app. apply list_sum_app. Qed.
Lemma over_cons f l a : over f (l :: a) = f l + over f a. Proof. reflexivity. Qed.
Lemma over_le f g a : (forall l, f l <= g l) -> over f a <= over g a.
Proof. intros H. induction a as [|l a IH]; [reflexivity|]. rewrite !over_cons. specialize (H l). lia. Qed.
Lemma over_add f g a : over (fun l => f l + g l) a = over f a + over g a.
Proof. induction a as [|l a IH]; [reflexivity|]. rewrite !over_cons, IH. lia. Qed.

Lemma not_line s en : ends s en -> forall data s1, get_ph s <> Ok (PhraseLine data, s1).
Proof. intros E data s1 G. destruct en; cbn [ends] in E; [destruct E as [? E]|destruct E as [_ E]|subst s; cbn in G]; congruence. Qed.
Ltac nothing E := match goal with |- context [get_ph ?s] => destruct (get_ph s) as [[[?data|] ?s1]| | |] eqn:?G; [exfalso; eapply not_line; [exact E|eassumption]|..] end.
Ltac none := exists []; eexists; split; [reflexivity|]; split; [cbn [over map list_sum]; lia|discriminate].

Lemma dummy_done : forall fuel n s ls en, feeds s ls en -> exists a b, ls = a ++ b /\ dummy_work c fuel n s <= over C a /\ forall s2, dec_dummy fuel n s = Ok s2 -> feeds s2 b en.
Proof.
  induction fuel as [|f IH]; intros n s ls en F; cbn [dummy_work dec_dummy]; [none|].
  destruct F as [s en E|s l s1 ls en G F].
  - nothing E; none.
  - rewrite G. cbn [bind]. rewrite parts_tokens. cbn [bind]. destruct (beq (upper (cl_name l)) (bs "BEGIN")).
    + destruct (IH (cl_value l) s1 ls en F) as (a & b & -> & W & K). destruct (dec_dummy f (cl_value l) s1) as [s2| | |] eqn:D.
      2-4: exists (l :: a), b; split; [reflexivity|]; split; [rewrite over_cons; lia|discriminate].
      destruct (IH n s2 b en (K s2 eq_refl)) as (a2 & b2 & -> & W2 & K2). exists (l :: a ++ a2), b2. split; [cbn [app]; rewrite app_assoc; reflexivity|].
      split; [rewrite over_cons, over_app; lia|exact K2].
    + destruct (beq (upper (cl_name l)) (bs "END")).
      * exists [l], ls. split; [reflexivity|]. split; [rewrite over_cons; lia|]. intros s2 Q. destruct (beq _ _); [|discriminate Q]. injection Q as <-. exact F.
      * destruct (IH n s1 ls en F) as (a & b & -> & W & K). exists (l :: a), b. split; [reflexivity|]. split; [rewrite over_cons; lia|exact K].
Qed.

Lemma gather_done : forall fuel ty acc s ls en, feeds s ls en -> exists a b, ls = a ++ b /\ gather_work c fuel ty s <= over C a /\
  forall pt ty' s2, gather fuel ty acc s = Ok (pt, ty', s2) -> pt = acc ++ as_phrases a /\ feeds s2 b en.
Proof.
  induction fuel as [|f IH]; intros ty acc s ls en F; cbn [gather_work gather]; [none|].
  destruct F as [s en E|s l s1 ls en G F].
  - nothing E; none.
  - rewrite G. cbn [bind]. rewrite parts_tokens. cbn [bind]. destruct (beq (cl_name l) (bs "BEGIN")).
    { exists [l], ls. split; [reflexivity|]. split; [rewrite over_cons; lia|discriminate]. }
    assert (Go : forall ty, exists a b, l :: ls = a ++ b /\ c (cline_tokens l) + gather_work c f ty s1 <= over C a /\
      forall pt ty' s2, gather f ty (acc ++ [PhraseLine (cline_tokens l)]) s1 = Ok (pt, ty', s2) -> pt = acc ++ as_phrases a /\ feeds s2 b en).
    { intros ty1. destruct (IH ty1 (acc ++ [PhraseLine (cline_tokens l)]) s1 ls en F) as (a & b & -> & W & K). exists (l :: a), b. split; [reflexivity|].
      split; [rewrite over_cons; lia|]. intros pt ty' s2 Q. destruct (K _ _ _ Q) as [-> K2]. split; [rewrite <- app_assoc; reflexivity|exact K2]. }
    destruct (beq (cl_name l) (bs "ACTION")).
    + destruct ty; [|apply Go]. exists [l], ls. split; [reflexivity|]. split; [rewrite over_cons; lia|discriminate].
    + destruct (beq (cl_name l) (bs "END")); [|apply Go]. exists [l], ls. split; [reflexivity|]. split; [rewrite over_cons; lia|]. intros pt ty' s2 Q. injection Q as <- <- <-. split; [reflexivity|exact F].
Qed.

Definition tame (id : secid) (ls : list cline) : Prop := (forall fd, In fd (fields_of id) -> exists pid, fd_type fd = FTProp pid) \/ Forall (fun l => ~ begins_alarm l) ls.
Lemma alarm_keys : forallb (fun id => forallb (fun fd => match fd_type fd with FTAlarm => beq (fd_key fd) (bs "VALARM") | _ => true end) (fields_of id)) all_secs = true.
Proof. vm_compute. reflexivity. Qed.
Lemma alarm_key id fd : In fd (fields_of id) -> fd_type fd = FTAlarm -> fd_key fd = bs "VALARM".
Proof.
  intros I T. pose proof alarm_keys as H. rewrite forallb_forall in H. specialize (H id (all_secs_in id)). cbv beta in H. rewrite forallb_forall in H. specialize (H fd I). cbv beta in H.
  rewrite T in H. apply beq_eq. exact H.
Qed.
Lemma sec_field_key n fd : is_sec_field n fd = true -> n = fd_key fd /\ forall pid, fd_type fd <> FTProp pid.
Proof. unfold is_sec_field. destruct (fd_type fd); intros H; [discriminate H| |]; (split; [apply beq_eq; exact H|discriminate]). Qed.
Lemma alarm_props w sid : alarm_of_word w = Some sid -> forall fd, In fd (fields_of sid) -> exists pid, fd_type fd = FTProp pid.
Proof.
  assert (K : forallb (fun sid => forallb (fun fd => match fd_type fd with FTProp _ => true | _ => false end) (fields_of sid)) [SAlarmAudio; SAlarmDisplay; SAlarmEmail; SAlarmURI; SAlarmNone] = true) by (vm_compute; reflexivity).
  rewrite forallb_forall in K. intros H fd I.
  assert (J : In sid [SAlarmAudio; SAlarmDisplay; SAlarmEmail; SAlarmURI; SAlarmNone]).
  { unfold alarm_of_word in H. repeat (destruct (beq w _); [injection H as <-; repeat first [left; reflexivity|right]|]). discriminate H. }
  specialize (K sid J). rewrite forallb_forall in K. specialize (K fd I). cbv beta in K. destruct (fd_type fd) as [pid| |]; [eauto|discriminate K|discriminate K].
Qed.
Lemma gather_type : forall fuel ty acc s pt sid s2, gather fuel ty acc s = Ok (pt, Some sid, s2) -> ty = Some sid \/ exists w, alarm_of_word w = Some sid.
Proof.
  induction fuel as [|f IH]; intros ty acc s pt sid s2 H; cbn [gather] in H; [discriminate H|].
  destruct (get_ph s) as [[[data|] s1]| | |]; cbn [bind] in H; try discriminate H. destruct (parts data) as [[[nm ps] v]| | |]; cbn [bind] in H; try discriminate H.
  destruct (beq nm _); [discriminate H|]. destruct (beq nm _).
  - destruct ty; [discriminate H|]. destruct (IH _ _ _ _ _ _ H) as [Q|Q]; [right; eauto|right; exact Q].
  - destruct (beq nm _); [injection H as _ <- _; left; reflexivity|]. exact (IH _ _ _ _ _ _ H).
Qed.

(** [k]: once or twice *)
Lemma sec_done (g : cline -> nat) (Hg : forall l, CP l <= g l) (P : secid -> list cline -> Prop)
  (Papp : forall id a b, P id (a ++ b) -> P id b)
  (Psec : forall id l ls fd sid, P id (l :: ls) -> In fd (fields_of id) -> is_sec_field (upper (cl_value l)) fd = true -> fd_type fd = FTSec sid -> P sid ls)
  (Palarm : forall id l ls fd, P id (l :: ls) -> In fd (fields_of id) -> upper (cl_name l) = bs "BEGIN" -> is_sec_field (upper (cl_value l)) fd = true -> fd_type fd = FTAlarm ->
     (forall l, CCP l <= g l) /\ forall f sid a, (forall fd, In fd (fields_of sid) -> exists pid, fd_type fd = FTProp pid) -> sec_work c p f sid (no_fields sid) (SrcList (as_phrases a)) <= over CP a) :
  forall fuel id fs s ls en, feeds s ls en -> P id ls -> exists a b, ls = a ++ b /\ sec_work c p fuel id fs s <= over g a /\ forall x s2, dec_sec fuel id fs s = Ok (x, s2) -> feeds s2 b en.
Proof.
  assert (HC : forall l, C l <= g l) by (intros l; specialize (Hg l); cbv beta in *; lia).
  induction fuel as [|f IH]; intros id fs s ls en F T; cbn [sec_work dec_sec]; [none|].
  destruct F as [s en E|s l s1 ls en G F].
  - nothing E; none.
  - rewrite G. cbn [bind]. rewrite parts_tokens. cbn [bind]. cbv zeta.
    assert (S1 : exists a b, l :: ls = a ++ b /\ c (cline_tokens l) + 0 <= over g a /\ forall x s2, @Err (sec * src) ErrStd = Ok (x, s2) -> feeds s2 b en).
    { exists [l], ls. split; [reflexivity|]. split; [rewrite over_cons; specialize (HC l); cbv beta in HC; lia|discriminate]. }
    pose proof (HC l) as Cl. pose proof (Hg l) as Gl. cbv beta in Cl, Gl.
    destruct (beq (upper (cl_name l)) (bs "BEGIN")) eqn:B.
    + apply beq_eq in B. destruct (find_field _ _) as [[i fd]|] eqn:FF.
      * apply find_field_some in FF as [FF FK]. pose proof (nth_error_In _ _ FF) as I.
        destruct (full fd i fs). { destruct S1 as (a & b & Q & W & _). exists a, b. split; [exact Q|]. split; [exact W|discriminate]. }
        destruct (fd_type fd) as [pid|sid|] eqn:FT.
        -- destruct S1 as (a & b & Q & W & _). exists a, b. split; [exact Q|]. split; [exact W|discriminate].
        -- destruct (IH sid (no_fields sid) s1 ls en F (Psec _ _ _ _ _ T I FK FT)) as (a & b & -> & W & K).
           destruct (dec_sec f sid (no_fields sid) s1) as [[x s2]| | |] eqn:D; cbn [bind].
           2-4: exists (l :: a), b; split; [reflexivity|]; split; [rewrite over_cons; lia|discriminate].
           destruct (IH id (add_field i (FVSec x) fs) s2 b en (K x s2 eq_refl) (Papp id (l :: a) b T)) as (a2 & b2 & -> & W2 & K2). exists (l :: a ++ a2), b2.
           split; [cbn [app]; rewrite app_assoc; reflexivity|]. split; [rewrite over_cons, over_app; lia|exact K2].
        -- destruct (Palarm _ _ _ _ T I B FK FT) as [HH HL]. destruct (gather_done f None [] s1 ls en F) as (a & b & -> & W & K).
           assert (CA : over C a + over CP a <= over g a) by (rewrite <- over_add; apply over_le; intros l'; specialize (HH l'); cbv beta in *; lia).
           destruct (gather f None [] s1) as [[[pt [sid|]] s2]| | |] eqn:D; cbn [bind].
           2-5: exists (l :: a), b; split; [reflexivity|]; split; [rewrite over_cons; lia|discriminate].
           destruct (K _ _ _ eq_refl) as [-> K2]. cbn [app].
           assert (SP : forall fd, In fd (fields_of sid) -> exists pid, fd_type fd = FTProp pid).
           { destruct (gather_type _ _ _ _ _ _ _ D) as [Q|[w Q]]; [discriminate Q|]. exact (alarm_props w sid Q). }
           pose proof (HL f sid a SP) as W1.
           destruct (dec_sec f sid (no_fields sid) (SrcList (as_phrases a))) as [[x s3]| | |] eqn:D2; cbn [bind].
           2-4: exists (l :: a), b; split; [reflexivity|]; split; [rewrite over_cons; lia|discriminate].
           destruct (IH id (add_field i (FVAlarm (Some x)) fs) s2 b en K2 (Papp id (l :: a) b T)) as (a2 & b2 & -> & W2 & K3). exists (l :: a ++ a2), b2.
           split; [cbn [app]; rewrite app_assoc; reflexivity|]. split; [rewrite over_cons, over_app; lia|exact K3].
      * destruct (dummy_done f (upper (cl_value l)) s1 ls en F) as (a & b & -> & W & K). pose proof (over_le C g a HC) as CA.
        destruct (dec_dummy f (upper (cl_value l)) s1) as [s2| | |] eqn:D; cbn [bind].
        2-4: exists (l :: a), b; split; [reflexivity|]; split; [rewrite over_cons; lia|discriminate].
        destruct (IH id fs s2 b en (K s2 eq_refl) (Papp id (l :: a) b T)) as (a2 & b2 & -> & W2 & K2). exists (l :: a ++ a2), b2.
        split; [cbn [app]; rewrite app_assoc; reflexivity|]. split; [rewrite over_cons, over_app; lia|exact K2].
    + assert (Go : forall fs n, n <= p (cline_tokens l) -> exists a b, l :: ls = a ++ b /\ c (cline_tokens l) + (n + sec_work c p f id fs s1) <= over g a /\ forall x s2, dec_sec f id fs s1 = Ok (x, s2) -> feeds s2 b en).
      { intros fs1 n Ln. destruct (IH id fs1 s1 ls en F (Papp id [l] ls T)) as (a & b & -> & W & K). exists (l :: a), b. split; [reflexivity|]. split; [rewrite over_cons; lia|exact K]. }
      destruct (find_field _ _) as [[i fd]|] eqn:FF.
      * destruct (full fd i fs). { destruct S1 as (a & b & Q & W & _). exists a, b. split; [exact Q|]. split; [exact W|discriminate]. }
        destruct (fd_type fd) as [pid|sid|] eqn:FT.
        2-3: destruct S1 as (a & b & Q & W & _); exists a, b; split; [exact Q|]; split; [exact W|discriminate].
        destruct (prop_decode pid (params_tokens (cl_params l)) (cl_value l)) as [v| | |]; cbn [bind]; [apply Go; lia| | |].
        all: exists [l], ls; split; [reflexivity|]; split; [rewrite over_cons; lia|discriminate].
      * destruct (beq (upper (cl_name l)) (bs "END")).
        -- exists [l], ls. split; [reflexivity|]. split; [rewrite over_cons; lia|]. intros x s2 Q. destruct (beq (cl_value l) _); [|discriminate Q]. destruct (finish id fs); try discriminate Q. cbn [bind] in Q. injection Q as _ <-. exact F.
        -- apply (Go fs 0). lia.
Qed.

Lemma props_once fuel id fs s ls en : (forall fd, In fd (fields_of id) -> exists pid, fd_type fd = FTProp pid) -> feeds s ls en -> sec_work c p fuel id fs s <= over CP ls.
Proof.
  intros H F. destruct (sec_done CP (fun l => le_n _) (fun id _ => forall fd, In fd (fields_of id) -> exists pid, fd_type fd = FTProp pid)) with (fuel := fuel) (id := id) (fs := fs) (s := s) (ls := ls) (en := en) as (a & b & -> & W & _).
  - auto.
  - intros id' l ls' fd sid T I _ FT. destruct (T fd I) as [pid Q]. congruence.
  - intros id' l ls' fd T I _ _ FT. destruct (T fd I) as [pid Q]. congruence.
  - exact F.
  - exact H.
  - rewrite over_app. lia.
Qed.
Lemma work_once_sec fuel id fs s ls en : Forall (fun l => ~ begins_alarm l) ls -> feeds s ls en -> sec_work c p fuel id fs s <= over CP ls.
Proof.
  intros H F. destruct (sec_done CP (fun l => le_n _) (fun _ ls => Forall (fun l => ~ begins_alarm l) ls)) with (fuel := fuel) (id := id) (fs := fs) (s := s) (ls := ls) (en := en) as (a & b & -> & W & _).
  - intros _ a b Q. apply Forall_app in Q. apply Q.
  - intros id' l ls' fd sid T _ _ _. apply Forall_cons_iff in T. apply T.
  - intros id' l ls' fd T I B FK FT. apply Forall_cons_iff in T as [T _]. exfalso. apply T. split; [exact B|]. apply sec_field_key in FK as [FK _]. rewrite FK. exact (alarm_key id' fd I FT).
  - exact F.
  - exact H.
  - rewrite over_app. lia.
Qed.
Lemma work_twice_sec fuel id fs s ls en : feeds s ls en -> sec_work c p fuel id fs s <= over CCP ls.
Proof.
  intros F. assert (Hg : forall l, CP l <= CCP l) by (intros l; cbv beta; lia).
  destruct (sec_done CCP Hg (fun _ _ => True)) with (fuel := fuel) (id := id) (fs := fs) (s := s) (ls := ls) (en := en) as (a & b & -> & W & _).
  - auto.
  - auto.
  - intros id' l ls' fd T I B FK FT. split; [intros; apply le_n|]. intros f sid a SP. apply (props_once f sid _ _ a AtList SP). apply feeds_list.
  - exact F.
  - exact I.
  - rewrite over_app. lia.
Qed.

Lemma work_start g fuel s ls en : (forall l, C l <= g l) -> (forall l ls', ls = l :: ls' -> forall s1, feeds s1 ls' en -> sec_work c p fuel SCalendar (no_fields SCalendar) s1 <= over g ls') ->
  cut_into s ls en -> src_work c p fuel (SrcTok (new_tokeniser s)) <= over g ls.
Proof.
  intros Hg H K. apply cut_feeds in K. unfold src_work. destruct K as [t en E|t l s1 ls en G F].
  - nothing E; cbn; lia.
  - rewrite G, parts_tokens, over_cons. specialize (H l ls eq_refl s1 F). specialize (Hg l). cbv beta in Hg. destruct (_ && _); lia.
Qed.
Theorem work_twice fuel s ls en : cut_into s ls en -> src_work c p fuel (SrcTok (new_tokeniser s)) <= over CCP ls.
Proof. apply work_start; [intros l; cbv beta; lia|]. intros l ls' -> s1 F. exact (work_twice_sec _ _ _ _ _ _ F). Qed.
Theorem work_once fuel s ls en : cut_into s ls en -> Forall (fun l => ~ begins_alarm l) ls -> src_work c p fuel (SrcTok (new_tokeniser s)) <= over CP ls.
Proof. intros K H. revert K. apply work_start; [intros l; cbv beta; lia|]. intros l ls' -> s1 F. apply Forall_cons_iff in H as [_ H]. exact (work_once_sec _ _ _ _ _ _ H F). Qed.
End W.

(** ** No line is left out *)
Section Least.
Context {env : Env} (c p : list token -> nat).
Notation C := (fun l => c (cline_tokens l)).
Lemma dummy_least : forall fuel n s ls en s2, feeds s ls en -> dec_dummy fuel n s = Ok s2 -> exists a b, ls = a ++ b /\ over C a <= dummy_work c fuel n s /\ feeds s2 b en.
Proof.
  induction fuel as [|f IH]; intros n s ls en s2 F D; cbn [dummy_work dec_dummy] in *; [discriminate D|].
  destruct F as [s en E|s l s1 ls en G F].
  - exfalso. destruct (get_ph s) as [[[data|] s1]| | |] eqn:G; try discriminate D. eapply not_line; [exact E|exact G].
  - rewrite G in *. cbn [bind] in D. rewrite parts_tokens in *. cbn [bind] in D. destruct (beq (upper (cl_name l)) (bs "BEGIN")).
    + destruct (dec_dummy f (cl_value l) s1) as [s3| | |] eqn:D1; cbn [bind] in D; try discriminate D.
      destruct (IH _ _ _ _ _ F D1) as (a & b & -> & W & K). destruct (IH _ _ _ _ _ K D) as (a2 & b2 & -> & W2 & K2).
      exists (l :: a ++ a2), b2. split; [cbn [app]; rewrite app_assoc; reflexivity|]. split; [rewrite over_cons, over_app; lia|exact K2].
    + destruct (beq (upper (cl_name l)) (bs "END")).
      * destruct (beq (upper (cl_value l)) n); [|discriminate D]. injection D as <-. exists [l], ls. split; [reflexivity|]. split; [rewrite over_cons; change (over _ []) with 0; lia|exact F].
      * destruct (IH _ _ _ _ _ F D) as (a & b & -> & W & K). exists (l :: a), b. split; [reflexivity|]. split; [rewrite over_cons; lia|exact K].
Qed.
Lemma gather_least : forall fuel ty acc s ls en pt ty' s2, feeds s ls en -> gather fuel ty acc s = Ok (pt, ty', s2) -> exists a b, ls = a ++ b /\ over C a <= gather_work c fuel ty s /\ feeds s2 b en.
Proof.
  induction fuel as [|f IH]; intros ty acc s ls en pt ty' s2 F D; cbn [gather_work gather] in *; [discriminate D|].
  destruct F as [s en E|s l s1 ls en G F].
  - exfalso. destruct (get_ph s) as [[[data|] s1]| | |] eqn:G; try discriminate D. eapply not_line; [exact E|exact G].
  - rewrite G in *. cbn [bind] in D. rewrite parts_tokens in *. cbn [bind] in D. destruct (beq (cl_name l) (bs "BEGIN")); [discriminate D|].
    destruct (beq (cl_name l) (bs "ACTION")).
    + destruct ty; [discriminate D|]. destruct (IH _ _ _ _ _ _ _ _ F D) as (a & b & -> & W & K). exists (l :: a), b. split; [reflexivity|]. split; [rewrite over_cons; lia|exact K].
    + destruct (beq (cl_name l) (bs "END")).
      * injection D as _ _ <-. exists [l], ls. split; [reflexivity|]. split; [rewrite over_cons; change (over _ []) with 0; lia|exact F].
      * destruct (IH _ _ _ _ _ _ _ _ F D) as (a & b & -> & W & K). exists (l :: a), b. split; [reflexivity|]. split; [rewrite over_cons; lia|exact K].
Qed.
Lemma sec_least : forall fuel id fs s ls en x s2, feeds s ls en -> dec_sec fuel id fs s = Ok (x, s2) -> exists a e b, ls = a ++ e :: b /\ over C (a ++ [e]) <= sec_work c p fuel id fs s /\
  upper (cl_name e) = bs "END" /\ cl_value e = sp_name (sec_spec id) /\ feeds s2 b en.
Proof.
  induction fuel as [|f IH]; intros id fs s ls en x s2 F D; cbn [sec_work dec_sec] in *; [discriminate D|].
  destruct F as [s en E|s l s1 ls en G F].
  - exfalso. destruct (get_ph s) as [[[data|] s1]| | |] eqn:G; try discriminate D. eapply not_line; [exact E|exact G].
  - rewrite G in *. cbn [bind] in D. rewrite parts_tokens in *. cbn [bind] in D. cbv zeta in *. destruct (beq (upper (cl_name l)) (bs "BEGIN")).
    + destruct (find_field _ _) as [[i fd]|].
      * destruct (full fd i fs); [discriminate D|]. destruct (fd_type fd) as [pid|sid|]; [discriminate D| |].
        -- destruct (dec_sec f sid (no_fields sid) s1) as [[y s3]| | |] eqn:D1; cbn [bind] in D; try discriminate D.
           destruct (IH _ _ _ _ _ _ _ F D1) as (a & e & b & -> & W & _ & _ & K). destruct (IH _ _ _ _ _ _ _ K D) as (a2 & e2 & b2 & -> & W2 & E2 & V2 & K2).
           exists (l :: a ++ [e] ++ a2), e2, b2. split; [cbn [app]; rewrite <- app_assoc; reflexivity|]. split; [|auto].
           replace ((l :: a ++ [e] ++ a2) ++ [e2]) with ([l] ++ (a ++ [e]) ++ (a2 ++ [e2])) by (cbn [app]; rewrite <- !app_assoc; reflexivity).
           rewrite (over_app _ [l]), (over_app _ (a ++ [e])). change (over C [l]) with (C l + 0). cbv beta. lia.
        -- destruct (gather f None [] s1) as [[[pt [sid|]] s3]| | |] eqn:D1; cbn [bind] in D; try discriminate D.
           destruct (dec_sec f sid (no_fields sid) (SrcList pt)) as [[y s4]| | |] eqn:D3; cbn [bind] in D; try discriminate D.
           destruct (gather_least _ _ _ _ _ _ _ _ _ F D1) as (a & b & -> & W & K). destruct (IH _ _ _ _ _ _ _ K D) as (a2 & e2 & b2 & -> & W2 & E2 & V2 & K2).
           exists (l :: a ++ a2), e2, b2. split; [cbn [app]; rewrite <- app_assoc; reflexivity|]. split; [|auto].
           replace ((l :: a ++ a2) ++ [e2]) with ([l] ++ a ++ (a2 ++ [e2])) by (cbn [app]; rewrite <- !app_assoc; reflexivity).
           rewrite (over_app _ [l]), (over_app _ a). change (over C [l]) with (C l + 0). cbv beta. lia.
      * destruct (dec_dummy f (upper (cl_value l)) s1) as [s3| | |] eqn:D1; cbn [bind] in D; try discriminate D.
        destruct (dummy_least _ _ _ _ _ _ F D1) as (a & b & -> & W & K). destruct (IH _ _ _ _ _ _ _ K D) as (a2 & e2 & b2 & -> & W2 & E2 & V2 & K2).
        exists (l :: a ++ a2), e2, b2. split; [cbn [app]; rewrite <- app_assoc; reflexivity|]. split; [|auto].
        replace ((l :: a ++ a2) ++ [e2]) with ([l] ++ a ++ (a2 ++ [e2])) by (cbn [app]; rewrite <- !app_assoc; reflexivity).
        rewrite (over_app _ [l]), (over_app _ a). change (over C [l]) with (C l + 0). cbv beta. lia.
    + assert (Go : forall fs n, dec_sec f id fs s1 = Ok (x, s2) -> exists a e b, l :: ls = a ++ e :: b /\ over C (a ++ [e]) <= c (cline_tokens l) + (n + sec_work c p f id fs s1) /\
        upper (cl_name e) = bs "END" /\ cl_value e = sp_name (sec_spec id) /\ feeds s2 b en).
      { intros fs1 n D1. destruct (IH _ _ _ _ _ _ _ F D1) as (a & e & b & -> & W & E2 & V2 & K). exists (l :: a), e, b. split; [reflexivity|]. split; [|auto]. cbn [app]. rewrite over_cons. lia. }
      destruct (find_field _ _) as [[i fd]|].
      * destruct (full fd i fs); [discriminate D|]. destruct (fd_type fd) as [pid|sid|]; try discriminate D.
        destruct (prop_decode pid (params_tokens (cl_params l)) (cl_value l)) as [v| | |]; cbn [bind] in D; try discriminate D. apply Go. exact D.
      * destruct (beq (upper (cl_name l)) (bs "END")) eqn:E; [|exact (Go fs 0 D)]. destruct (beq (cl_value l) _) eqn:V; [|discriminate D]. destruct (finish id fs); try discriminate D. cbn [bind] in D. injection D as _ <-.
        exists [], l, ls. split; [reflexivity|]. split; [cbn [app]; rewrite over_cons; change (over _ []) with 0; lia|]. split; [apply beq_eq; exact E|]. split; [apply beq_eq; exact V|exact F].
Qed.
Theorem work_least s cal ls en : cut_into s ls en -> decode_bytes s = Ok cal -> exists a e b, ls = a ++ e :: b /\ upper (cl_name e) = bs "END" /\ cl_value e = bs "VCALENDAR" /\
  over C (a ++ [e]) <= decode_work c p s.
Proof.
  intros K D. apply cut_feeds in K. unfold decode_bytes, decode_src in D. unfold decode_work, src_work. destruct K as [t en E|t l s1 ls en G F].
  - exfalso. destruct (get_ph t) as [[[data|] s1]| | |] eqn:G; try discriminate D. eapply not_line; [exact E|exact G].
  - rewrite G in *. cbn [bind] in D. rewrite parts_tokens in *. cbn [bind] in D. destruct (_ && _); [|discriminate D].
    destruct (dec_sec (S (S (length s))) SCalendar (no_fields SCalendar) s1) as [[x s2]| | |] eqn:D1; cbn [bind] in D; try discriminate D.
    destruct (sec_least _ _ _ _ _ _ _ _ F D1) as (a & e & b & -> & W & E & V & _). exists (l :: a), e, b. split; [reflexivity|]. split; [exact E|]. split; [exact V|]. cbn [app]. rewrite over_cons. lia.
Qed.
End Least.

(** ** Bytes *)
Section Size.
Context {env : Env}.
Lemma size_app a b : token_size (a ++ b) = token_size a + token_size b.
Proof. unfold token_size. rewrite map_app. apply list_sum_app. Qed.
Lemma size_one t d : token_size [Token t d] = 1 + length d.
Proof. unfold token_size. cbn [map list_sum fold_right t_data]. lia. Qed.
Lemma pvalue_size v : token_size [pvalue_token v] <= 1 + length (pvalue_render v).
Proof. destruct v; cbn [pvalue_token pvalue_render]; rewrite size_one; rewrite ?app_length; lia. Qed.
Lemma param_size q : token_size (cparam_tokens q) <= length (cparam_render q).
Proof.
  unfold cparam_tokens, cparam_render. change (Token tokenParamName (cp_name q) :: pvalue_token (cp_first q) :: map pvalue_token (cp_more q)) with ([Token tokenParamName (cp_name q)] ++ [pvalue_token (cp_first q)] ++ map pvalue_token (cp_more q)).
  rewrite !size_app, size_one, !app_length. pose proof (pvalue_size (cp_first q)). change (length (bs ";")) with 1. change (length (bs "=")) with 1.
  assert (M : token_size (map pvalue_token (cp_more q)) <= length (more_render (cp_more q))).
  { unfold more_render. induction (cp_more q) as [|v l IH]; [reflexivity|]. cbn [map concat]. change (pvalue_token v :: map pvalue_token l) with ([pvalue_token v] ++ map pvalue_token l). rewrite size_app, !app_length. pose proof (pvalue_size v). change (length (bs ",")) with 1. lia. }
  lia.
Qed.
Lemma line_size l : token_size (cline_tokens l) <= 1 + length (cline_render l).
Proof.
  unfold cline_tokens, cline_render. rewrite !size_app, !size_one, !app_length. change (length (bs ":")) with 1.
  assert (M : token_size (params_tokens (cl_params l)) <= length (concat (map cparam_render (cl_params l)))).
  { unfold params_tokens. induction (cl_params l) as [|q qs IH]; [reflexivity|]. cbn [flat_map map concat]. rewrite size_app, app_length. pose proof (param_size q). lia. }
  lia.
Qed.
Lemma lines_size ls : over (fun l => token_size (cline_tokens l)) ls <= length (lines_text ls).
Proof.
  induction ls as [|l ls IH]; [reflexivity|]. rewrite over_cons. unfold lines_text in *. cbn [map concat]. rewrite !app_length. pose proof (line_size l). change (length CRLF) with 2. lia.
Qed.
Lemma text_size s ls en : cut_into s ls en -> over (fun l => token_size (cline_tokens l)) ls <= length s + 1.
Proof.
  intros [ls' _|ls' l _|ls' r e _ _]; pose proof (lines_size ls'); rewrite ?over_app, ?app_length; [lia| |lia]. rewrite over_cons. pose proof (line_size l). change (over _ []) with 0. lia.
Qed.
Theorem work_size s : decode_work token_size token_size s <= 3 * (length s + 1).
Proof.
  destruct (cut_total s) as (ls & en & K). pose proof (work_twice token_size token_size (S (S (length s))) s ls en K) as W. unfold decode_work.
  pose proof (text_size s ls en K) as T. enough (over (fun l => 2 * token_size (cline_tokens l) + token_size (cline_tokens l)) ls = 3 * over (fun l => token_size (cline_tokens l)) ls) by lia.
  clear. induction ls as [|l ls IH]; [reflexivity|]. rewrite !over_cons, IH. lia.
Qed.
Theorem work_lines fuel s ls en : cut_into s ls en -> src_work (fun _ => 1) (fun _ => 0) fuel (SrcTok (new_tokeniser s)) <= 2 * length ls /\ src_work (fun _ => 0) (fun _ => 1) fuel (SrcTok (new_tokeniser s)) <= length ls.
Proof.
  intros K. assert (N : forall n, over (fun _ => n) ls = n * length ls) by (intros n; clear; induction ls as [|l ls IH]; [cbn; lia|]; rewrite over_cons, IH; cbn [length]; lia).
  pose proof (work_twice (fun _ => 1) (fun _ => 0) fuel s ls en K) as A. pose proof (work_twice (fun _ => 0) (fun _ => 1) fuel s ls en K) as B. cbv beta in A, B. rewrite N in A, B. lia.
Qed.
End Size.
