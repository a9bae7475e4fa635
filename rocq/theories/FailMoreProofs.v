(** Once Decode has failed, what follows does not matter. *)
From Coq Require Import String Ascii ZArith Bool List Lia.
From Verif Require Import Base Lib Strtok Tokeniser SpecContent TokeniserProofs GoTime Types Params ParamTable PropTable Props SecTable Sections Codec SpecTree TreeProofs ExactProofs SpecBadLine BadLineProofs SpecFail FailProofs FailTextProofs.
Import ListNotations.

Section More.
Context {env : Env}.

(** ** Components *)
Definition decided (f : fail) : Prop := f <> Failed ErrUnexpectedEOF /\ f <> Panicked.

Lemma skip_more n ls en f : skip_fault n ls en f -> en = AtEnd -> decided f -> forall more en', skip_fault n (ls ++ more) en' f.
Proof.
  induction 1 as [n ds en K|n ds e rest en K E V|n ds b ls en f K B H IH]; intros -> [D1 D2] more en'; cbn [end_fail] in *; try congruence.
  - rewrite <- app_assoc. cbn [app]. apply Sf_name; assumption.
  - rewrite <- app_assoc. cbn [app]. apply Sf_in; try assumption. apply IH; [reflexivity|split; assumption].
Qed.

Lemma fault_more : (forall id ls en f, fault id ls en f -> en = AtEnd -> decided f -> forall more en', fault id (ls ++ more) en' f) /\
  (forall id fs ls en f, breaks id fs ls en f -> en = AtEnd -> decided f -> forall more en', breaks id fs (ls ++ more) en' f) /\
  (forall ls en f, alarm_fault ls en f -> en = AtEnd -> decided f -> forall more en', alarm_fault (ls ++ more) en' f).
Proof.
  set (P := fun id ls en f (_ : fault id ls en f) => en = AtEnd -> decided f -> forall more en', fault id (ls ++ more) en' f).
  set (Q := fun id fs ls en f (_ : breaks id fs ls en f) => en = AtEnd -> decided f -> forall more en', breaks id fs (ls ++ more) en' f).
  set (R := fun ls en f (_ : alarm_fault ls en f) => en = AtEnd -> decided f -> forall more en', alarm_fault (ls ++ more) en' f).
  assert (C1 : forall id items fs rest en f (s : so_far id items fs) (b : breaks id fs rest en f), Q id fs rest en f b -> P id (flat_map ilines items ++ rest) en f (Fault id items fs rest en f s b)).
  { unfold P, Q. intros id items fs rest en f s b IH E D more en'. rewrite <- app_assoc. econstructor; [exact s|]. apply IH; assumption. }
  assert (C2 : forall id fs en, Q id fs [] en (end_fail en) (Br_end id fs en)) by (unfold Q; intros id fs en -> [D _]; cbn [end_fail] in D; congruence).
  assert (C3 : forall body ty en a s, R body en (alarm_end_fail en) (Al_end body ty en a s)) by (unfold R; intros body ty en _ _ -> [_ D]; cbn [alarm_end_fail] in D; congruence).
  split; [|split].
  - intros id ls en f H. change (P id ls en f H). revert id ls en f H.
    apply (fault_ind2 env P Q R); try assumption; unfold P, Q, R; intros; cbn [app]; rewrite <- ?app_assoc; cbn [app];
      solve [econstructor; eauto | eapply Br_skip; eauto; eapply skip_more; eauto].
  - intros id fs ls en f H. change (Q id fs ls en f H). revert id fs ls en f H.
    apply (breaks_ind2 env P Q R); try assumption; unfold P, Q, R; intros; cbn [app]; rewrite <- ?app_assoc; cbn [app];
      solve [econstructor; eauto | eapply Br_skip; eauto; eapply skip_more; eauto].
  - intros ls en f H. change (R ls en f H). revert ls en f H.
    apply (alarm_fault_ind2 env P Q R); try assumption; unfold P, Q, R; intros; cbn [app]; rewrite <- ?app_assoc; cbn [app];
      solve [econstructor; eauto | eapply Br_skip; eauto; eapply skip_more; eauto].
Qed.

(** ** Lines *)
Lemma last_not (c : ascii -> bool) v a : forallb c v = true -> c LF = false -> v <> a ++ [LF].
Proof. intros F L ->. rewrite forallb_app in F. apply andb_true_iff in F as [_ F]. cbn [forallb] in F. rewrite L in F. discriminate. Qed.

(** [s] ends with a line feed. *)
Definition lf_end (s : bytes) : Prop := exists a, s = a ++ [LF].
Lemma lf_tail a s : s <> [] -> lf_end (a ++ s) -> lf_end s.
Proof.
  intros N [b H]. destruct (exists_last N) as (s' & x & ->). rewrite app_assoc in H. apply app_inj_tail in H as [_ ->]. exists s'. reflexivity.
Qed.
Lemma lf_app (c : ascii -> bool) v r : forallb c v = true -> c LF = false -> lf_end (v ++ r) -> r <> [] /\ lf_end r.
Proof.
  intros F L H. assert (N : r <> []) by (intros ->; rewrite app_nil_r in H; destruct H as [a H]; exact (last_not c v a F L H)).
  split; [exact N|]. eapply lf_tail; eauto.
Qed.
Lemma stops_more c but r x : stops c but r -> r <> [] -> stops c but (r ++ x).
Proof. intros [|ch r' A B] N; [congruence|]. cbn [app]. constructor; assumption. Qed.

Lemma quoted_lf : quoted_char LF = false. Proof. reflexivity. Qed.
Lemma safe_lf : safe_char LF = false. Proof. reflexivity. Qed.
Lemma name_lf : name_char LF = false. Proof. reflexivity. Qed.
Lemma value_lf : value_char LF = false. Proof. reflexivity. Qed.

Lemma lf_cons c s : s <> [] -> lf_end (c :: s) -> lf_end s.
Proof. intros N H. apply (lf_tail [c] s N H). Qed.

Lemma bad_value_more s e x : bad_value s e -> lf_end s -> bad_value (s ++ x) e.
Proof.
  intros [v r F St|v r F St|v r F St N] L.
  - assert (N : v ++ r <> []) by (destruct L as [[|? a] L]; cbn [app] in L; [injection L as L _; discriminate|injection L as _ L; rewrite L; destruct a; discriminate]).
    apply (lf_cons DQ) in L; [|exact N]. apply (lf_app quoted_char) in L as [Nr _]; [|exact F|exact quoted_lf].
    cbn [app]. rewrite <- app_assoc. constructor; [exact F|]. apply stops_more; assumption.
  - assert (L2 : lf_end (DQ :: r)) by (apply (lf_tail (DQ :: v)); [discriminate|exact L]).
    assert (Nr : r <> []) by (intros ->; destruct L2 as [[|? [|? ?]] L2]; cbn [app] in L2; discriminate L2).
    cbn [app]. rewrite <- app_assoc. cbn [app]. constructor; [exact F|]. apply stops_more; assumption.
  - apply (lf_app safe_char) in L as [Nr Lr]; [|exact F|exact safe_lf]. rewrite <- app_assoc. constructor; [exact F|apply stops_more; assumption|].
    intros r' H. destruct v as [|c v]; cbn [app] in *; [|injection H as -> _; apply (N (v ++ r)); reflexivity].
    destruct r as [|c r]; [congruence|]. cbn [app] in H. injection H as -> _. apply (N r). reflexivity.
Qed.

Lemma pvalue_no_lf v : pvalue_wf v = true -> exists c, forallb c (pvalue_render v) = true /\ c LF = false.
Proof.
  assert (G : forall (cls : ascii -> bool) b, forallb cls b = true -> cls LF = false -> forallb (fun c => negb (beqc c LF)) b = true).
  { intros cls b F L. apply forallb_forall. intros c I. rewrite forallb_forall in F. specialize (F c I). destruct (beqc c LF) eqn:Q; [|reflexivity]. apply beqc_eq in Q. subst c. congruence. }
  intros W. exists (fun c => negb (beqc c LF)). split; [|reflexivity]. destruct v as [b|b]; cbn [pvalue_wf pvalue_render] in *.
  - first [exact (G _ _ W eq_refl) | rewrite !forallb_app, (G _ _ W eq_refl); reflexivity].
  - first [exact (G _ _ W eq_refl) | rewrite !forallb_app, (G _ _ W eq_refl); reflexivity].
Qed.

Lemma bad_rest_more s e x : bad_rest s e -> lf_end s -> bad_rest (s ++ x) e.
Proof.
  induction 1 as [v c r F N C|p r F St|p r e F B|r e B|p v r e F W B IH|v r e W B IH]; intros L.
  - rewrite <- !app_assoc. cbn [app]. constructor; [exact F|exact N|]. intros r' H. destruct r as [|d r]; cbn [app CRLF] in *.
    + apply (lf_tail (bs ":" ++ v)) in L; [|discriminate]. destruct L as [[|? [|? ?]] L]; cbn [app] in L; try discriminate L. injection L as ->. discriminate H.
    + injection H as -> -> _. apply (C r). reflexivity.
  - rewrite <- !app_assoc. apply (lf_app (fun c => negb (beqc c LF)) (bs ";")) in L as [_ L]; [|reflexivity|reflexivity].
    apply (lf_app name_char) in L as [Nr L]; [|exact F|exact name_lf]. constructor; [exact F|apply stops_more; assumption].
  - rewrite <- !app_assoc. constructor; [exact F|]. apply bad_value_more; [exact B|].
    apply (lf_app (fun c => negb (beqc c LF)) (bs ";")) in L as [_ L]; [|reflexivity|reflexivity].
    apply (lf_app name_char) in L as [Nr L]; [|exact F|exact name_lf]. apply (lf_app (fun c => negb (beqc c LF)) (bs "=")) in L as [_ L]; [exact L|reflexivity|reflexivity].
  - rewrite <- !app_assoc. constructor. apply bad_value_more; [exact B|]. apply (lf_app (fun c => negb (beqc c LF)) (bs ",")) in L as [_ L]; [exact L|reflexivity|reflexivity].
  - rewrite <- !app_assoc. apply BR_param; [exact F|exact W|]. apply IH.
    apply (lf_app (fun c => negb (beqc c LF)) (bs ";")) in L as [_ L]; [|reflexivity|reflexivity].
    apply (lf_app name_char) in L as [Nr L]; [|exact F|exact name_lf]. apply (lf_app (fun c => negb (beqc c LF)) (bs "=")) in L as [_ L]; [|reflexivity|reflexivity].
    destruct (pvalue_no_lf v W) as (cl & A & B'). apply (lf_app cl) in L as [_ L]; assumption.
  - rewrite <- !app_assoc. apply BR_more; [exact W|]. apply IH. apply (lf_app (fun c => negb (beqc c LF)) (bs ",")) in L as [_ L]; [|reflexivity|reflexivity].
    destruct (pvalue_no_lf v W) as (cl & A & B'). apply (lf_app cl) in L as [_ L]; assumption.
Qed.

Lemma bad_rest_nonempty r e : bad_rest r e -> r <> [].
Proof. intros []; discriminate. Qed.

Lemma bad_line_more s e x : bad_line s e -> lf_end s -> bad_line (s ++ x) e.
Proof.
  intros [c r N|n r Ne F St|n r e' Ne F C B] L.
  - cbn [app]. constructor. exact N.
  - apply (lf_app name_char) in L as [Nr L]; [|exact F|exact name_lf]. rewrite <- app_assoc. constructor; [exact Ne|exact F|]. apply stops_more; assumption.
  - apply (lf_app name_char) in L as [Nr L]; [|exact F|exact name_lf]. rewrite <- app_assoc. apply BL_rest; [exact Ne|exact F| |apply bad_rest_more; assumption].
    intros r' H. destruct r as [|c r]; [congruence|]. cbn [app] in H. change (bs "," ++ r') with (","%char :: r') in H. injection H as -> _. apply (C r). reflexivity.
Qed.

Lemma bad_line_nonempty r e : bad_line r e -> r <> [].
Proof. intros [c r' N|n r' Ne F St|n r' e' Ne F C B]; [discriminate| |]; destruct n; [congruence|discriminate|congruence|discriminate]. Qed.

Lemma value_wf_lf l : cline_wf l = true -> ~ lf_end (cline_render l).
Proof.
  intros W. unfold cline_wf in W. repeat (apply andb_true_iff in W as [W ?]). unfold cline_render. intros L. rewrite ?app_assoc in L.
  rewrite <- app_assoc in L. apply lf_tail in L; [|discriminate]. apply (lf_app (fun c => negb (beqc c LF)) (bs ":")) in L as [_ L]; [|reflexivity|reflexivity].
  destruct L as [a L]. eapply last_not; [eassumption| |exact L]. exact value_lf.
Qed.

Lemma cut_app ls x lsx enx : wf_lines ls -> cut_into x lsx enx -> cut_into (lines_text ls ++ x) (ls ++ lsx) enx.
Proof.
  intros W H. induction W as [|l ls W0 W IH]; [exact H|]. rewrite lines_text_cons, <- !app_assoc. apply (cut_cons l _ (ls ++ lsx)); [exact W0|exact IH].
Qed.

Theorem fails_more s x e : lf_end s -> fails s (Failed e) -> e <> ErrUnexpectedEOF -> fails (s ++ x) (Failed e).
Proof.
  intros L H N. destruct (cut_total s) as (ls & en & C). destruct (cut_total x) as (lsx & enx & Cx).
  assert (K : (en = AtEnd /\ cut_into (s ++ x) (ls ++ lsx) enx) \/ cut_into (s ++ x) ls en).
  { destruct C as [ls W|ls l W|ls r e' W B].
    - left. split; [reflexivity|]. apply cut_app; assumption.
    - exfalso. apply Forall_app in W as [_ W]. inversion W as [|? ? W0 _]; subst. apply (value_wf_lf l W0).
      eapply lf_tail; [|exact L]. unfold cline_render. intros Q. apply (f_equal (@length ascii)) in Q. rewrite !app_length in Q. cbn [length bs list_ascii_of_string] in Q. lia.
    - right. rewrite <- app_assoc. constructor; [exact W|]. apply bad_line_more; [exact B|]. eapply lf_tail; [|exact L]. eapply bad_line_nonempty; eauto. }
  assert (D : decided (Failed e)) by (split; [congruence|discriminate]). remember (Failed e) as f eqn:Ef.
  destruct H as [s en' C'|s l ls' en' C' Op|s b ls' en' f C' Op H]; destruct (cut_unique _ _ _ _ _ C C') as [-> ->]; (destruct K as [[-> K]|K]; cbn [app] in K).
  - destruct D as [D _]. cbn [end_fail] in D. congruence.
  - constructor. exact K.
  - eapply Fl_first; eauto.
  - eapply Fl_first; eauto.
  - eapply Fl_inside; [exact K|exact Op|]. apply (proj1 fault_more SCalendar ls' AtEnd f H eq_refl D).
  - eapply Fl_inside; eauto.
Qed.

Theorem decode_more a x e : decode_bytes (a ++ CRLF) = Err e -> e <> ErrUnexpectedEOF -> decode_bytes (a ++ CRLF ++ x) = Err e.
Proof.
  intros H N. apply (decode_fails _ (Failed e)) in H. rewrite app_assoc. apply (decode_fails _ (Failed e)). apply fails_more; [|exact H|exact N].
  exists (a ++ [CR]). rewrite <- app_assoc. reflexivity.
Qed.
End More.
