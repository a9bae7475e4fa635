(** The decoder of components against the meaning of component trees. *)
From Coq Require Import String Ascii ZArith Bool List Lia.
From Verif Require Import Base Lib Tokeniser SpecContent TokeniserProofs GoTime Types Params ParamTable PropTable Props SecTable Sections Codec SpecTree.
Import ListNotations.

Section Tree.
Context {env : Env}.

(** ** Sources *)
Inductive reads : src -> list cline -> src -> Prop :=
| reads_nil s : reads s [] s
| reads_cons s l s1 ls s2 : get_ph s = Ok (PhraseLine (cline_tokens l), s1) -> reads s1 ls s2 -> reads s (l :: ls) s2.

Lemma reads_app s a s1 b s2 : reads s a s1 -> reads s1 b s2 -> reads s (a ++ b) s2.
Proof. induction 1; intros H'; [exact H'|]. cbn [app]. econstructor; eauto. Qed.

Lemma reads_split a : forall s b s2, reads s (a ++ b) s2 -> exists s1, reads s a s1 /\ reads s1 b s2.
Proof.
  induction a as [|l a IH]; intros s b s2 H; cbn [app] in H.
  - exists s. split; [constructor|exact H].
  - inversion H as [|? ? s1 ? ? G R]; subst. destruct (IH _ _ _ R) as (s3 & R1 & R2). exists s3. split; [econstructor; eauto|exact R2].
Qed.

Lemma reads_one s l s1 : reads s [l] s1 -> get_ph s = Ok (PhraseLine (cline_tokens l), s1).
Proof. intros H. inversion H as [|? ? s2 ? ? G R]; subst. inversion R; subst. exact G. Qed.
Lemma reads_one_intro s l s1 : get_ph s = Ok (PhraseLine (cline_tokens l), s1) -> reads s [l] s1.
Proof. intros H. econstructor; [exact H|constructor]. Qed.

Lemma reads_list ls : forall more, reads (SrcList (map (fun l => PhraseLine (cline_tokens l)) (ls ++ more))) ls (SrcList (map (fun l => PhraseLine (cline_tokens l)) more)).
Proof. induction ls as [|l ls IH]; intros more; [constructor|]. cbn [app map]. econstructor; [reflexivity|]. apply IH. Qed.

Lemma parts_tokens l : parts (cline_tokens l) = Ok (cl_name l, params_tokens (cl_params l), cl_value l).
Proof.
  unfold cline_tokens. cbn [app]. set (h := Token tokenName (cl_name l)). set (y := Token tokenValue (cl_value l)). generalize (params_tokens (cl_params l)). intros k.
  assert (G : exists t ts, k ++ [y] = t :: ts) by (destruct k; cbn [app]; eauto). destruct G as (t & ts & E).
  unfold parts. rewrite E. cbn [tl]. rewrite <- E. rewrite removelast_last.
  replace (last (h :: k ++ [y]) h) with y; [reflexivity|]. symmetry. change (h :: k ++ [y]) with ((h :: k) ++ [y]). apply last_last.
Qed.

Lemma pvalue_token_inj a b : pvalue_token a = pvalue_token b -> a = b.
Proof. destruct a, b; cbn [pvalue_token]; intros H; try discriminate H; injection H as ->; reflexivity. Qed.
Lemma params_tokens_cons p ps : params_tokens (p :: ps) = Token tokenParamName (cp_name p) :: pvalue_token (cp_first p) :: map pvalue_token (cp_more p) ++ params_tokens ps.
Proof. reflexivity. Qed.
Lemma params_tokens_head ps : params_tokens ps = [] \/ exists n ts, params_tokens ps = Token tokenParamName n :: ts.
Proof. destruct ps as [|p ps]; [left; reflexivity|]. right. rewrite params_tokens_cons. eauto. Qed.
Lemma more_inj : forall a b x y, (x = [] \/ exists n ts, x = Token tokenParamName n :: ts) -> (y = [] \/ exists n ts, y = Token tokenParamName n :: ts) ->
  map pvalue_token a ++ x = map pvalue_token b ++ y -> a = b /\ x = y.
Proof.
  induction a as [|v a IH]; intros [|w b] x y X Y H; cbn [map app] in H.
  - auto.
  - destruct X as [->|(n & ts & ->)]; [discriminate|]. injection H as H _. destruct w; discriminate.
  - destruct Y as [->|(n & ts & ->)]; [discriminate|]. injection H as H _. destruct v; discriminate.
  - injection H as H0 H. apply pvalue_token_inj in H0. destruct (IH b x y X Y H) as [-> ->]. subst w. auto.
Qed.
Lemma params_tokens_inj : forall p q, params_tokens p = params_tokens q -> p = q.
Proof.
  induction p as [|a p IH]; intros [|b q] H; [reflexivity|rewrite params_tokens_cons in H; discriminate|rewrite params_tokens_cons in H; discriminate|].
  rewrite !params_tokens_cons in H. injection H as Hn Hf Hm. apply pvalue_token_inj in Hf.
  apply more_inj in Hm as [Hm Hp]; [|apply params_tokens_head|apply params_tokens_head]. apply IH in Hp. subst q.
  destruct a, b; cbn in *. congruence.
Qed.
Lemma cline_tokens_inj a b : cline_tokens a = cline_tokens b -> a = b.
Proof.
  unfold cline_tokens. cbn [app]. intros H. injection H as Hn H. apply app_inj_tail in H as [Hp Hv]. apply params_tokens_inj in Hp.
  injection Hv as Hv. destruct a, b; cbn in *. congruence.
Qed.

(** Every line that a source yields is a well-formed line. *)
Definition wf_lines (ls : list cline) : Prop := Forall (fun l => cline_wf l = true) ls.
Inductive src_ok : src -> Prop :=
| ok_tok z s : ready z s -> src_ok (SrcTok z)
| ok_list ls : wf_lines ls -> src_ok (SrcList (map (fun l => PhraseLine (cline_tokens l)) ls)).

Lemma get_ph_line s d s1 : src_ok s -> get_ph s = Ok (PhraseLine d, s1) ->
  exists l, d = cline_tokens l /\ cline_wf l = true /\ src_ok s1.
Proof.
  intros O G. destruct O as [z s R|ls W].
  - cbn [get_ph] in G. pose proof (get_phrase_sound z s R) as P.
    destruct (get_phrase z) as [[[data|] z']| | |]; cbn [bind] in G; try discriminate G.
    injection G as <- <-. destruct P as (l & e & W & D & L & _). exists l. split; [exact D|]. split; [exact W|].
    destruct L; econstructor; constructor.
  - destruct W as [|l ls W0 W]; cbn [map get_ph] in G; [discriminate|]. injection G as <- <-. exists l. split; [reflexivity|]. split; [exact W0|]. constructor. exact W.
Qed.

(** ** Skipped components *)
Lemma skip_sound : forall fuel n s s', src_ok s -> dec_dummy fuel n s = Ok s' ->
  exists ds e, reads s (flat_map dlines ds ++ [e]) s' /\ wf_lines (flat_map dlines ds ++ [e]) /\ Forall skippable ds /\
    is_end e /\ upper (cl_value e) = n /\ src_ok s'.
Proof.
  induction fuel as [|f IH]; intros n s s' O H; [discriminate|]. cbn [dec_dummy] in H.
  destruct (get_ph s) as [[[data|] s1]| | |] eqn:G; cbn [bind] in H; try discriminate H.
  destruct (get_ph_line s data s1 O G) as (l & -> & W & O1). rewrite parts_tokens in H. cbn [bind] in H.
  destruct (beq (upper (cl_name l)) (bs "BEGIN")) eqn:B.
  - apply beq_eq in B. destruct (dec_dummy f (cl_value l) s1) as [s2| | |] eqn:D; cbn [bind] in H; try discriminate H.
    apply IH in D as (ds & e & R & Wd & F & E & V & O2); [|exact O1].
    apply IH in H as (ds' & e' & R' & Wd' & F' & E' & V' & O3); [|exact O2].
    exists (DComp l ds e :: ds'), e'. cbn [flat_map dlines]. split; [|split; [|split; [|split; [|split]]]]; try assumption.
    + rewrite <- app_assoc. cbn [app]. econstructor; [exact G|]. eapply reads_app; [exact R|exact R'].
    + rewrite <- app_assoc. cbn [app]. constructor; [exact W|]. apply Forall_app. split; assumption.
    + constructor; [|exact F']. constructor; assumption.
  - destruct (beq (upper (cl_name l)) (bs "END")) eqn:E0.
    + apply beq_eq in E0. destruct (beq (upper (cl_value l)) n) eqn:V; try discriminate H. apply beq_eq in V. apply Ok_inj in H. subst s'.
      exists [], l. cbn [flat_map app]. split; [apply reads_one_intro; exact G|]. split; [constructor; [exact W|constructor]|]. split; [constructor|].
      split; [exact E0|]. split; assumption.
    + apply IH in H as (ds & e & R & Wd & F & E & V & O2); [|exact O1]. exists (DLine l :: ds), e. cbn [flat_map dlines app].
      split; [econstructor; [exact G|exact R]|]. split; [constructor; assumption|]. split; [|split; [|split]; assumption].
      constructor; [|exact F]. constructor. split; intro Q; unfold is_begin, is_end, line_is in Q; apply beq_eq in Q; congruence.
Qed.

Lemma plain_tests l : is_plain l -> beq (upper (cl_name l)) (bs "BEGIN") = false /\ beq (upper (cl_name l)) (bs "END") = false.
Proof. intros [A B]. split; apply beq_neq; intro Q; [apply A|apply B]; exact Q. Qed.

Lemma skip_complete : forall fuel n ds e s s', reads s (flat_map dlines ds ++ [e]) s' -> Forall skippable ds ->
  is_end e -> upper (cl_value e) = n -> length (flat_map dlines ds) < fuel -> dec_dummy fuel n s = Ok s'.
Proof.
  induction fuel as [|f IH]; intros n ds e s s' R F E V L; [lia|]. cbn [dec_dummy].
  destruct ds as [|d ds].
  - cbn [flat_map app] in R. apply reads_one in R. rewrite R. cbn [bind]. rewrite parts_tokens. cbn [bind].
    unfold is_end, line_is in E. rewrite E. change (beq (bs "END") (bs "BEGIN")) with false. rewrite beq_refl. rewrite V, beq_refl. reflexivity.
  - inversion F as [|? ? F0 F1]; subst. destruct F0 as [l P|b body e' B E' V' Fb]; cbn [flat_map dlines app length] in R, L.
    + inversion R as [|? ? s1 ? ? G R1]; subst. rewrite G. cbn [bind]. rewrite parts_tokens. cbn [bind].
      destruct (plain_tests l P) as [-> ->]. eapply IH; eauto. lia.
    + inversion R as [|? ? s1 ? ? G R1]; subst. rewrite G. cbn [bind]. rewrite parts_tokens. cbn [bind].
      unfold is_begin, line_is in B. rewrite B, beq_refl. rewrite <- app_assoc in R1. apply reads_split in R1 as (s2 & R1 & R2).
      rewrite !app_length in L. cbn [length] in L.
      rewrite (IH (cl_value b) body e' s1 s2 R1 Fb E' V') by lia. cbn [bind]. eapply IH; eauto. lia.
Qed.

(** ** Field tables *)
Definition sec_field (f : field) : bool := match fd_type f with FTProp _ => false | _ => true end.
Fixpoint distinct (l : list (bool * bytes)) : bool :=
  match l with [] => true | (b, k) :: l' => negb (existsb (fun x => Bool.eqb b (fst x) && beq k (snd x)) l') && distinct l' end.
Definition sig (f : field) : bool * bytes := (sec_field f, fd_key f).

Lemma all_secs_in id : In id all_secs.
Proof. destruct id; vm_compute; tauto. Qed.

Lemma tables_ok : forallb (fun id => distinct (map sig (fields_of id)) &&
  forallb (fun f => negb (beq (fd_key f) (bs "BEGIN")) && negb (beq (fd_key f) (bs "END"))) (fields_of id)) all_secs = true.
Proof. vm_compute. reflexivity. Qed.

Lemma table_ok id : distinct (map sig (fields_of id)) = true /\
  forall f, In f (fields_of id) -> fd_key f <> bs "BEGIN" /\ fd_key f <> bs "END".
Proof.
  pose proof tables_ok as T. rewrite forallb_forall in T. specialize (T id (all_secs_in id)). cbv beta in T.
  apply andb_true_iff in T as [T1 T2]. split; [exact T1|]. intros f I. rewrite forallb_forall in T2. specialize (T2 f I). cbv beta in T2.
  apply andb_true_iff in T2 as [A B]. apply negb_true_iff in A, B. split; apply beq_neq; assumption.
Qed.

Lemma distinct_nth l : distinct l = true -> forall i j x, nth_error l i = Some x -> nth_error l j = Some x -> i = j.
Proof.
  induction l as [|[b k] l IH]; intros D i j x Hi Hj; [destruct i; discriminate|].
  cbn [distinct] in D. apply andb_true_iff in D as [D1 D2]. apply negb_true_iff in D1. rewrite existsb_false in D1.
  assert (N : forall n, nth_error l n = Some (b, k) -> False).
  { intros n H. apply nth_error_In in H. specialize (D1 _ H). cbv beta in D1. cbn [fst snd] in D1. rewrite beq_refl, eqb_reflx in D1. discriminate. }
  destruct i as [|i], j as [|j]; cbn [nth_error] in Hi, Hj.
  - reflexivity.
  - injection Hi as <-. destruct (N _ Hj).
  - injection Hj as <-. destruct (N _ Hi).
  - f_equal. eapply IH; eauto.
Qed.

Lemma sig_unique id i j f g : nth_error (fields_of id) i = Some f -> nth_error (fields_of id) j = Some g -> sig f = sig g -> i = j.
Proof.
  intros Hi Hj S. apply (distinct_nth (map sig (fields_of id)) (proj1 (table_ok id)) i j (sig f)).
  - rewrite nth_error_map, Hi. reflexivity.
  - rewrite nth_error_map, Hj. cbn [option_map]. rewrite S. reflexivity.
Qed.

Lemma find_field_some p l : forall i f, find_field p l = Some (i, f) -> nth_error l i = Some f /\ p f = true.
Proof.
  induction l as [|g l IH]; intros i f H; [discriminate|]. cbn [find_field] in H. destruct (p g) eqn:P.
  - injection H as <- <-. split; [reflexivity|exact P].
  - destruct (find_field p l) as [[i' g']|] eqn:F; [|discriminate]. injection H as <- <-. apply IH. reflexivity.
Qed.
Lemma find_field_none p l : find_field p l = None -> forall f, In f l -> p f = false.
Proof.
  induction l as [|g l IH]; intros H f I; [destruct I|]. cbn [find_field] in H. destruct (p g) eqn:P; [discriminate|].
  destruct (find_field p l) as [[i' g']|] eqn:F; [discriminate|]. destruct I as [<-|I]; [exact P|]. apply IH; auto.
Qed.
Lemma find_field_here p l i f : nth_error l i = Some f -> p f = true ->
  (forall j g, nth_error l j = Some g -> p g = true -> j = i) -> find_field p l = Some (i, f).
Proof.
  intros H P U. destruct (find_field p l) as [[j g]|] eqn:F.
  - apply find_field_some in F as [F1 F2]. assert (j = i) by (eapply U; eauto). subst j. congruence.
  - apply nth_error_In in H. rewrite (find_field_none p l F f H) in P. discriminate.
Qed.
Lemma find_field_absent p l : (forall f, In f l -> p f = false) -> find_field p l = None.
Proof.
  intros H. destruct (find_field p l) as [[j g]|] eqn:F; [|reflexivity]. apply find_field_some in F as [F1 F2].
  apply nth_error_In in F1. rewrite (H g F1) in F2. discriminate.
Qed.

(** [belongs] and the tests of the decoder *)
Lemma prop_field_true n f : is_prop_field n f = true <-> sec_field f = false /\ fd_key f = n.
Proof.
  unfold is_prop_field, sec_field. destruct (fd_type f); [rewrite beq_eq; intuition congruence| |]; intuition discriminate.
Qed.
Lemma sec_field_true n f : is_sec_field n f = true <-> sec_field f = true /\ fd_key f = n.
Proof.
  unfold is_sec_field, sec_field. destruct (fd_type f); [|rewrite beq_eq; intuition congruence|rewrite beq_eq; intuition congruence]; intuition discriminate.
Qed.

Definition item_sig (i : item) : bool * bytes :=
  match i with
  | ILine l => (false, upper (cl_name l))
  | IComp b _ _ | IAlarm b _ _ | IOther b _ _ => (true, upper (cl_value b))
  end.
Lemma belongs_sig f i : belongs f i -> sig f = item_sig i.
Proof.
  unfold belongs, sig, item_sig, sec_field, line_is. destruct i; destruct (fd_type f); intros H; try contradiction H; congruence.
Qed.

Lemma belongs_one id i j f g it : nth_error (fields_of id) i = Some f -> nth_error (fields_of id) j = Some g ->
  belongs f it -> belongs g it -> i = j.
Proof. intros Hi Hj A B. apply belongs_sig in A, B. eapply sig_unique; eauto. congruence. Qed.

(** ** Storing *)
Lemma set_nth_length {A} (a : A) : forall n l, length (set_nth n a l) = length l.
Proof. induction n as [|n IH]; intros [|x l]; cbn [set_nth length]; auto. Qed.
Lemma set_nth_same {A} (a d : A) : forall n l, n < length l -> nth n (set_nth n a l) d = a.
Proof. induction n as [|n IH]; intros [|x l] H; cbn [set_nth nth length] in *; try lia; auto. apply IH. lia. Qed.
Lemma set_nth_other {A} (a d : A) : forall n m l, n <> m -> nth m (set_nth n a l) d = nth m l d.
Proof.
  induction n as [|n IH]; intros [|m] [|x l] H; cbn [set_nth nth]; auto; try congruence.
Qed.
Lemma add_field_length i v fs : length (add_field i v fs) = length fs.
Proof. apply set_nth_length. Qed.
Lemma add_field_same i v fs : i < length fs -> nth i (add_field i v fs) [] = nth i fs [] ++ [v].
Proof. apply set_nth_same. Qed.
Lemma add_field_other i j v fs : i <> j -> nth j (add_field i v fs) [] = nth j fs [].
Proof. intros H. apply set_nth_other. exact H. Qed.
Lemma no_fields_length id : length (no_fields id) = length (fields_of id).
Proof. apply map_length. Qed.
Lemma no_fields_nth id i : nth i (no_fields id) [] = [].
Proof. unfold no_fields. generalize (fields_of id). intros l. revert i. induction l as [|f l IH]; intros [|i]; cbn [map nth]; auto. Qed.

(** ** End of a component *)
Lemma missing_false : forall l fs, length fs = length l -> (missing l fs = false <->
  forall i f, nth_error l i = Some f -> fd_mode f = FReq -> nth i fs [] <> []).
Proof.
  induction l as [|f l IH]; intros [|v fs] L; cbn [length] in L; try discriminate L.
  - split; [|reflexivity]. intros _ i g H. destruct i; discriminate.
  - cbn [missing]. rewrite orb_false_iff, IH by (injection L; auto). split.
    + intros [A B] [|i] g H M; cbn [nth_error nth] in *.
      * injection H as <-. rewrite M in A. destruct v; [discriminate|congruence].
      * eapply B; eauto.
    + intros H. split.
      * specialize (H 0 f eq_refl). cbn [nth] in H. destruct (fd_mode f); [|reflexivity|reflexivity]. specialize (H eq_refl). destruct v; [congruence|reflexivity].
      * intros i g N M. apply (H (S i) g N M).
Qed.

Lemma req_ok_spec fs r : req_ok fs r = true <-> extra_ok (present fs) r.
Proof.
  unfold req_ok, extra_ok, present, isnil. destruct r as [a b|a b|a b|a b]; destruct (nth a fs []), (nth b fs []); cbn [negb andb Bool.eqb]; split; intros H; auto; try discriminate H; try (destruct H; discriminate); try (specialize (H eq_refl); discriminate).
Qed.

Lemma finish_ok id fs x : length fs = length (fields_of id) -> (finish id fs = Ok x <->
  x = Sec id fs /\ (forall i f, nth_error (fields_of id) i = Some f -> fd_mode f = FReq -> nth i fs [] <> []) /\
  Forall (extra_ok (present fs)) (sp_reqs (sec_spec id))).
Proof.
  intros L. unfold finish. destruct (missing (fields_of id) fs) eqn:M.
  - split; [discriminate|]. intros (_ & A & _). pose proof (proj2 (missing_false _ _ L) A). congruence.
  - pose proof (proj1 (missing_false _ _ L) M) as M'. clear M. rename M' into M. destruct (forallb (req_ok fs) (sp_reqs (sec_spec id))) eqn:F.
    + rewrite forallb_forall in F. split.
      * intros H. apply Ok_inj in H. split; [auto|]. split; [exact M|]. apply Forall_forall. intros r I. apply req_ok_spec, F, I.
      * intros (-> & _). reflexivity.
    + split; [discriminate|]. intros (_ & _ & A). rewrite Forall_forall in A.
      assert (forallb (req_ok fs) (sp_reqs (sec_spec id)) = true); [|congruence]. apply forallb_forall. intros r I. apply req_ok_spec, A, I.
Qed.

Lemma full_spec f i fs : full f i fs = true <-> fd_mode f <> FMany /\ nth i fs [] <> [].
Proof.
  unfold full. destruct (fd_mode f); destruct (nth i fs []); cbn [isnil negb]; intuition congruence.
Qed.

(** ** Alarms *)
Lemma action_spec w id : alarm_of_word w = Some id <-> action_is w id.
Proof.
  unfold alarm_of_word, action_is. split.
  - intros H. repeat match type of H with context [beq w ?x] => let B := fresh "B" in destruct (beq w x) eqn:B; [apply beq_eq in B; subst w; injection H as <-; cbn [In]; tauto|] end. discriminate.
  - cbn [In]. intros [H|[H|[H|[H|[H|[]]]]]]; injection H as <- <-; reflexivity.
Qed.
Lemma action_none w : alarm_of_word w = None <-> forall id, ~ action_is w id.
Proof.
  split.
  - intros H id A. apply action_spec in A. congruence.
  - intros H. destruct (alarm_of_word w) as [id|] eqn:E; [|reflexivity]. apply action_spec in E. destruct (H id E).
Qed.

Definition ty_after (ty : option secid) (acts : list bytes) (ty' : option secid) : Prop :=
  match ty with
  | Some id => acts = [] /\ ty' = Some id
  | None => (exists us w id, acts = us ++ [w] /\ Forall (fun u => forall id, ~ action_is u id) us /\ action_is w id /\ ty' = Some id) \/
            (Forall (fun u => forall id, ~ action_is u id) acts /\ ty' = None)
  end.

Definition as_phrases (ls : list cline) : list phrase := map (fun l => PhraseLine (cline_tokens l)) ls.

Lemma gather_sound : forall fuel ty acc s pt ty' s', src_ok s -> gather fuel ty acc s = Ok (pt, ty', s') ->
  exists body e, reads s (body ++ [e]) s' /\ wf_lines (body ++ [e]) /\ pt = acc ++ as_phrases (body ++ [e]) /\
    Forall (fun l => cl_name l <> bs "BEGIN" /\ cl_name l <> bs "END") body /\ cl_name e = bs "END" /\
    ty_after ty (values_named (bs "ACTION") body) ty' /\ src_ok s'.
Proof.
  induction fuel as [|f IH]; intros ty acc s pt ty' s' O H; [discriminate|]. cbn [gather] in H.
  destruct (get_ph s) as [[[data|] s1]| | |] eqn:G; cbn [bind] in H; try discriminate H.
  destruct (get_ph_line s data s1 O G) as (l & -> & W & O1). rewrite parts_tokens in H. cbn [bind] in H.
  destruct (beq (cl_name l) (bs "BEGIN")) eqn:B; [discriminate|]. apply beq_neq in B.
  assert (STEP : forall ty1, (ty1 = ty /\ cl_name l <> bs "ACTION") \/ (ty = None /\ cl_name l = bs "ACTION" /\ ty1 = alarm_of_word (cl_value l)) -> cl_name l <> bs "END" ->
    gather f ty1 (acc ++ [PhraseLine (cline_tokens l)]) s1 = Ok (pt, ty', s') ->
    exists body e, reads s (body ++ [e]) s' /\ wf_lines (body ++ [e]) /\ pt = acc ++ as_phrases (body ++ [e]) /\
      Forall (fun l => cl_name l <> bs "BEGIN" /\ cl_name l <> bs "END") body /\ cl_name e = bs "END" /\
      ty_after ty (values_named (bs "ACTION") body) ty' /\ src_ok s').
  { intros ty1 T E R. apply IH in R as (body & e & R & Wb & P & F & Ne & A & O2); [|exact O1].
    exists (l :: body), e. cbn [app]. split; [econstructor; eauto|]. split; [constructor; assumption|].
    split; [rewrite P; unfold as_phrases; cbn [map]; rewrite <- app_assoc; reflexivity|]. split; [constructor; auto|]. split; [exact Ne|]. split; [|exact O2].
    unfold values_named in *. cbn [filter]. destruct T as [[-> N]|(-> & N & ->)].
    - apply beq_neq in N. rewrite N. exact A.
    - rewrite N, beq_refl. cbn [map]. unfold ty_after in *. destruct (alarm_of_word (cl_value l)) as [id|] eqn:AW.
      + destruct A as [A ->]. left. exists [], (cl_value l), id. rewrite A. split; [reflexivity|]. split; [constructor|]. split; [apply action_spec; exact AW|reflexivity].
      + pose proof (proj1 (action_none _) AW) as AW'. destruct A as [(us & w & id & A & F2 & A2 & ->)|[F2 ->]].
        * left. exists (cl_value l :: us), w, id. rewrite A. split; [reflexivity|]. split; [constructor; assumption|]. split; [exact A2|reflexivity].
        * right. split; [constructor; assumption|reflexivity]. }
  destruct (beq (cl_name l) (bs "ACTION")) eqn:A.
  - apply beq_eq in A. destruct ty as [id|]; [discriminate|]. apply (STEP (alarm_of_word (cl_value l))); [right; auto| |exact H].
    rewrite A. discriminate.
  - apply beq_neq in A. destruct (beq (cl_name l) (bs "END")) eqn:E.
    + apply beq_eq in E. apply Ok_inj in H. injection H as <- <- <-. exists [], l. cbn [app].
      split; [apply reads_one_intro; exact G|]. split; [constructor; [exact W|constructor]|]. split; [reflexivity|]. split; [constructor|]. split; [exact E|]. split; [|exact O1].
      unfold ty_after, values_named. cbn [filter map]. destruct ty; [auto|]. right. split; [constructor|reflexivity].
    + apply beq_neq in E. apply (STEP ty); [left; auto|exact E|exact H].
Qed.

Lemma gather_complete : forall fuel ty acc s body e ty' s', reads s (body ++ [e]) s' ->
  Forall (fun l => cl_name l <> bs "BEGIN" /\ cl_name l <> bs "END") body -> cl_name e = bs "END" ->
  ty_after ty (values_named (bs "ACTION") body) ty' -> length body < fuel ->
  gather fuel ty acc s = Ok (acc ++ as_phrases (body ++ [e]), ty', s').
Proof.
  induction fuel as [|f IH]; intros ty acc s body e ty' s' R F E T L; [lia|]. cbn [gather].
  destruct body as [|l body]; cbn [app length] in *.
  - apply reads_one in R. rewrite R. cbn [bind]. rewrite parts_tokens. cbn [bind]. rewrite E.
    change (beq (bs "END") (bs "BEGIN")) with false. change (beq (bs "END") (bs "ACTION")) with false. rewrite beq_refl.
    unfold ty_after, values_named in T. cbn [filter map] in T. destruct ty as [id|].
    + destruct T as [_ ->]. reflexivity.
    + destruct T as [(us & w & id & T & _)|[_ ->]]; [destruct us; discriminate|]. reflexivity.
  - inversion R as [|? ? s1 ? ? G R1]; subst. rewrite G. cbn [bind]. rewrite parts_tokens. cbn [bind].
    inversion F as [|? ? [N1 N2] F1]; subst. apply beq_neq in N1, N2. rewrite N1, N2.
    assert (EQ : acc ++ as_phrases (l :: body ++ [e]) = (acc ++ [PhraseLine (cline_tokens l)]) ++ as_phrases (body ++ [e]))
      by (rewrite <- app_assoc; reflexivity). rewrite EQ.
    unfold values_named in T. cbn [filter] in T. destruct (beq (cl_name l) (bs "ACTION")) eqn:A.
    + cbn [map] in T. unfold ty_after in T. destruct ty as [id|]; [destruct T; discriminate|].
      apply IH; try assumption; [|lia]. unfold ty_after.
      destruct T as [(us & w & id & T & F2 & A2 & ->)|[F2 ->]].
      * destruct us as [|u us]; cbn [app] in T; injection T as T0 T.
        -- subst w. apply action_spec in A2. rewrite A2. split; [exact T|reflexivity].
        -- subst u. inversion F2 as [|? ? F3 F4]; subst. rewrite (proj2 (action_none _) F3). left. exists us, w, id. auto.
      * inversion F2 as [|? ? F3 F4]; subst. rewrite (proj2 (action_none _) F3). right. auto.
    + apply IH; try assumption. lia.
Qed.

(** ** Components *)

(** The fields after reading [items], starting from [fs]. *)
Definition grown (id : secid) (fs : list (list fval)) (items : list item) (fs' : list (list fval)) : Prop :=
  length fs' = length (fields_of id) /\
  forall i fd, nth_error (fields_of id) i = Some fd -> exists vs, holds fd items vs /\ nth i fs' [] = nth i fs [] ++ vs /\
    (fd_mode fd <> FMany -> length (nth i fs []) <= 1 -> length (nth i fs' []) <= 1).

Lemma nth_error_lt {A} (l : list A) i x : nth_error l i = Some x -> i < length l.
Proof. intros H. apply nth_error_Some. congruence. Qed.

Lemma grown_take id fs it items fs' i fd v : length fs = length (fields_of id) ->
  nth_error (fields_of id) i = Some fd -> belongs fd it -> item_means (fd_type fd) it v -> full fd i fs = false ->
  grown id (add_field i v fs) items fs' -> grown id fs (it :: items) fs'.
Proof.
  intros L N B M F [L' G]. split; [exact L'|]. intros j g Nj. destruct (G j g Nj) as (vs & H & E & C).
  destruct (Nat.eq_dec i j) as [<-|D].
  - assert (g = fd) by congruence. subst g. rewrite add_field_same in E, C by (rewrite L; eapply nth_error_lt; eauto).
    exists (v :: vs). split; [constructor; assumption|]. split; [rewrite E, <- app_assoc; reflexivity|].
    intros Mo Le. assert (Z : nth i fs [] = []).
    { destruct (nth i fs []) eqn:Q; [reflexivity|]. assert (full fd i fs = true); [|congruence]. apply full_spec. rewrite Q. split; [exact Mo|discriminate]. }
    apply C; [exact Mo|]. rewrite Z. cbn. lia.
  - rewrite add_field_other in E, C by exact D. exists vs. split; [|split; assumption]. constructor; [|exact H].
    intros B'. apply D. eapply belongs_one; eauto.
Qed.

Lemma grown_skip id fs it items fs' : (forall fd, In fd (fields_of id) -> ~ belongs fd it) -> grown id fs items fs' -> grown id fs (it :: items) fs'.
Proof.
  intros N [L' G]. split; [exact L'|]. intros j g Nj. destruct (G j g Nj) as (vs & H & E & C). exists vs. split; [|split; assumption].
  constructor; [|exact H]. apply N. eapply nth_error_In; eauto.
Qed.

Lemma reads_as_list : forall ls k s', reads (SrcList (as_phrases ls)) k s' -> exists more, ls = k ++ more.
Proof.
  induction ls as [|c ls IH]; intros k s' R.
  - inversion R; subst; [exists []; reflexivity|]. discriminate.
  - inversion R as [|? l0 s4 k' ? G R']; subst; [exists (c :: ls); reflexivity|].
    unfold as_phrases in G. cbn [map get_ph] in G. assert (E : cline_tokens c = cline_tokens l0) by (apply (f_equal (fun r => match r with Ok (PhraseLine d, _) => d | _ => [] end)) in G; exact G).
    assert (E2 : SrcList (as_phrases ls) = s4) by (apply (f_equal (fun r => match r with Ok (_, q) => q | _ => SrcList [] end)) in G; exact G).
    apply cline_tokens_inj in E. subst c s4. destruct (IH k' s' R') as [more ->]. exists more. reflexivity.
Qed.

Lemma dec_sec_sound : forall fuel id fs s x s', src_ok s -> length fs = length (fields_of id) ->
  dec_sec fuel id fs s = Ok (x, s') -> exists items e fs',
    reads s (flat_map ilines items ++ [e]) s' /\ wf_lines (flat_map ilines items ++ [e]) /\ src_ok s' /\
    Forall (item_ok id) items /\ is_end e /\ cl_value e = sp_name (sec_spec id) /\ grown id fs items fs' /\ finish id fs' = Ok x.
Proof.
  induction fuel as [|f IH]; intros id fs s x s' O L H; [discriminate|]. cbn [dec_sec] in H.
  assert (MEANS : forall sid s x s1, src_ok s -> dec_sec f sid (no_fields sid) s = Ok (x, s1) -> exists body e,
    reads s (flat_map ilines body ++ [e]) s1 /\ wf_lines (flat_map ilines body ++ [e]) /\ src_ok s1 /\ is_end e /\
    cl_value e = sp_name (sec_spec sid) /\ means sid body x).
  { clear - IH. intros sid s x s1 O D. apply IH in D as (items & e & fs' & R & W & O1 & I & E & V & [L' G] & Fi); [|exact O|apply no_fields_length].
    exists items, e. do 5 (split; [assumption|]). apply finish_ok in Fi as (-> & Rq & Ex); [|exact L']. constructor; try assumption.
    intros i fd N. destruct (G i fd N) as (vs & H & Q & C). rewrite no_fields_nth in Q, C. cbn [app] in Q. rewrite Q. split; [exact H|].
    rewrite <- Q. specialize (Rq i fd N). specialize (fun m => C m (Nat.le_0_l _)). unfold count_ok.
    destruct (fd_mode fd); [|apply C; discriminate|exact Logic.I].
    assert (C0 : length (nth i fs' []) <= 1) by (apply C; discriminate). specialize (Rq eq_refl). destruct (nth i fs' []) as [|a [|b k]]; [congruence|reflexivity|cbn in C0; lia]. }
  destruct (get_ph s) as [[[data|] s1]| | |] eqn:G; cbn [bind] in H; try discriminate H.
  destruct (get_ph_line s data s1 O G) as (l & -> & W & O1). rewrite parts_tokens in H. cbn [bind] in H.
  destruct (beq (upper (cl_name l)) (bs "BEGIN")) eqn:B.
  - apply beq_eq in B. destruct (find_field (is_sec_field (upper (cl_value l))) (fields_of id)) as [[i fd]|] eqn:FF.
    + apply find_field_some in FF as [N Pf]. apply sec_field_true in Pf as [Sf Kf].
      destruct (full fd i fs) eqn:Fu; [discriminate|]. destruct (fd_type fd) as [pid|sid|] eqn:T; [discriminate| |].
      * destruct (dec_sec f sid (no_fields sid) s1) as [[y s2]| | |] eqn:D; cbn [bind] in H; try discriminate H.
        apply MEANS in D as (body & e & R & Wb & O2 & E & V & M); [|exact O1].
        apply IH in H as (items & e2 & fs' & R2 & W2 & O3 & I2 & E2 & V2 & G2 & F2); [|exact O2|rewrite add_field_length; exact L].
        assert (Bl : belongs fd (IComp l body e)) by (unfold belongs; rewrite T; auto).
        exists (IComp l body e :: items), e2, fs'. cbn [flat_map ilines]. rewrite <- app_assoc. cbn [app]. rewrite <- app_assoc. split; [|split; [|split; [|split; [|split; [|split; [|split]]]]]]; try assumption.
        -- econstructor; [exact G|]. rewrite app_assoc. eapply reads_app; eassumption.
        -- constructor; [exact W|]. rewrite app_assoc. apply Forall_app. split; assumption.
        -- constructor; [|exact I2]. cbn [item_ok]. split; [exact B|]. exists fd, sid. split; [eapply nth_error_In; eauto|]. auto.
        -- eapply grown_take; try eassumption. rewrite T. constructor; assumption.
      * destruct (gather f None [] s1) as [[[pt ty] s2]| | |] eqn:D; cbn [bind] in H; try discriminate H.
        apply gather_sound in D as (body & e & R & Wb & P & Fb & Ne & Ta & O2); [|exact O1]. cbn [app] in P. subst pt.
        destruct ty as [sid|]; [|discriminate].
        destruct (dec_sec f sid (no_fields sid) (SrcList (as_phrases (body ++ [e])))) as [[y s3]| | |] eqn:D2; cbn [bind] in H; try discriminate H.
        apply MEANS in D2 as (sub & e' & R3 & W3 & O3 & E3 & V3 & M3); [|constructor; exact Wb].
        apply IH in H as (items & e2 & fs' & R2 & W2 & O4 & I2 & E2 & V2 & G2 & F2); [|exact O2|rewrite add_field_length; exact L].
        assert (Bl : belongs fd (IAlarm l body e)) by (unfold belongs; rewrite T; auto).
        destruct (reads_as_list _ _ _ R3) as [more Q].
        exists (IAlarm l body e :: items), e2, fs'. cbn [flat_map ilines]. rewrite <- app_assoc. cbn [app]. split; [|split; [|split; [|split; [|split; [|split; [|split]]]]]]; try assumption.
        -- econstructor; [exact G|]. eapply reads_app; eassumption.
        -- constructor; [exact W|]. apply Forall_app. split; assumption.
        -- constructor; [|exact I2]. cbn [item_ok]. split; [exact B|]. exists fd. split; [eapply nth_error_In; eauto|]. auto.
        -- unfold ty_after in Ta. destruct Ta as [(us & w & sid' & A1 & A2 & A3 & A4)|[_ A]]; [|discriminate]. injection A4 as <-.
           eapply grown_take; try eassumption. rewrite T. apply (IM_alarm l body e us w sid sub e' more y); try assumption. rewrite app_assoc. exact Q.
    + pose proof (find_field_none _ _ FF) as NF.
      destruct (dec_dummy f (upper (cl_value l)) s1) as [s2| | |] eqn:D; cbn [bind] in H; try discriminate H.
      apply skip_sound in D as (ds & e & R & Wd & Fd & E & V & O2); [|exact O1].
      apply IH in H as (items & e2 & fs' & R2 & W2 & O3 & I2 & E2 & V2 & G2 & F2); [|exact O2|exact L].
      exists (IOther l ds e :: items), e2, fs'. cbn [flat_map ilines]. rewrite <- app_assoc. cbn [app]. split; [|split; [|split; [|split; [|split; [|split; [|split]]]]]]; try assumption.
      * econstructor; [exact G|]. eapply reads_app; eassumption.
      * constructor; [exact W|]. apply Forall_app. split; assumption.
      * constructor; [|exact I2]. cbn [item_ok]. split; [exact B|]. split; [exact E|]. split; [exact V|]. split; [exact Fd|].
        intros fd I N K. specialize (NF fd I). assert (is_sec_field (upper (cl_value l)) fd = true); [|congruence].
        apply sec_field_true. split; [|auto]. unfold sec_field. destruct (fd_type fd) eqn:T; [destruct (N p); reflexivity|reflexivity|reflexivity].
      * apply grown_skip; [|exact G2]. intros fd I. unfold belongs. destruct (fd_type fd); tauto.
  - apply beq_neq in B. destruct (find_field (is_prop_field (upper (cl_name l))) (fields_of id)) as [[i fd]|] eqn:FF.
    + apply find_field_some in FF as [N Pf]. apply prop_field_true in Pf as [Sf Kf].
      destruct (full fd i fs) eqn:Fu; [discriminate|]. unfold sec_field in Sf. destruct (fd_type fd) as [pid|sid|] eqn:T; try discriminate Sf.
      destruct (prop_decode pid (params_tokens (cl_params l)) (cl_value l)) as [p| | |] eqn:D; cbn [bind] in H; try discriminate H.
      apply IH in H as (items & e2 & fs' & R2 & W2 & O3 & I2 & E2 & V2 & G2 & F2); [|exact O1|rewrite add_field_length; exact L].
      assert (Bl : belongs fd (ILine l)) by (unfold belongs; rewrite T; exact (eq_sym Kf)).
      exists (ILine l :: items), e2, fs'. cbn [flat_map ilines app]. split; [|split; [|split; [|split; [|split; [|split; [|split]]]]]]; try assumption.
      * econstructor; [exact G|exact R2].
      * constructor; assumption.
      * constructor; [|exact I2]. cbn [item_ok]. destruct (proj2 (table_ok id) fd (nth_error_In _ _ N)) as [K1 K2]. split; unfold is_begin, is_end, line_is; congruence.
      * eapply grown_take; try eassumption. rewrite T. constructor. exact D.
    + pose proof (find_field_none _ _ FF) as NF. destruct (beq (upper (cl_name l)) (bs "END")) eqn:E.
      * apply beq_eq in E. destruct (beq (cl_value l) (sp_name (sec_spec id))) eqn:V; [|discriminate]. apply beq_eq in V.
        destruct (finish id fs) as [y| | |] eqn:Fi; cbn [bind] in H; try discriminate H. apply Ok_inj in H. injection H as <- <-.
        exists [], l, fs. cbn [flat_map app]. split; [apply reads_one_intro; exact G|]. split; [constructor; [exact W|constructor]|]. split; [exact O1|].
        split; [constructor|]. split; [exact E|]. split; [exact V|]. split; [|exact Fi]. split; [exact L|]. intros i fd N. exists []. split; [constructor|]. rewrite app_nil_r. auto.
      * apply beq_neq in E. apply IH in H as (items & e2 & fs' & R2 & W2 & O3 & I2 & E2 & V2 & G2 & F2); [|exact O1|exact L].
        exists (ILine l :: items), e2, fs'. cbn [flat_map ilines app]. split; [|split; [|split; [|split; [|split; [|split; [|split]]]]]]; try assumption.
        -- econstructor; [exact G|exact R2].
        -- constructor; assumption.
        -- constructor; [|exact I2]. split; assumption.
        -- apply grown_skip; [|exact G2]. intros fd I Bl. specialize (NF fd I). unfold belongs in Bl. destruct (fd_type fd) eqn:T; try contradiction.
           assert (is_prop_field (upper (cl_name l)) fd = true); [|congruence]. apply prop_field_true. unfold sec_field. rewrite T. split; [reflexivity|]. symmetry. exact Bl.
Qed.

Lemma dec_sec_means fuel sid s x s1 : src_ok s -> dec_sec fuel sid (no_fields sid) s = Ok (x, s1) -> exists body e,
  reads s (flat_map ilines body ++ [e]) s1 /\ wf_lines (flat_map ilines body ++ [e]) /\ src_ok s1 /\ is_end e /\
  cl_value e = sp_name (sec_spec sid) /\ means sid body x.
Proof.
  intros O D. apply dec_sec_sound in D as (items & e & fs' & R & W & O1 & I & E & V & [L' G] & Fi); [|exact O|apply no_fields_length].
  exists items, e. do 5 (split; [assumption|]). apply finish_ok in Fi as (-> & Rq & Ex); [|exact L']. constructor; try assumption.
  intros i fd N. destruct (G i fd N) as (vs & H & Q & C). rewrite no_fields_nth in Q, C. cbn [app] in Q. rewrite Q. split; [exact H|].
  rewrite <- Q. specialize (Rq i fd N). specialize (fun m => C m (Nat.le_0_l _)). unfold count_ok.
  destruct (fd_mode fd); [|apply C; discriminate|exact Logic.I].
  assert (C0 : length (nth i fs' []) <= 1) by (apply C; discriminate). specialize (Rq eq_refl). destruct (nth i fs' []) as [|a [|b k]]; [congruence|reflexivity|cbn in C0; lia].
Qed.

(** ** ... and back *)
Definition target (id : secid) (fs : list (list fval)) (items : list item) (fs' : list (list fval)) : Prop :=
  forall i fd, nth_error (fields_of id) i = Some fd -> exists vs, holds fd items vs /\ nth i fs' [] = nth i fs [] ++ vs /\
    count_ok (fd_mode fd) (length (nth i fs' [])).

Lemma target_take id fs it items fs' i fd : length fs = length (fields_of id) -> target id fs (it :: items) fs' ->
  nth_error (fields_of id) i = Some fd -> belongs fd it ->
  exists v, item_means (fd_type fd) it v /\ full fd i fs = false /\ target id (add_field i v fs) items fs'.
Proof.
  intros L T N B. destruct (T i fd N) as (vs & H & E & C). inversion H as [|? ? ? ? NB H'|? ? ? v vs' _ IM H']; subst; [contradiction|].
  exists v. split; [exact IM|]. split.
  - destruct (full fd i fs) eqn:F; [|reflexivity]. apply full_spec in F as [M F]. rewrite E, app_length in C. cbn [length] in C.
    destruct (nth i fs []); [congruence|]. cbn [length] in C. unfold count_ok in C. destruct (fd_mode fd); [lia|lia|congruence].
  - intros j g Nj. destruct (Nat.eq_dec i j) as [<-|D].
    + assert (g = fd) by congruence. subst g. exists vs'. split; [exact H'|]. split; [|exact C].
      rewrite add_field_same by (rewrite L; eapply nth_error_lt; eauto). rewrite E, <- app_assoc. reflexivity.
    + destruct (T j g Nj) as (vs2 & H2 & E2 & C2). exists vs2. rewrite add_field_other by exact D. split; [|split; assumption].
      inversion H2 as [|? ? ? ? NB H3|? ? ? v2 vs3 B2 IM2 H3]; subst; [exact H3|]. destruct D. eapply belongs_one; eauto.
Qed.

Lemma target_skip id fs it items fs' : (forall fd, In fd (fields_of id) -> ~ belongs fd it) -> target id fs (it :: items) fs' -> target id fs items fs'.
Proof.
  intros NB T i fd N. destruct (T i fd N) as (vs & H & E & C). exists vs. split; [|split; assumption].
  inversion H as [|? ? ? ? _ H'|? ? ? v vs' B IM H']; subst; [exact H'|]. destruct (NB fd (nth_error_In _ _ N) B).
Qed.

Lemma target_done id fs fs' : length fs = length (fields_of id) -> length fs' = length (fields_of id) -> target id fs [] fs' -> fs' = fs.
Proof.
  intros L L' T. apply (nth_ext _ _ [] []); [congruence|]. intros i Hi. rewrite L' in Hi. apply nth_error_Some in Hi.
  destruct (nth_error (fields_of id) i) as [fd|] eqn:N; [|congruence]. destruct (T i fd N) as (vs & H & E & C).
  inversion H; subst. rewrite app_nil_r in E. exact E.
Qed.

Lemma sec_field_here id i fd b : nth_error (fields_of id) i = Some fd -> sec_field fd = true -> fd_key fd = upper (cl_value b) ->
  find_field (is_sec_field (upper (cl_value b))) (fields_of id) = Some (i, fd).
Proof.
  intros N S K. apply find_field_here; [exact N|apply sec_field_true; auto|]. intros j g Nj P. apply sec_field_true in P as [P1 P2].
  eapply sig_unique; eauto. unfold sig. congruence.
Qed.

Lemma dec_sec_complete : forall fuel id fs items e s s' fs' x, reads s (flat_map ilines items ++ [e]) s' ->
  Forall (item_ok id) items -> is_end e -> cl_value e = sp_name (sec_spec id) -> length fs = length (fields_of id) ->
  length fs' = length (fields_of id) -> target id fs items fs' -> finish id fs' = Ok x ->
  length (flat_map ilines items) < fuel -> dec_sec fuel id fs s = Ok (x, s').
Proof.
  induction fuel as [|f IH]; intros id fs items e s s' fs' x R I E V L L' T Fi Le; [lia|].
  assert (MEANS : forall sid body e s s1 x, reads s (flat_map ilines body ++ [e]) s1 -> is_end e -> cl_value e = sp_name (sec_spec sid) ->
    means sid body x -> length (flat_map ilines body) < f -> dec_sec f sid (no_fields sid) s = Ok (x, s1)).
  { clear - IH. intros sid body e s s1 x R E V M Le. destruct M as [sid body fs I L H X].
    assert (T : target sid (no_fields sid) body fs).
    { intros i fd N. destruct (H i fd N) as [H1 H2]. exists (nth i fs []). split; [exact H1|]. split; [|exact H2]. rewrite no_fields_nth. reflexivity. }
    eapply (IH sid (no_fields sid) body e s s1 fs); try eassumption; [apply no_fields_length|].
    apply finish_ok; [exact L|]. split; [reflexivity|]. split; [|exact X]. intros i fd N M. destruct (H i fd N) as [_ H2]. rewrite M in H2. cbn [count_ok] in H2.
    destruct (nth i fs []); [discriminate|discriminate]. }
  cbn [dec_sec]. destruct items as [|it items].
  - cbn [flat_map app] in R. apply reads_one in R. rewrite R. cbn [bind]. rewrite parts_tokens. cbn [bind]. unfold is_end, line_is in E. rewrite E.
    change (beq (bs "END") (bs "BEGIN")) with false. cbv iota.
    rewrite find_field_absent.
    2:{ intros g Ig. destruct (is_prop_field (bs "END") g) eqn:P; [|reflexivity]. apply prop_field_true in P as [_ P]. destruct (proj2 (table_ok id) g Ig). contradiction. }
    rewrite beq_refl, V, beq_refl. apply target_done in T; [|assumption|assumption]. subst fs'. rewrite Fi. reflexivity.
  - inversion I as [|? ? I0 I1]; subst. destruct it as [l|b body e'|b body e'|b body e']; cbn [flat_map ilines app] in R, Le.
    + inversion R as [|? ? s1 ? ? G R1]; subst. rewrite G. cbn [bind]. rewrite parts_tokens. cbn [bind]. cbn [item_ok] in I0.
      destruct (plain_tests l I0) as [B0 E0]. rewrite B0, E0. cbn [length] in Le.
      destruct (find_field (is_prop_field (upper (cl_name l))) (fields_of id)) as [[i fd]|] eqn:FF.
      * apply find_field_some in FF as [N Pf]. apply prop_field_true in Pf as [Sf Kf]. unfold sec_field in Sf.
        destruct (fd_type fd) as [pid|sid|] eqn:Ty; try discriminate Sf.
        assert (Bl : belongs fd (ILine l)) by (unfold belongs; rewrite Ty; exact (eq_sym Kf)).
        destruct (target_take id fs (ILine l) items fs' i fd L T N Bl) as (v & IM & Fu & T1). rewrite Fu. rewrite Ty in IM.
        inversion IM as [? ? p D| |]; subst. rewrite D. cbn [bind]. eapply IH; try eassumption; [rewrite add_field_length; exact L|lia].
      * apply target_skip in T.
        2:{ intros fd Ifd Bl. pose proof (find_field_none _ _ FF fd Ifd) as NF. unfold belongs in Bl. destruct (fd_type fd) eqn:Ty; try contradiction.
            assert (is_prop_field (upper (cl_name l)) fd = true); [|congruence]. apply prop_field_true. unfold sec_field. rewrite Ty. split; [reflexivity|]. symmetry. exact Bl. }
        eapply IH; try eassumption. lia.
    + inversion R as [|? ? s1 ? ? G R1]; subst. rewrite G. cbn [bind]. rewrite parts_tokens. cbn [bind]. cbn [item_ok] in I0.
      destruct I0 as (B & fd & sid & Ifd & Ty & Bl). unfold is_begin, line_is in B. rewrite B, beq_refl.
      apply In_nth_error in Ifd as [i N]. pose proof Bl as K. unfold belongs in K. rewrite Ty in K.
      rewrite (sec_field_here id i fd b) by (try assumption; try (unfold sec_field; rewrite Ty; reflexivity); symmetry; exact K).
      destruct (target_take id fs _ items fs' i fd L T N Bl) as (v & IM & Fu & T1). rewrite Fu, Ty. rewrite Ty in IM.
      inversion IM as [|? ? ? ? y M E' V'|]; subst. rewrite <- !app_assoc in R1. rewrite app_assoc in R1. apply reads_split in R1 as (s2 & R1 & R2).
      cbn [length] in Le. repeat (rewrite app_length in Le; cbn [length] in Le).
      rewrite (MEANS sid body e' s1 s2 y R1 E' V' M) by lia. cbn [bind]. eapply IH; try eassumption; [rewrite add_field_length; exact L|lia].
    + inversion R as [|? ? s1 ? ? G R1]; subst. rewrite G. cbn [bind]. rewrite parts_tokens. cbn [bind]. cbn [item_ok] in I0.
      destruct I0 as (B & fd & Ifd & Ty & Bl). unfold is_begin, line_is in B. rewrite B, beq_refl.
      apply In_nth_error in Ifd as [i N]. pose proof Bl as K. unfold belongs in K. rewrite Ty in K.
      rewrite (sec_field_here id i fd b) by (try assumption; try (unfold sec_field; rewrite Ty; reflexivity); symmetry; exact K).
      destruct (target_take id fs _ items fs' i fd L T N Bl) as (v & IM & Fu & T1). rewrite Fu, Ty. rewrite Ty in IM.
      inversion IM as [| |? ? ? us w sid sub e2 more y Fb Ne A1 A2 A3 Q E2 V2 M2]; subst.
      rewrite <- app_assoc in R1. apply reads_split in R1 as (s2 & R1 & R2).
      cbn [length] in Le. repeat (rewrite app_length in Le; cbn [length] in Le).
      rewrite (gather_complete f None [] s1 body e' (Some sid) s2 R1 Fb Ne); [|left; exists us, w, sid; auto|lia]. cbn [bind app].
      assert (LQ : length (flat_map ilines sub) < f).
      { apply (f_equal (@length cline)) in Q. rewrite !app_length in Q. cbn [length] in Q. lia. }
      rewrite Q. rewrite (app_assoc (flat_map ilines sub)).
      rewrite (MEANS sid sub e2 _ (SrcList (as_phrases more)) y) by (try assumption; apply reads_list). cbn [bind].
      eapply IH; try eassumption; [rewrite add_field_length; exact L|lia].
    + inversion R as [|? ? s1 ? ? G R1]; subst. rewrite G. cbn [bind]. rewrite parts_tokens. cbn [bind]. cbn [item_ok] in I0.
      destruct I0 as (B & E' & V' & Sk & NF). unfold is_begin, line_is in B. rewrite B, beq_refl.
      rewrite find_field_absent.
      2:{ intros g Ig. destruct (is_sec_field (upper (cl_value b)) g) eqn:P; [|reflexivity]. apply sec_field_true in P as [P1 P2].
          destruct (NF g Ig); [|auto]. intros pid Q. unfold sec_field in P1. rewrite Q in P1. discriminate. }
      rewrite <- app_assoc in R1. apply reads_split in R1 as (s2 & R1 & R2).
      cbn [length] in Le. repeat (rewrite app_length in Le; cbn [length] in Le).
      rewrite (skip_complete f _ body e' s1 s2 R1 Sk E' V') by lia. cbn [bind].
      apply target_skip in T; [|intros fd _; unfold belongs; destruct (fd_type fd); tauto]. eapply IH; try eassumption. lia.
Qed.

Lemma means_dec_sec fuel sid body e s s1 x : reads s (flat_map ilines body ++ [e]) s1 -> is_end e -> cl_value e = sp_name (sec_spec sid) ->
  means sid body x -> length (flat_map ilines body) < fuel -> dec_sec fuel sid (no_fields sid) s = Ok (x, s1).
Proof.
  intros R E V M Le. destruct M as [sid body fs I L H X].
  assert (T : target sid (no_fields sid) body fs).
  { intros i fd N. destruct (H i fd N) as [H1 H2]. exists (nth i fs []). split; [exact H1|]. split; [|exact H2]. rewrite no_fields_nth. reflexivity. }
  eapply (dec_sec_complete fuel sid (no_fields sid) body e s s1 fs); try eassumption; [apply no_fields_length|].
  apply finish_ok; [exact L|]. split; [reflexivity|]. split; [|exact X]. intros i fd N M. destruct (H i fd N) as [_ H2]. rewrite M in H2. cbn [count_ok] in H2.
  destruct (nth i fs []); [discriminate|discriminate].
Qed.
End Tree.
