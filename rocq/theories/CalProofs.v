(** Calendars that are written and read back. *)
From Coq Require Import String Ascii ZArith Bool List Lia.
From Verif Require Import Base Lib Utf8 GoStrings Strtok Tokeniser SpecContent TokeniserProofs GoTime Types Params ParamTable PropTable Props SecTable Sections Codec SpecTree TreeProofs ExactProofs SpecRules ShapeProofs RulesProofs EncodeProofs PrefixProofs SpecParams ParamProofs SpecProps PropProofs HangProofs GroupProofs SpecCal.
Import ListNotations.

Section C.
Context {env : Env}.

(** ** Meaning without the rules between fields *)
Inductive smeans : secid -> list item -> sec -> Prop :=
| SMeans id items fs : Forall (item_ok id) items -> length fs = length (fields_of id) ->
    (forall i fd, nth_error (fields_of id) i = Some fd -> sholds fd items (nth i fs [])) ->
    (forall i fd, nth_error (fields_of id) i = Some fd -> count_ok (fd_mode fd) (length (nth i fs []))) ->
    smeans id items (Sec id fs)
with sholds : field -> list item -> list fval -> Prop :=
| SH_nil fd : sholds fd [] []
| SH_skip fd i items vs : ~ belongs fd i -> sholds fd items vs -> sholds fd (i :: items) vs
| SH_take fd i items v vs : belongs fd i -> sitem (fd_type fd) i v -> sholds fd items vs -> sholds fd (i :: items) (v :: vs)
with sitem : ftype -> item -> fval -> Prop :=
| SI_prop pid l p : prop_decode pid (params_tokens (cl_params l)) (cl_value l) = Ok p -> sitem (FTProp pid) (ILine l) (FVProp pid p)
| SI_sec sid b body e x : smeans sid body x -> is_end e -> cl_value e = sp_name (sec_spec sid) -> sitem (FTSec sid) (IComp b body e) (FVSec x)
| SI_alarm b body e us w sid sub e' more x :
    Forall (fun l => cl_name l <> bs "BEGIN" /\ cl_name l <> bs "END") body -> cl_name e = bs "END" ->
    values_named (bs "ACTION") body = us ++ [w] -> Forall (fun u => forall id, ~ action_is u id) us -> action_is w sid ->
    body ++ [e] = flat_map ilines sub ++ [e'] ++ more -> is_end e' -> cl_value e' = sp_name (sec_spec sid) ->
    smeans sid sub x -> sitem FTAlarm (IAlarm b body e) (FVAlarm (Some x)).
Scheme smeans_mut := Minimality for smeans Sort Prop with sholds_mut := Minimality for sholds Sort Prop with sitem_mut := Minimality for sitem Sort Prop.
Combined Scheme smeans_all from smeans_mut, sholds_mut, sitem_mut.

Definition extras (x : sec) : Prop := Forall (extra_ok (present (sec_fields x))) (sp_reqs (sec_spec (sec_id x))).
Definition all_extras (x : sec) : Prop := forall y, part_of y x -> extras y.
Definition val_extras (v : fval) : Prop := match v with FVSec x | FVAlarm (Some x) => all_extras x | _ => True end.
Lemma all_extras_eq id fs : all_extras (Sec id fs) <-> extras (Sec id fs) /\ forall vs v, In vs fs -> In v vs -> val_extras v.
Proof.
  split.
  - intros H. split; [apply H; constructor|]. intros vs v I J. destruct v as [pid p|x|[x|]]; cbn [val_extras]; try exact Logic.I; intros y P; apply H; [eapply Part_sec|eapply Part_alarm]; eauto.
  - intros [H1 H2] y P. inversion P as [x E|y' x id' fs' vs I' J' Px|y' x id' fs' vs I' J' Px]; subst; [exact H1| |]; exact (H2 _ _ I' J' y Px).
Qed.
Lemma means_s id items x (M : means id items x) : smeans id items x /\ all_extras x
with holds_s fd items vs (M : holds fd items vs) : sholds fd items vs /\ Forall val_extras vs
with item_s t i v (M : item_means t i v) : sitem t i v /\ val_extras v.
Proof.
  - destruct M as [id items fs F L H X]. assert (H' : forall i fd, nth_error (fields_of id) i = Some fd -> sholds fd items (nth i fs []) /\ Forall val_extras (nth i fs [])).
    { intros i fd N. destruct (H i fd N) as [Ho _]. exact (holds_s _ _ _ Ho). } split.
    + constructor; [exact F|exact L| |]; intros i fd N; [apply (H' i fd N)|apply (H i fd N)].
    + apply all_extras_eq. split; [exact X|]. intros vs v I J. destruct (In_nth _ _ [] I) as (i & Li & E). rewrite L in Li. destruct (nth_error (fields_of id) i) as [fd|] eqn:N; [|apply nth_error_None in N; lia].
      destruct (H' i fd N) as [_ A]. rewrite E in A. rewrite Forall_forall in A. auto.
  - destruct M as [fd|fd i items vs N M|fd i items v vs B IM M].
    + split; constructor.
    + destruct (holds_s _ _ _ M) as [A C]. split; [apply SH_skip; assumption|exact C].
    + destruct (holds_s _ _ _ M) as [A C]. destruct (item_s _ _ _ IM) as [A1 C1]. split; [apply SH_take; assumption|constructor; assumption].
  - destruct M as [pid l p D|sid b body e x M E V|b body e us w sid sub e' more x Fb Ne A Fu Aw Q E' V' M].
    + split; [constructor; exact D|exact Logic.I].
    + destruct (means_s _ _ _ M) as [A B]. split; [constructor; assumption|exact B].
    + destruct (means_s _ _ _ M) as [B X]. split; [econstructor; eauto|exact X].
Qed.
Lemma s_means : (forall id items x, smeans id items x -> all_extras x -> means id items x) /\
  (forall fd items vs, sholds fd items vs -> Forall val_extras vs -> holds fd items vs) /\
  (forall t i v, sitem t i v -> val_extras v -> item_means t i v).
Proof.
  apply smeans_all.
  - intros id items fs F L H IH C X. apply all_extras_eq in X as [X1 X2]. constructor; [exact F|exact L| |exact X1]. intros i fd N. split; [|exact (C i fd N)]. apply (IH i fd N). apply Forall_forall. intros v J. apply (X2 (nth i fs []) v); [|exact J].
    apply nth_In. rewrite L. apply nth_error_Some. congruence.
  - intros fd _. constructor.
  - intros fd i items vs N _ A X. apply H_skip; auto.
  - intros fd i items v vs B _ A _ C X. inversion X; subst. apply H_take; auto.
  - intros pid l p D _. constructor. exact D.
  - intros sid b body e x _ A E V X. constructor; auto.
  - intros b body e us w sid sub e' more x Fb Ne A Fu Aw Q E' V' _ M X. econstructor; eauto.
Qed.
Lemma means_smeans id items x : means id items x <-> smeans id items x /\ all_extras x.
Proof. split; [apply means_s|intros [A B]; apply s_means; assumption]. Qed.

(** *** It has a shape, ... *)
Lemma sholds_item : forall fd items vs, sholds fd items vs -> forall i, In i items -> belongs fd i -> exists v, sitem (fd_type fd) i v.
Proof.
  induction 1 as [fd|fd i0 items vs NB H IH|fd i0 items v vs B M H IH]; intros i I Bi; [destruct I| |].
  - destruct I as [->|I]; [contradiction|]. auto.
  - destruct I as [->|I]; [eauto|auto].
Qed.
Lemma smeans_holds id items x fd : smeans id items x -> In fd (fields_of id) -> exists vs, sholds fd items vs.
Proof. intros M I. destruct M as [id items fs F L H C]. apply In_nth_error in I as [i N]. specialize (H i fd N). eauto. Qed.
Lemma smeans_shape : forall n id items x, length (flat_map ilines items) <= n -> smeans id items x -> Forall (shape_ok id) items.
Proof.
  induction n as [n IH] using lt_wf_ind. intros id items x L M. apply Forall_forall. intros i I.
  assert (OK : item_ok id i). { destruct M as [? ? ? F _ _ _]. rewrite Forall_forall in F. auto. }
  pose proof (item_len i items I) as LI. destruct i as [l|b body e|b body e|b body e]; cbn [item_ok] in OK.
  - constructor. exact OK.
  - destruct OK as (B & fd & sid & If & T & Be). destruct (smeans_holds _ _ _ _ M If) as (vs & H). destruct (sholds_item _ _ _ H _ I Be) as (v & IM).
    rewrite T in IM. inversion IM as [|? ? ? ? y My Ey Vy|]; subst. cbn [belongs] in Be. rewrite T in Be.
    cbn [ilines length] in LI. rewrite app_length in LI. cbn [length] in LI. assert (LB : length (flat_map ilines body) < n) by lia.
    apply (So_comp id b body e sid); [exact B| |exact (IH _ LB sid body y (le_n _) My)|exact Ey].
    apply child_field. exists fd. auto.
  - destruct OK as (B & fd & If & T & Be). destruct (smeans_holds _ _ _ _ M If) as (vs & H). destruct (sholds_item _ _ _ H _ I Be) as (v & IM).
    rewrite T in IM. inversion IM; subst. cbn [belongs] in Be. rewrite T in Be.
    destruct (proj2 (alarm_field id (upper (cl_value b)))) as [A V]; [exists fd; auto|]. constructor; assumption.
  - destruct OK as (B & E & V & S & N). constructor; try assumption.
    + intros J. apply in_map_iff in J as ([w sid] & W & J). cbn [fst] in W. subst w. apply child_field in J as (fd & If & T & K). apply (N fd If); [|auto]. intros pid. rewrite T. discriminate.
    + intros J. apply alarm_field in J as (fd & If & T & K). apply (N fd If); [|auto]. intros pid. rewrite T. discriminate.
Qed.
(** *** ... and is one. *)
Lemma smeans_fun : (forall id items x, smeans id items x -> forall y, smeans id items y -> x = y) /\
  (forall fd items vs, sholds fd items vs -> forall ws, sholds fd items ws -> vs = ws) /\
  (forall t i v, sitem t i v -> forall w, sitem t i w -> v = w).
Proof.
  apply smeans_all.
  - intros id items fs F L H IH C y M. inversion M as [? ? fs' F' L' H' C']; subst. f_equal. apply (nth_ext fs fs' [] []); [congruence|]. intros i Li. rewrite L in Li. destruct (nth_error (fields_of id) i) as [fd|] eqn:N; [|apply nth_error_None in N; lia].
    apply (IH i fd N), H', N.
  - intros fd ws M. inversion M; reflexivity.
  - intros fd i items vs N _ A ws M. inversion M; subst; [auto|contradiction].
  - intros fd i items v vs B _ A _ C ws M. inversion M; subst; [contradiction|]. f_equal; auto.
  - intros pid l p D w M. inversion M; subst. congruence.
  - intros sid b body e x _ A E V w M. inversion M; subst. f_equal. auto.
  - intros b body e us w sid sub e' more x Fb Ne A Fu Aw Q E' V' SM M v MV. inversion MV as [| |? ? ? us0 w0 sid0 sub0 e0 more0 y Fb0 Ne0 A0 Fu0 Aw0 Q0 E0 V0 M0]; subst. do 2 f_equal.
    rewrite A in A0. apply app_inj_tail in A0 as [<- <-]. rewrite <- (action_one _ _ _ Aw Aw0) in *. rewrite Q0 in Q. cbn [app] in Q.
    assert (Sh : Forall (shape_ok sid) sub) by (eapply smeans_shape; eauto). assert (Sh0 : Forall (shape_ok sid) sub0) by (eapply smeans_shape; eauto).
    destruct (shape_unique _ sid sub0 sub _ _ _ _ (le_n _) Sh0 Sh E0 E' Q) as (-> & _ & _). auto.
Qed.

(** The items that are written for a field. *)
Definition begin_of (n : bytes) : cline := CLine (bs "BEGIN") [] n.
Definition end_of (n : bytes) : cline := CLine (bs "END") [] n.
Inductive item_of : ftype -> item -> Prop :=
| IO_prop pid l : cl_name l = fst (prop_spec pid) -> item_of (FTProp pid) (ILine l)
| IO_sec sid body e : item_of (FTSec sid) (IComp (begin_of (sp_name (sec_spec sid))) body e)
| IO_alarm body e : item_of FTAlarm (IAlarm (begin_of (bs "VALARM")) body e).

(** ** Tables *)
Definition item_word (t : ftype) : bytes :=
  match t with FTProp pid => fst (prop_spec pid) | FTSec sid => sp_name (sec_spec sid) | FTAlarm => bs "VALARM" end.
Definition same_sort (t t' : ftype) : bool :=
  match t, t' with FTProp _, FTProp _ | FTSec _, FTSec _ | FTAlarm, FTAlarm => true | _, _ => false end.
Definition goes (fd fd' : field) : bool := same_sort (fd_type fd) (fd_type fd') && beq (item_word (fd_type fd)) (fd_key fd').
Fixpoint indexed {A} (n : nat) (l : list A) : list (nat * A) := match l with [] => [] | a :: l' => (n, a) :: indexed (S n) l' end.
Lemma indexed_in {A} (l : list A) : forall n i a, nth_error l i = Some a -> In (n + i, a) (indexed n l).
Proof.
  induction l as [|b l IH]; intros n [|i] a E; try discriminate; cbn [indexed nth_error] in *.
  - injection E as ->. left. f_equal. lia.
  - right. replace (n + S i) with (S n + i) by lia. apply IH, E.
Qed.
Definition req_fields (r : req) : list nat := match r with RAnd a b | ROr a b | ROne a b | RErgo a b => [a; b] end.
Definition fields_ok (id : secid) : bool :=
  let fds := indexed 0 (fields_of id) in
  forallb (fun p => forallb (fun q => Bool.eqb (goes (snd p) (snd q)) (Nat.eqb (fst p) (fst q) && negb (is_last_modified (snd p)))) fds) fds &&
  forallb (fun p => name_word (item_word (fd_type (snd p))) && negb (existsb (beq (item_word (fd_type (snd p)))) [bs "BEGIN"; bs "END"; bs "ACTION"]) &&
     negb (beq (fd_key (snd p)) (bs "ACTION")) &&
     (negb (is_last_modified (snd p)) || match fd_mode (snd p) with FReq => false | _ => true end) &&
     match fd_type (snd p) with FTSec sid => sp_own (sec_spec sid) | _ => true end) fds &&
  forallb (fun r => forallb (fun i => match nth_error (fields_of id) i with Some fd => negb (is_last_modified fd) | None => false end) (req_fields r)) (sp_reqs (sec_spec id)).
Lemma fields_table : forallb fields_ok all_secs = true.
Proof. vm_compute. reflexivity. Qed.
Lemma fields_table_of id : fields_ok id = true.
Proof. pose proof fields_table as T. rewrite forallb_forall in T. apply T, all_secs_in. Qed.

Lemma goes_spec id i j fd fd' : nth_error (fields_of id) i = Some fd -> nth_error (fields_of id) j = Some fd' ->
  goes fd fd' = (Nat.eqb i j && negb (is_last_modified fd)).
Proof.
  intros A B. pose proof (fields_table_of id) as T. unfold fields_ok in T. rewrite !andb_true_iff in T. destruct T as [[T _] _].
  rewrite forallb_forall in T. specialize (T _ (indexed_in _ 0 _ _ A)). cbv beta in T. rewrite forallb_forall in T. specialize (T _ (indexed_in _ 0 _ _ B)). cbv beta in T. cbn [fst snd] in T.
  apply eqb_prop in T. exact T.
Qed.
Lemma field_facts id i fd : nth_error (fields_of id) i = Some fd ->
  name_word (item_word (fd_type fd)) = true /\ ~ In (item_word (fd_type fd)) [bs "BEGIN"; bs "END"; bs "ACTION"] /\ fd_key fd <> bs "ACTION" /\
  (is_last_modified fd = true -> fd_mode fd <> FReq) /\ (forall sid, fd_type fd = FTSec sid -> sp_own (sec_spec sid) = true).
Proof.
  intros A. pose proof (fields_table_of id) as T. unfold fields_ok in T. rewrite !andb_true_iff in T. destruct T as [[_ T] _].
  rewrite forallb_forall in T. specialize (T _ (indexed_in _ 0 _ _ A)). cbv beta in T. cbn [snd] in T. rewrite !andb_true_iff in T. destruct T as [[[[T1 T2] T3] T4] T5].
  split; [exact T1|]. split; [|split; [|split]].
  - intros I. apply negb_true_iff in T2. assert (X : existsb (beq (item_word (fd_type fd))) [bs "BEGIN"; bs "END"; bs "ACTION"] = true); [|congruence].
    apply existsb_exists. exists (item_word (fd_type fd)). split; [exact I|apply beq_eq; reflexivity].
  - apply negb_true_iff, beq_neq in T3. exact T3.
  - intros L M. rewrite L, M in T4. discriminate.
  - intros sid E. rewrite E in T5. exact T5.
Qed.
Lemma req_facts id r i : In r (sp_reqs (sec_spec id)) -> In i (req_fields r) -> exists fd, nth_error (fields_of id) i = Some fd /\ is_last_modified fd = false.
Proof.
  intros R I. pose proof (fields_table_of id) as T. unfold fields_ok in T. rewrite !andb_true_iff in T. destruct T as [_ T].
  rewrite forallb_forall in T. specialize (T r R). cbv beta in T. rewrite forallb_forall in T. specialize (T i I). cbv beta in T.
  destruct (nth_error (fields_of id) i) as [fd|]; [|discriminate]. exists fd. split; [reflexivity|]. apply negb_true_iff, T.
Qed.

(** The item written for one field belongs to this field, unless it is the last-modified time, and to
    no other. *)
Lemma item_goes id i j fd fd' it : nth_error (fields_of id) i = Some fd -> nth_error (fields_of id) j = Some fd' -> item_of (fd_type fd) it ->
  (belongs fd' it <-> i = j /\ is_last_modified fd = false).
Proof.
  intros A B O. pose proof (goes_spec id i j fd fd' A B) as G. destruct (field_facts id i fd A) as (W & _). apply name_word_facts in W as (_ & U & _).
  assert (X : belongs fd' it <-> goes fd fd' = true).
  { unfold goes. inversion O as [pid l N T1 T2|sid body e T1 T2|body e T1 T2]; subst it; unfold belongs, line_is; rewrite <- T1 in *; cbn [item_word] in *.
    - rewrite N, U. destruct (fd_type fd'); cbn [same_sort andb]; [rewrite beq_eq; reflexivity|split; [contradiction|discriminate]|split; [contradiction|discriminate]].
    - cbn [begin_of cl_value]. rewrite U. destruct (fd_type fd'); cbn [same_sort andb]; [split; [contradiction|discriminate]|rewrite beq_eq; reflexivity|split; [contradiction|discriminate]].
    - cbn [begin_of cl_value]. rewrite U. destruct (fd_type fd'); cbn [same_sort andb]; [split; [contradiction|discriminate]|split; [contradiction|discriminate]|rewrite beq_eq; reflexivity]. }
  rewrite X, G, andb_true_iff, Nat.eqb_eq, negb_true_iff. reflexivity.
Qed.

(** ** Values of one field *)
Lemma sholds_app fd a va b vb : sholds fd a va -> sholds fd b vb -> sholds fd (a ++ b) (va ++ vb).
Proof.
  intros H. induction H as [fd|fd i items vs N H IH|fd i items v vs B M H IH]; intros K; cbn [app]; [exact K|apply SH_skip; auto|apply SH_take; auto].
Qed.
Lemma sholds_none fd items : Forall (fun i => ~ belongs fd i) items -> sholds fd items [].
Proof. induction 1; [constructor|apply SH_skip; auto]. Qed.
Lemma sholds_all fd items vs : Forall2 (fun i v => belongs fd i /\ sitem (fd_type fd) i v) items vs -> sholds fd items vs.
Proof. induction 1 as [|i v items vs [A B] _ IH]; [constructor|apply SH_take; auto]. Qed.

Definition writes (tr : list wev) (ls : list cline) : Prop := (exists ws, tr = wrs ws /\ concat ws = lines_text ls) /\ wf_lines ls.
Lemma writes_nil : writes [] [].
Proof. split; [exists []; split; reflexivity|constructor]. Qed.
Lemma writes_app a la b lb : writes a la -> writes b lb -> writes (a ++ b) (la ++ lb).
Proof.
  intros [(wa & -> & A) FA] [(wb & -> & B) FB]. split; [exists (wa ++ wb); rewrite wrs_app, concat_app, lines_text_app, A, B; split; reflexivity|]. apply Forall_app. split; assumption.
Qed.
Lemma writes_one b l : b = cline_render l ++ CRLF -> cline_wf l = true -> writes [Wr b] [l].
Proof. intros -> W. split; [exists [cline_render l ++ CRLF]; split; [reflexivity|reflexivity]|constructor; [exact W|constructor]]. Qed.
Lemma word_line k n : name_word n = true -> name_word k = true -> cline_wf (CLine k [] n) = true.
Proof using env.
  intros N K. apply line_wf; [exact K|reflexivity|]. apply name_word_facts in N as (_ & _ & N). exact (forallb_imp _ _ _ name_value N).
Qed.
Lemma writes_begin n : name_word n = true -> writes [Wr (begin_line n)] [begin_of n].
Proof using env. intros N. apply writes_one; [unfold begin_line, cline_render, begin_of; cbn [cl_name cl_params cl_value map concat app]; rewrite <- ?app_assoc; reflexivity|apply word_line; [exact N|reflexivity]]. Qed.
Lemma writes_end n : name_word n = true -> writes [Wr (end_line n)] [end_of n].
Proof using env. intros N. apply writes_one; [unfold end_line, cline_render, end_of; cbn [cl_name cl_params cl_value map concat app]; rewrite <- ?app_assoc; reflexivity|apply word_line; [exact N|reflexivity]]. Qed.

(** What is proved of a component. *)
Definition body_good (x : sec) : Prop := forall id fs, x = Sec id fs -> cal_good x -> exists items,
  writes (flat_map (flat_map fval_encode) fs) (flat_map ilines items) /\ smeans id items (forget x) /\
  Forall (fun i => exists k fd, nth_error (fields_of id) k = Some fd /\ item_of (fd_type fd) i) items.

Lemma action_facts w sid : action_is w sid -> alarm_word sid = w /\ name_word w = true /\ sp_own (sec_spec sid) = false /\ sp_name (sec_spec sid) = bs "VALARM" /\
  Forall (fun fd => exists pid, fd_type fd = FTProp pid) (fields_of sid).
Proof.
  intros A. unfold action_is in A. repeat destruct A as [A|A]; try (injection A as <- <-; repeat split; repeat constructor; eexists; reflexivity). destruct A.
Qed.

Lemma sec_encode_eq id fs : sec_encode (Sec id fs) = (if sp_own (sec_spec id) then [Wr (begin_line (sp_name (sec_spec id)))] else []) ++ flat_map (flat_map fval_encode) fs ++
  (if sp_own (sec_spec id) then [Wr (end_line (sp_name (sec_spec id)))] else []).
Proof. reflexivity. Qed.


Lemma value_item id k fd v : nth_error (fields_of id) k = Some fd -> fval_good (fd_type fd) v ->
  (forall x, v = FVSec x \/ v = FVAlarm (Some x) -> body_good x) ->
  exists i, writes (fval_encode v) (ilines i) /\ item_of (fd_type fd) i /\ sitem (fd_type fd) i (forget_val v).
Proof.
  intros N G IH. destruct (field_facts id k fd N) as (NW & NB & _ & _ & OWN). inversion G as [pid p GP T1 T2|sid fs GC T1 T2|w sid fs A GC T1 T2]; subst v; rewrite <- T1 in *.
  - destruct (prop_rt pid p GP) as (l & (ws & E & C) & W & LN & D). exists (ILine l). split; [|split; [constructor; exact LN|constructor; exact D]].
    cbn [fval_encode ilines]. split; [exists ws; split; [exact E|]|constructor; [exact W|constructor]]. rewrite C. unfold lines_text. cbn [map concat]. rewrite app_nil_r. reflexivity.
  - destruct (IH _ (or_introl eq_refl) sid fs eq_refl GC) as (items & WB & M & _). exists (IComp (begin_of (sp_name (sec_spec sid))) items (end_of (sp_name (sec_spec sid)))).
    split; [|split; [constructor|cbn [forget_val]; constructor; [exact M|reflexivity|reflexivity]]].
    change (fval_encode (FVSec (Sec sid fs))) with (sec_encode (Sec sid fs)). cbn [ilines]. rewrite sec_encode_eq, (OWN sid eq_refl). change (begin_of (sp_name (sec_spec sid)) :: flat_map ilines items ++ [end_of (sp_name (sec_spec sid))]) with ([begin_of (sp_name (sec_spec sid))] ++ flat_map ilines items ++ [end_of (sp_name (sec_spec sid))]).
    apply writes_app; [apply writes_begin, NW|]. apply writes_app; [exact WB|apply writes_end, NW].
  - destruct (IH _ (or_intror eq_refl) sid fs eq_refl GC) as (items & WB & M & OF). destruct (action_facts _ _ A) as (AW & WW & OW & VN & PR).
    pose (al := CLine (bs "ACTION") [] w).
    assert (ITL : Forall (fun i => exists l, i = ILine l /\ cl_name l <> bs "BEGIN" /\ cl_name l <> bs "END" /\ cl_name l <> bs "ACTION") items).
    { eapply Forall_impl; [|exact OF]. intros i (k' & fd' & N' & O'). destruct (field_facts _ _ _ N') as (_ & NB' & _). rewrite Forall_forall in PR. destruct (PR fd' (nth_error_In _ _ N')) as (pid & P). rewrite P in *.
      inversion O' as [pid' l LN X1 X2| |]. subst. exists l. split; [reflexivity|]. cbn [item_word] in NB'. rewrite LN. repeat split; intros Q; apply NB'; rewrite Q; cbn; auto. }
    assert (WFB : flat_map ilines items = flat_map (fun i => match i with ILine l => [l] | _ => [] end) items).
    { clear - ITL. induction ITL as [|i items (l & -> & _) _ IH]; [reflexivity|]. cbn [flat_map ilines]. rewrite IH. reflexivity. }
    exists (IAlarm (begin_of (bs "VALARM")) (al :: flat_map ilines items) (end_of (bs "VALARM"))). split; [|split; [constructor|]].
    + change (fval_encode (FVAlarm (Some (Sec sid fs)))) with ([Wr (begin_line (bs "VALARM")); Wr (bs "ACTION:" ++ alarm_word sid ++ CRLF)] ++ sec_encode (Sec sid fs) ++ [Wr (end_line (bs "VALARM"))]). cbn [ilines]. rewrite AW, sec_encode_eq, OW. cbn [app]. rewrite app_nil_r.
      change (begin_of (bs "VALARM") :: al :: flat_map ilines items ++ [end_of (bs "VALARM")]) with ([begin_of (bs "VALARM")] ++ [al] ++ flat_map ilines items ++ [end_of (bs "VALARM")]).
      change (Wr (begin_line (bs "VALARM")) :: Wr (bs "ACTION:" ++ w ++ CRLF) :: flat_map (flat_map fval_encode) fs ++ [Wr (end_line (bs "VALARM"))]) with
        ([Wr (begin_line (bs "VALARM"))] ++ [Wr (bs "ACTION:" ++ w ++ CRLF)] ++ flat_map (flat_map fval_encode) fs ++ [Wr (end_line (bs "VALARM"))]).
      apply writes_app; [apply writes_begin; reflexivity|]. apply writes_app; [apply writes_one; [unfold al, cline_render; cbn [cl_name cl_params cl_value map concat app]; rewrite <- ?app_assoc; reflexivity|apply word_line; [exact WW|reflexivity]]|].
      apply writes_app; [exact WB|apply writes_end; reflexivity].
    + cbn [forget_val]. apply (SI_alarm _ _ _ [] w sid (ILine al :: items) (end_of (bs "VALARM")) []).
      * constructor; [split; discriminate|]. clear - ITL. induction ITL as [|i items (l & -> & A & B & _) _ IH]; [constructor|]. cbn [flat_map ilines app]. constructor; [split; assumption|exact IH].
      * reflexivity.
      * unfold values_named. cbn [filter map]. change (beq (cl_name al) (bs "ACTION")) with true. cbv iota. cbn [map al cl_value app]. f_equal.
        clear - ITL. induction ITL as [|i items (l & -> & _ & _ & C) _ IH]; [reflexivity|]. cbn [flat_map ilines app filter]. apply beq_neq in C. rewrite C. exact IH.
      * constructor.
      * exact A.
      * cbn [flat_map ilines app]. reflexivity.
      * reflexivity.
      * rewrite VN. reflexivity.
      * inversion M as [id' items' fs' IOK L H C X1 X2 X3]. subst. apply SMeans; [|exact L| |exact C].
        -- constructor; [|exact IOK]. cbn [item_ok]. split; discriminate.
        -- intros j fd' Nj. apply SH_skip; [|exact (H j fd' Nj)].
           destruct (field_facts _ _ _ Nj) as (_ & _ & NA & _). rewrite Forall_forall in PR. destruct (PR fd' (nth_error_In _ _ Nj)) as (pid & P).
           unfold belongs, line_is. rewrite P. cbn [cl_name]. intros Q. apply NA. rewrite <- Q. reflexivity.
Qed.

Lemma values_items id k fd vs : nth_error (fields_of id) k = Some fd -> Forall (fval_good (fd_type fd)) vs ->
  (forall x, In (FVSec x) vs \/ In (FVAlarm (Some x)) vs -> body_good x) ->
  exists items, writes (flat_map fval_encode vs) (flat_map ilines items) /\ Forall (item_of (fd_type fd)) items /\ Forall2 (sitem (fd_type fd)) items (map forget_val vs).
Proof.
  intros N. induction 1 as [|v vs G _ IH]; intros B; [exists []; split; [apply writes_nil|split; constructor]|].
  destruct IH as (items & W & O & M); [intros x [H|H]; apply B; [left|right]; right; exact H|].
  destruct (value_item id k fd v N G) as (i & W1 & O1 & M1); [intros x [H|H]; apply B; [left|right]; left; exact H|].
  exists (i :: items). split; [cbn [flat_map]; apply writes_app; assumption|]. split; [constructor; assumption|]. cbn [map]. constructor; assumption.
Qed.

(** ** Fields of a component *)
Lemma nth_blank : forall fds fs i, length fs = length fds -> nth i (blank fds fs) [] = match nth_error fds i with Some fd => if is_last_modified fd then [] else nth i fs [] | None => [] end.
Proof.
  induction fds as [|fd fds IH]; intros [|vs fs] [|i] L; cbn [length] in L; try lia; cbn [blank nth nth_error]; try reflexivity. apply IH. lia.
Qed.
Lemma length_blank : forall fds fs, length fs = length fds -> length (blank fds fs) = length fds.
Proof. induction fds as [|fd fds IH]; intros [|vs fs] L; cbn [length] in L; try lia; cbn [blank length]; [reflexivity|]. rewrite IH by lia. reflexivity. Qed.

Lemma fields_items id : forall n fds fs, (forall i fd, nth_error fds i = Some fd -> nth_error (fields_of id) (n + i) = Some fd) -> length fs = length fds ->
  (forall i fd vs, nth_error fds i = Some fd -> nth_error fs i = Some vs -> Forall (fval_good (fd_type fd)) vs) ->
  (forall vs x, In vs fs -> In (FVSec x) vs \/ In (FVAlarm (Some x)) vs -> body_good x) ->
  exists items, writes (flat_map (flat_map fval_encode) fs) (flat_map ilines items) /\
    Forall (fun i => exists k fd, nth_error (fields_of id) k = Some fd /\ item_of (fd_type fd) i) items /\
    forall j fd', nth_error (fields_of id) j = Some fd' -> sholds fd' items (if Nat.leb n j then nth (j - n) (blank fds (map (map forget_val) fs)) [] else []).
Proof.
  intros n fds. revert n. induction fds as [|fd fds IH]; intros n [|vs fs] IDX L G B; cbn [length] in L; try lia.
  - exists []. split; [apply writes_nil|]. split; [constructor|]. intros j fd' _. cbn [map blank]. destruct (Nat.leb n j); [destruct (j - n)|]; constructor.
  - destruct (IH (S n) fs) as (items & W & O & H); [|lia| | |].
    + intros i fd' N. replace (S n + i) with (n + S i) by lia. apply IDX. exact N.
    + intros i fd' vs' N V. exact (G (S i) fd' vs' N V).
    + intros vs' x I. apply B. right. exact I.
    + assert (NF : nth_error (fields_of id) n = Some fd) by (rewrite <- (IDX 0 fd eq_refl); f_equal; lia).
      destruct (values_items id n fd vs NF (G 0 fd vs eq_refl eq_refl)) as (its & W1 & O1 & M1); [intros x; apply B; left; reflexivity|].
      exists (its ++ items). split; [cbn [flat_map]; rewrite flat_map_app; apply writes_app; assumption|]. split.
      * apply Forall_app. split; [|exact O]. eapply Forall_impl; [|exact O1]. intros i Oi. exists n, fd. auto.
      * intros j fd' Nj. cbn [map blank]. destruct (Nat.eqb_spec j n) as [->|NE].
        -- assert (fd' = fd) by congruence. subst fd'. rewrite Nat.leb_refl, Nat.sub_diag. cbn [nth]. specialize (H n fd Nj). replace (Nat.leb (S n) n) with false in H by (symmetry; apply Nat.leb_gt; lia).
           destruct (is_last_modified fd) eqn:LM.
           ++ change (@nil fval) with (@nil fval ++ []). apply sholds_app; [|exact H]. apply sholds_none. eapply Forall_impl; [|exact O1]. intros i Oi Bi. apply (item_goes id n n fd fd i Nj Nj Oi) in Bi as [_ Bi]. congruence.
           ++ rewrite <- (app_nil_r (map forget_val vs)). apply sholds_app; [|exact H]. apply sholds_all. clear - M1 O1 Nj LM. revert O1. induction M1 as [|i v its vs' M _ IH]; intros O1; [constructor|]. inversion O1; subst. constructor; [|auto]. split; [|exact M].
              apply (item_goes id n n fd fd i Nj Nj); auto.
        -- assert (H0 : sholds fd' its []). { apply sholds_none. eapply Forall_impl; [|exact O1]. intros i Oi Bi. apply (item_goes id n j fd fd' i NF Nj Oi) in Bi as [Bi _]. congruence. }
           specialize (H j fd' Nj). pose proof (sholds_app _ _ _ _ _ H0 H) as HH. cbn [app] in HH. destruct (Nat.leb n j) eqn:LE.
           ++ apply Nat.leb_le in LE. replace (Nat.leb (S n) j) with true in HH by (symmetry; apply Nat.leb_le; lia). replace (j - n) with (S (j - S n)) by lia. exact HH.
           ++ apply Nat.leb_gt in LE. replace (Nat.leb (S n) j) with false in HH by (symmetry; apply Nat.leb_gt; lia). exact HH.
Qed.

Lemma map_nth_nil {A B} (f : A -> B) (fs : list (list A)) i : nth i (map (map f) fs) [] = map f (nth i fs []).
Proof. change (@nil B) with (map f []). apply map_nth. Qed.
Lemma present_map {A B} (f : A -> B) fs i : present (map (map f) fs) i = present fs i.
Proof. unfold present. rewrite map_nth_nil. destruct (nth i fs []); reflexivity. Qed.

Theorem body_rt : forall x, body_good x.
Proof.
  intros x. induction x as [id0 fs0 IH] using sec_induct. intros id fs E G. injection E as <- <-. inversion G as [id' fs' L F X]. subst id' fs'.
  destruct (fields_items id0 0 (fields_of id0) fs0) as (items & W & O & H); [auto|exact L| |exact IH|].
  - intros i fd vs N V. exact (proj2 (F i fd vs N V)).
  - exists items. split; [exact W|]. split; [|exact O]. change (forget (Sec id0 fs0)) with (Sec id0 (blank (fields_of id0) (map (map forget_val) fs0))).
    assert (LM : length (map (map forget_val) fs0) = length (fields_of id0)) by (rewrite map_length; exact L).
    apply SMeans.
    + eapply Forall_impl; [|exact O]. intros i (k & fd & N & Oi). destruct (field_facts _ _ _ N) as (NW & NB & _). apply name_word_facts in NW as (_ & U & _).
      inversion Oi as [pid l LN X1 X2|sid body e X1 X2|body e X1 X2]; subst i; rewrite <- X1 in *; cbn [item_word] in *; cbn [item_ok].
      * unfold is_plain, is_begin, is_end, line_is. rewrite LN, U. split; intros Q; apply NB; rewrite Q; cbn; auto.
      * split; [reflexivity|]. exists fd, sid. split; [eapply nth_error_In; exact N|]. split; [congruence|]. apply (item_goes id0 k k fd fd _ N N); [rewrite <- X1; constructor|]. split; [reflexivity|].
        destruct (is_last_modified fd) eqn:Q; [|reflexivity]. pose proof (goes_spec id0 k k fd fd N N) as GS. rewrite Q, andb_false_r in GS. exfalso. clear - GS N X1 Q. 
        assert (T : forallb (fun id => forallb (fun f => negb (is_last_modified f) || match fd_type f with FTProp _ => true | _ => false end) (fields_of id)) all_secs = true) by (vm_compute; reflexivity).
        rewrite forallb_forall in T. specialize (T id0 (all_secs_in id0)). cbv beta in T. rewrite forallb_forall in T. specialize (T fd (nth_error_In _ _ N)). cbv beta in T. rewrite Q, <- X1 in T. discriminate.
      * split; [reflexivity|]. exists fd. split; [eapply nth_error_In; exact N|]. split; [congruence|]. apply (item_goes id0 k k fd fd _ N N); [rewrite <- X1; constructor|]. split; [reflexivity|].
        destruct (is_last_modified fd) eqn:Q; [|reflexivity]. exfalso. clear - N X1 Q.
        assert (T : forallb (fun id => forallb (fun f => negb (is_last_modified f) || match fd_type f with FTProp _ => true | _ => false end) (fields_of id)) all_secs = true) by (vm_compute; reflexivity).
        rewrite forallb_forall in T. specialize (T id0 (all_secs_in id0)). cbv beta in T. rewrite forallb_forall in T. specialize (T fd (nth_error_In _ _ N)). cbv beta in T. rewrite Q, <- X1 in T. discriminate.
    + apply length_blank, LM.
    + intros i fd N. specialize (H i fd N). cbn [Nat.leb] in H. rewrite Nat.sub_0_r in H. exact H.
    + intros i fd N. rewrite nth_blank, N, map_nth_nil by exact LM.
      destruct (nth_error fs0 i) as [vs|] eqn:V; [|apply nth_error_None in V; assert (i < length (fields_of id0)) by (apply nth_error_Some; congruence); lia].
      rewrite (nth_error_nth _ _ _ V). destruct (F i fd vs N V) as [C _]. destruct (is_last_modified fd) eqn:LMI.
      * destruct (field_facts _ _ _ N) as (_ & _ & _ & NR & _). specialize (NR LMI). destruct (fd_mode fd); cbn [count_ok length]; [contradiction|lia|exact I].
      * rewrite map_length. exact C.
Qed.

(** ** The rules *)
Lemma last_table : forallb (fun id => forallb (fun f => Bool.eqb (is_last_modified f) match fd_type f with FTProp PrLastModified => true | _ => false end) (fields_of id)) all_secs = true.
Proof. vm_compute. reflexivity. Qed.
Lemma last_modified_field id fd : In fd (fields_of id) -> (is_last_modified fd = true <-> fd_type fd = FTProp PrLastModified).
Proof.
  intros I. pose proof last_table as T. rewrite forallb_forall in T. specialize (T id (all_secs_in id)). cbv beta in T. rewrite forallb_forall in T. specialize (T fd I). cbv beta in T. apply eqb_prop in T. rewrite T.
  destruct (fd_type fd) as [p| |]; try (split; discriminate). destruct p; split; congruence.
Qed.
Definition val_part (P : sec -> Prop) (v : fval) : Prop := match v with FVSec x | FVAlarm (Some x) => forall y, part_of y x -> P y | _ => True end.
Lemma parts_eq (P : sec -> Prop) id fs : (forall y, part_of y (Sec id fs) -> P y) <-> P (Sec id fs) /\ forall vs v, In vs fs -> In v vs -> val_part P v.
Proof.
  split.
  - intros H. split; [apply H; constructor|]. intros vs v I J. destruct v as [pid p|x|[x|]]; cbn [val_part]; try exact Logic.I; intros y Q; apply H; [eapply Part_sec|eapply Part_alarm]; eauto.
  - intros [H1 H2] y Q. inversion Q as [x E|y' x id' fs' vs I' J' Px|y' x id' fs' vs I' J' Px]; subst; [exact H1| |]; exact (H2 _ _ I' J' y Px).
Qed.
Lemma blank_in : forall fds fs ws, In ws (blank fds fs) -> forall w, In w ws -> exists i fd vs, nth_error fds i = Some fd /\ nth_error fs i = Some vs /\ is_last_modified fd = false /\ In w vs.
Proof.
  induction fds as [|fd fds IH]; intros [|vs fs] ws I w J; cbn [blank] in I; try destruct I as [I|I]; try contradiction.
  - destruct (is_last_modified fd) eqn:Q; subst ws; [destruct J|]. exists 0, fd, vs. auto.
  - destruct (IH fs ws I w J) as (i & g & vs' & A). exists (S i), g, vs'. exact A.
Qed.
Lemma in_blank : forall fds fs i fd vs, nth_error fds i = Some fd -> nth_error fs i = Some vs -> is_last_modified fd = false -> In vs (blank fds fs).
Proof.
  induction fds as [|g fds IH]; intros [|us fs] [|i] fd vs A B Q; try discriminate; cbn [nth_error blank] in *.
  - injection A as ->. injection B as ->. rewrite Q. left. reflexivity.
  - right. eapply IH; eauto.
Qed.
Lemma good_value id fs vs v : cal_good (Sec id fs) -> In vs fs -> In v vs -> exists i fd, nth_error (fields_of id) i = Some fd /\ nth_error fs i = Some vs /\ fval_good (fd_type fd) v.
Proof.
  intros G I J. inversion G as [? ? L F]; subst. apply In_nth_error in I as [i N]. destruct (nth_error (fields_of id) i) as [fd|] eqn:Nf.
  - exists i, fd. split; [exact Nf|]. split; [exact N|]. destruct (F i fd vs Nf N) as [_ X]. rewrite Forall_forall in X. auto.
  - apply nth_error_None in Nf. assert (i < length fs) by (apply nth_error_Some; congruence). lia.
Qed.
(** The values of the calendar that is read back. *)
Lemma forget_values id fs w : cal_good (Sec id fs) -> ((exists ws, In ws (sec_fields (forget (Sec id fs))) /\ In w ws) <-> exists vs v, In vs fs /\ In v vs /\ w = forget_val v /\ (forall p, v <> FVProp PrLastModified p)).
Proof.
  intros G. change (sec_fields (forget (Sec id fs))) with (blank (fields_of id) (map (map forget_val) fs)). split.
  - intros (ws & I & J). destruct (blank_in _ _ _ I w J) as (i & fd & us & N & NU & Q & K). rewrite nth_error_map in NU. destruct (nth_error fs i) as [vs|] eqn:NV; [|discriminate]. injection NU as <-. apply in_map_iff in K as (v & <- & K).
    exists vs, v. split; [eapply nth_error_In; exact NV|]. split; [exact K|]. split; [reflexivity|]. intros p ->. inversion G as [? ? L F]; subst. destruct (F i fd vs N NV) as [_ X]. rewrite Forall_forall in X. specialize (X _ K). inversion X as [pid p' _ T X2| |]; subst.
    assert (is_last_modified fd = true) by (apply (last_modified_field id); [eapply nth_error_In; exact N|auto]). congruence.
  - intros (vs & v & I & J & -> & NP). destruct (good_value _ _ _ _ G I J) as (i & fd & N & NV & FG). exists (map forget_val vs). split; [|apply in_map, J]. apply (in_blank _ _ i fd); [exact N|rewrite nth_error_map, NV; reflexivity|].
    destruct (is_last_modified fd) eqn:Q; [|reflexivity]. apply (last_modified_field id) in Q; [|eapply nth_error_In; exact N]. rewrite Q in FG. inversion FG; subst. destruct (NP p eq_refl).
Qed.

Lemma extras_forget id fs : length fs = length (fields_of id) -> (extras (forget (Sec id fs)) <-> extras (Sec id fs)).
Proof.
  intros L. change (forget (Sec id fs)) with (Sec id (blank (fields_of id) (map (map forget_val) fs))). unfold extras. cbn [sec_fields sec_id]. rewrite !Forall_forall.
  assert (LM : length (map (map forget_val) fs) = length (fields_of id)) by (rewrite map_length; exact L).
  assert (R : forall r, In r (sp_reqs (sec_spec id)) -> (extra_ok (present (blank (fields_of id) (map (map forget_val) fs))) r <-> extra_ok (present fs) r)).
  { intros r I. assert (P : forall i, In i (req_fields r) -> present (blank (fields_of id) (map (map forget_val) fs)) i = present fs i).
    { intros i J. destruct (req_facts _ _ _ I J) as (fd & N & Q). rewrite <- (present_map forget_val fs i). unfold present. rewrite nth_blank, N, Q by exact LM. reflexivity. }
    destruct r as [a b|a b|a b|a b]; cbn [extra_ok req_fields] in *; rewrite (P a (or_introl eq_refl)), (P b (or_intror (or_introl eq_refl))); reflexivity. }
  split; intros H r I; apply (R r I), H, I.
Qed.
Lemma obeys_extras x : length (sec_fields x) = length (fields_of (sec_id x)) -> (extras x <-> obeys x).
Proof.
  destruct x as [id fs]. cbn [sec_fields sec_id]. intros L. unfold extras, obeys, has_field. cbn [sec_fields sec_id].
  assert (HF : forall i fd, nth_error (fields_of id) i = Some fd -> (present fs i = true <-> held (fd_key fd) (Sec id fs) <> [])).
  { intros i fd N. rewrite (held_field _ _ _ _ L N). unfold present. destruct (nth i fs []); split; congruence. }
  destruct id; cbn [sec_spec sp_reqs]; try (split; [intros _; exact Logic.I|intros _; constructor]).
  - pose proof (HF 18 _ eq_refl) as A. pose proof (HF 19 _ eq_refl) as B. cbn [fd_key] in A, B. rewrite <- A, <- B. clear. split; [intros X; inversion X as [|? ? X1 _]; subst; cbn [extra_ok] in X1; intuition congruence|].
    intros H. constructor; [|constructor]. cbn [extra_ok]. destruct (present fs 18), (present fs 19); auto. destruct H; auto.
  - pose proof (HF 18 _ eq_refl) as A. pose proof (HF 19 _ eq_refl) as B. pose proof (HF 6 _ eq_refl) as C. cbn [fd_key] in A, B, C. rewrite <- A, <- B, <- C. clear.
    split; [intros X; inversion X as [|? ? X1 X']; subst; inversion X' as [|? ? X2 _]; subst; cbn [extra_ok] in X1, X2; intuition congruence|].
    intros [H1 H2]. constructor; [exact H2|]. constructor; [|constructor]. cbn [extra_ok]. destruct (present fs 18), (present fs 19); auto. destruct H1; auto.
  - pose proof (HF 3 _ eq_refl) as A. pose proof (HF 4 _ eq_refl) as B. cbn [fd_key] in A, B. rewrite <- A, <- B. split; [intros X; inversion X; subst; assumption|intros X; constructor; [exact X|constructor]].
  - pose proof (HF 10 _ eq_refl) as A. pose proof (HF 9 _ eq_refl) as B. cbn [fd_key] in A, B. rewrite <- A, <- B. split; [intros X; inversion X; subst; assumption|intros X; constructor; [exact X|constructor]].
  - pose proof (HF 10 _ eq_refl) as A. pose proof (HF 9 _ eq_refl) as B. cbn [fd_key] in A, B. rewrite <- A, <- B. split; [intros X; inversion X; subst; assumption|intros X; constructor; [exact X|constructor]].
  - pose proof (HF 12 _ eq_refl) as A. pose proof (HF 11 _ eq_refl) as B. pose proof (HF 4 _ eq_refl) as C. pose proof (HF 5 _ eq_refl) as D. cbn [fd_key] in A, B, C, D. rewrite <- A, <- B, <- C, <- D. clear.
    split; [intros X; inversion X as [|? ? X1 X']; subst; inversion X' as [|? ? X2 _]; subst; cbn [extra_ok] in X1, X2; split; [exact X1|rewrite X2; destruct (present fs 5); cbn; intuition congruence]|].
    intros [H1 H2]. constructor; [exact H1|]. constructor; [|constructor]. cbn [extra_ok]. destruct (present fs 4), (present fs 5); cbn; intuition congruence.
  - pose proof (HF 9 _ eq_refl) as A. pose proof (HF 8 _ eq_refl) as B. pose proof (HF 1 _ eq_refl) as C. pose proof (HF 2 _ eq_refl) as D. cbn [fd_key] in A, B, C, D. rewrite <- A, <- B, <- C, <- D. clear.
    split; [intros X; inversion X as [|? ? X1 X']; subst; inversion X' as [|? ? X2 _]; subst; cbn [extra_ok] in X1, X2; split; [exact X1|rewrite X2; destruct (present fs 2); cbn; intuition congruence]|].
    intros [H1 H2]. constructor; [exact H1|]. constructor; [|constructor]. cbn [extra_ok]. destruct (present fs 1), (present fs 2); cbn; intuition congruence.
Qed.
Lemma extras_rules cal : cal_good cal -> (all_extras (forget cal) <-> rules_met cal).
Proof.
  induction cal as [id fs IH] using sec_induct. intros G. pose proof (forget_values id fs) as FV. inversion G as [? ? L F]; subst. unfold all_extras, rules_met.
  destruct (forget (Sec id fs)) as [id' fs'] eqn:E. assert (EX : extras (Sec id' fs') <-> extras (Sec id fs)) by (rewrite <- E; apply extras_forget, L). assert (id' = id) by (change (forget (Sec id fs)) with (Sec id (blank (fields_of id) (map (map forget_val) fs))) in E; congruence). subst id'.
  rewrite !parts_eq, EX, (obeys_extras (Sec id fs) L). cbn [sec_fields] in FV.
  assert (SUB : forall vs v, In vs fs -> In v vs -> (val_part extras (forget_val v) <-> val_part obeys v)).
  { intros vs v I J. destruct (good_value _ _ _ _ G I J) as (i & fd & N & NV & FG). destruct v as [pid p|x|[x|]]; cbn [val_part]; [tauto| | |tauto].
    - change (forget_val (FVSec x)) with (FVSec (forget x)). cbn [val_part]. apply (IH vs x I (or_introl J)). inversion FG; subst; assumption.
    - change (forget_val (FVAlarm (Some x))) with (FVAlarm (Some (forget x))). cbn [val_part]. apply (IH vs x I (or_intror J)). inversion FG; subst; assumption. }
  split; intros [H1 H2]; (split; [exact H1|]).
  - intros vs v I J. destruct v as [pid p|x|[x|]]; try exact Logic.I; apply (SUB vs _ I J).
    + destruct (proj2 (FV (forget_val (FVSec x)) G)) as (ws & A & B); [exists vs, (FVSec x); repeat split; auto; discriminate|]. eauto.
    + destruct (proj2 (FV (forget_val (FVAlarm (Some x))) G)) as (ws & A & B); [exists vs, (FVAlarm (Some x)); repeat split; auto; discriminate|]. eauto.
  - intros ws w I J. destruct (proj1 (FV w G)) as (vs & v & A & B & -> & _); [exists ws; auto|]. apply (SUB vs v A B). eauto.
Qed.

(** ** Last-modified times *)
Lemma has_prop_eq id fs pid p : has_prop (Sec id fs) pid p <-> (exists vs, In vs fs /\ In (FVProp pid p) vs) \/ exists vs x, In vs fs /\ (In (FVSec x) vs \/ In (FVAlarm (Some x)) vs) /\ has_prop x pid p.
Proof.
  split.
  - intros (y & ws & P & I & J). inversion P as [x E|y' x id' fs' vs I' J' Px|y' x id' fs' vs I' J' Px]; subst.
    + left. eauto.
    + right. exists vs, x. split; [exact I'|]. split; [auto|]. exists y, ws. auto.
    + right. exists vs, x. split; [exact I'|]. split; [auto|]. exists y, ws. auto.
  - intros [(vs & I & J)|(vs & x & I & J & (y & ws & P & A & B))]; [exists (Sec id fs), vs; split; [constructor|auto]|]. exists y, ws. split; [|auto]. destruct J as [J|J]; [eapply Part_sec|eapply Part_alarm]; eauto.
Qed.
(** Everything else is kept. *)
Lemma forget_props cal pid p : cal_good cal -> (has_prop (forget cal) pid p <-> has_prop cal pid p /\ pid <> PrLastModified).
Proof.
  induction cal as [id fs IH] using sec_induct. intros G. pose proof (forget_values id fs) as FV.
  destruct (forget (Sec id fs)) as [id' fs'] eqn:E. cbn [sec_fields] in FV. rewrite !has_prop_eq. split.
  - intros [(ws & I & J)|(ws & x & I & J & P)].
    + destruct (proj1 (FV _ G) (ex_intro _ ws (conj I J))) as (vs & v & A & B & W & NP). destruct v as [pid' p'|y|[y|]]; try discriminate W. injection W as <- <-. split; [left; eauto|]. intros ->. exact (NP p eq_refl).
    + destruct J as [J|J].
      * destruct (proj1 (FV _ G) (ex_intro _ ws (conj I J))) as (vs & v & A & B & W & NP). destruct v as [pid' p'|y|[y|]]; try discriminate W. change (forget_val (FVSec y)) with (FVSec (forget y)) in W. injection W as ->.
        destruct (good_value _ _ _ _ G A B) as (i & fd & N & NV & FG). apply (IH vs y A (or_introl B)) in P as [P Q]; [|inversion FG; subst; assumption]. split; [|exact Q]. right. exists vs, y. auto.
      * destruct (proj1 (FV _ G) (ex_intro _ ws (conj I J))) as (vs & v & A & B & W & NP). destruct v as [pid' p'|y|[y|]]; try discriminate W. change (forget_val (FVAlarm (Some y))) with (FVAlarm (Some (forget y))) in W. injection W as ->.
        destruct (good_value _ _ _ _ G A B) as (i & fd & N & NV & FG). apply (IH vs y A (or_intror B)) in P as [P Q]; [|inversion FG; subst; assumption]. split; [|exact Q]. right. exists vs, y. auto.
  - intros [[(vs & I & J)|(vs & x & I & J & P)] Q].
    + left. apply (FV _ G). exists vs, (FVProp pid p). repeat split; auto. intros p' X. injection X as X _. contradiction.
    + right. destruct J as [J|J]; destruct (good_value _ _ _ _ G I J) as (i & fd & N & NV & FG).
      * destruct (proj2 (FV (forget_val (FVSec x)) G)) as (ws & A & B); [exists vs, (FVSec x); repeat split; auto; discriminate|]. exists ws, (forget x). split; [exact A|]. split; [left; exact B|]. apply (IH vs x I (or_introl J)); [inversion FG; subst; assumption|auto].
      * destruct (proj2 (FV (forget_val (FVAlarm (Some x))) G)) as (ws & A & B); [exists vs, (FVAlarm (Some x)); repeat split; auto; discriminate|]. exists ws, (forget x). split; [exact A|]. split; [right; exact B|]. apply (IH vs x I (or_intror J)); [inversion FG; subst; assumption|auto].
Qed.
Lemma forget_id cal : cal_good cal -> (forall p, ~ has_prop cal PrLastModified p) -> forget cal = cal.
Proof.
  induction cal as [id fs IH] using sec_induct. intros G NP. change (forget (Sec id fs)) with (Sec id (blank (fields_of id) (map (map forget_val) fs))). f_equal.
  assert (V : map (map forget_val) fs = fs).
  { rewrite <- (map_id fs) at 2. apply map_ext_in. intros vs I. rewrite <- (map_id vs) at 2. apply map_ext_in. intros v J. destruct (good_value _ _ _ _ G I J) as (i & fd & N & NV & FG). destruct v as [pid p|x|[x|]]; try reflexivity.
    - change (forget_val (FVSec x)) with (FVSec (forget x)). f_equal. apply (IH vs x I (or_introl J)); [inversion FG; subst; assumption|]. intros p P. apply (NP p). apply has_prop_eq. right. exists vs, x. auto.
    - change (forget_val (FVAlarm (Some x))) with (FVAlarm (Some (forget x))). do 2 f_equal. apply (IH vs x I (or_intror J)); [inversion FG; subst; assumption|]. intros p P. apply (NP p). apply has_prop_eq. right. exists vs, x. auto. }
  rewrite V. inversion G as [? ? L F]; subst. apply (nth_ext _ _ [] []); [rewrite length_blank; auto|]. intros i Li. rewrite length_blank in Li by exact L. rewrite nth_blank by exact L.
  destruct (nth_error (fields_of id) i) as [fd|] eqn:N; [|apply nth_error_None in N; lia]. destruct (is_last_modified fd) eqn:Q; [|reflexivity].
  destruct (nth_error fs i) as [vs|] eqn:NV; [|apply nth_error_None in NV; lia]. rewrite (nth_error_nth _ _ _ NV). destruct (F i fd vs N NV) as [_ FG]. apply (last_modified_field id) in Q; [|eapply nth_error_In; exact N]. rewrite Q in FG.
  destruct vs as [|v vs]; [reflexivity|]. inversion FG as [|? ? G1 _]; subst. inversion G1; subst. destruct (NP p). apply has_prop_eq. left. exists (FVProp PrLastModified p :: vs). split; [eapply nth_error_In; exact NV|left; reflexivity].
Qed.
End C.
