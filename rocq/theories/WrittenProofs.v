(** Encode writes what SpecWritten.v says, and nothing else fits it. *)
From Coq Require Import String Ascii ZArith Bool List Lia.
From Verif Require Import Base Lib Utf8 GoStrings Tokeniser SpecContent GoTime Types Params ParamTable PropTable Props SecTable Sections Folder Unfolder Codec SpecLines EncodeProofs SpecTree SpecRules SpecParams ParamProofs SpecProps PropProofs HangProofs SpecCal SpecValid ValidProofs SpecRfc SpecOut OutProofs SpecLine LineProofs SpecWrite WriteProofs WriteOneProofs WriteRfcProofs CalProofs SpecLang SpecWritten.
Import ListNotations.
Local Open Scope Z_scope.

Section W.
Context {env : Env}.

(** ** Parameters *)
Lemma text_cons b tr : text (Wr b :: tr) = b ++ text tr.
Proof. reflexivity. Qed.
Lemma no_bad s tr : (hangs tr = true <-> bad_text s) -> hangs tr = false -> forall c, In c s -> ~ special68 c.
Proof. intros I H c J S. assert (B : bad_text s) by (exists c; auto). apply I in B. congruence. Qed.
Lemma text_6868 s : hangs (write6868 s) = false -> text (write6868 s) = s.
Proof. intros H. unfold write6868. rewrite (encode6868_plain s (no_bad s _ (hangs_6868 s) H)). cbn. apply app_nil_r. Qed.
Lemma text_quoted s : hangs (write_quoted s) = false -> text (write_quoted s) = quoted s.
Proof.
  intros H. unfold write_quoted in *. change (hangs (write6868 s ++ [Wr [DQ]]) = false) in H. rewrite hangs_app in H. apply orb_false_iff in H as [H _].
  rewrite text_cons, text_app, text_6868 by exact H. reflexivity.
Qed.
Lemma commas {A} (f : A -> list wev) (P : A -> bytes -> Prop) : (forall a, hangs (f a) = false -> P a (text (f a))) ->
  forall l a, hangs (f a ++ flat_map (fun a => Wr (bs ",") :: f a) l) = false -> with_commas P (a :: l) (text (f a ++ flat_map (fun a => Wr (bs ",") :: f a) l)).
Proof.
  intros F. induction l as [|b l IH]; intros a H; rewrite hangs_app in H; apply orb_false_iff in H as [H1 H2]; rewrite text_app.
  - cbn [flat_map]. change (text []) with (@nil byte). rewrite app_nil_r. constructor. apply F, H1.
  - cbn [flat_map] in *. change (text ((Wr (bs ",") :: f b) ++ ?t)) with (bs "," ++ text (f b ++ t)). apply WC_more; [apply F, H1|]. apply IH. exact H2.
Qed.
Lemma needquote_marks s : (forall c, In c s -> ~ special68 c) -> contains_any s needquote = true -> exists c, In c s /\ mark c.
Proof.
  intros N H. destruct (existsb (fun c => inset c (bs ":;,")) s) eqn:E.
  - apply existsb_exists in E as (c & I & J). exists c. split; [exact I|]. apply inset_In in J. exact J.
  - assert (contains_any s needquote = false); [|congruence]. apply contains_any_false. intros c I J. apply not_true_iff_false in E. apply E. apply existsb_exists. exists c. split; [exact I|].
    pose proof (byte_forall (fun c => implb (inset c needquote) (inset c (bs ":;,") || beqc c DQ)) ltac:(vm_compute; reflexivity) c) as B. cbv beta in B.
    apply inset_In in J. rewrite J in B. cbn [implb] in B. apply orb_true_iff in B as [B|B]; [exact B|]. apply beqc_eq in B. subst c. destruct (N DQ I). right. right. reflexivity.
Qed.
Lemma text_plain f s : f = AnyText \/ f = MediaType -> hangs (write_text s) = false -> form_says f (PVText s) (text (write_text s)).
Proof.
  intros F H. pose proof (no_bad s _ (hangs_text s) H) as N. unfold write_text in *. destruct (contains_any s needquote) eqn:Q.
  - rewrite text_quoted by exact H. destruct (needquote_marks s N Q) as (c & I & M). exact (FS_marked f s c F I M).
  - rewrite text_6868 by exact H. apply FS_plain; [exact F|]. intros c I M. exact (proj1 (contains_any_false _ _) Q c I ltac:(unfold mark in M; vm_compute; cbn in M; tauto)).
Qed.
Lemma url_text u : text (wrs (url_encode u)) = url_string u.
Proof. rewrite text_wrs. unfold url_encode. cbn [concat]. apply app_nil_r. Qed.
Lemma param_written q v : wt_param (pkind_of q) v = true -> param_ok (pkind_of q) v -> hangs (param_encode (keyword q) (pkind_of q) v) = false ->
  param_says q (Some v) (text (param_encode (keyword q) (pkind_of q) v)).
Proof.
  unfold keyword, pkind_of, param_says. rewrite (LineProofs.param_table q). cbn [fst snd]. generalize (fst (rfc_param q)) as key. intros key.
  assert (SAY : forall f v tr, ~ unsaid v -> form_says f v (text tr) -> unsaid v /\ text (Wr (bs ";" ++ key ++ bs "=") :: tr) = [] \/
     ~ unsaid v /\ exists w, text (Wr (bs ";" ++ key ++ bs "=") :: tr) = bs ";" ++ key ++ bs "=" ++ w /\ form_says f v w).
  { intros f v0 tr N S. right. split; [exact N|]. exists (text tr). split; [rewrite text_cons, <- !app_assoc; reflexivity|exact S]. }
  assert (HD : forall x t, hangs (Wr x :: t) = hangs t) by reflexivity.
  destruct (snd (rfc_param q)) as [| | | | |o ws|w| |], v; cbn [kind_form wt_param param_ok param_encode]; intros W O H; try discriminate W.
  - destruct (url_string u) as [|c r] eqn:U; cbn [isnil]; [left; split; [exact U|reflexivity]|]. apply SAY; [cbn; rewrite U; discriminate|]. rewrite url_text. constructor.
  - destruct l as [|u l]; [left; split; reflexivity|]. apply SAY; [discriminate|]. constructor. rewrite HD in H.
    exact (commas (fun u => wrs (url_encode u)) _ (fun u _ => url_text u) l u H).
  - destruct l as [|u l]; [left; split; reflexivity|]. apply SAY; [discriminate|]. constructor. rewrite HD in H.
    exact (commas write_quoted _ (fun s X => text_quoted s X) l u H).
  - destruct t as [|c r] eqn:T; [left; split; reflexivity|]. rewrite <- T in *. assert (E : isnil t = false) by (subst t; reflexivity). rewrite E in *. apply SAY; [cbn; subst t; discriminate|]. apply text_plain; [left; reflexivity|exact H].
  - destruct t as [|c r] eqn:T; [left; split; reflexivity|]. rewrite <- T in *. assert (E : isnil t = false) by (subst t; reflexivity). rewrite E in *. apply SAY; [cbn; subst t; discriminate|]. rewrite text_quoted by exact H. constructor.
  - apply SAY; [intros []|]. clear H HD SAY. rewrite map_length in O. unfold enum_word. destruct o; cbn [enum_base].
    + destruct (Z.leb_spec 1 n).
      * destruct (nth_error (map bs ws) (Z.to_nat (n - 1))) as [w|] eqn:N.
        -- rewrite nth_error_map in N. destruct (nth_error ws (Z.to_nat (n - 1))) as [w'|] eqn:N'; [|discriminate]. injection N as <-. cbn. rewrite app_nil_r.
           replace n with (Z.of_nat (Z.to_nat (n - 1)) + 1) by lia. exact (FS_word true ws _ w' N').
        -- apply FS_other. apply nth_error_None in N. rewrite map_length in N. lia.
      * apply FS_other. lia.
    + destruct (Z.leb_spec 0 n); [|lia]. rewrite nth_error_map. destruct (nth_error ws (Z.to_nat (n - 0))) as [w'|] eqn:N'; [|apply nth_error_None in N'; lia]. cbn. rewrite app_nil_r.
      replace n with (Z.of_nat (Z.to_nat (n - 0)) + 0) by lia. exact (FS_word false ws _ w' N').
  - apply (SAY (OnlyWord w) PVUnit [Wr (bs w)]); [intros []|]. cbn. rewrite app_nil_r. constructor.
  - destruct t as [|c r] eqn:T; [left; split; reflexivity|]. rewrite <- T in *. assert (E : isnil t = false) by (subst t; reflexivity). rewrite E in *. apply SAY; [cbn; subst t; discriminate|]. apply text_plain; [right; reflexivity|exact H].
  - destruct b; [|left; split; reflexivity]. apply SAY; [discriminate|]. constructor.
Qed.
Lemma params_written : forall ps l, Forall2 (fun q o => forall v, o = Some v -> wt_param (snd (param_spec q)) v = true) ps l ->
  (forall q v, In (q, Some v) (combine ps l) -> param_ok (snd (param_spec q)) v) -> hangs (params_encode ps l) = false -> params_say ps l (text (params_encode ps l)).
Proof.
  induction 1 as [|q o ps l T F IH]; intros O H; [constructor|].
  assert (O' : forall q v, In (q, Some v) (combine ps l) -> param_ok (snd (param_spec q)) v) by (intros q' v I; apply O; right; exact I).
  destruct o as [v|]; cbn [params_encode] in *.
  - rewrite hangs_app in H. apply orb_false_iff in H as [H1 H2]. rewrite text_app. constructor; [|apply IH; assumption].
    apply param_written; [apply T; reflexivity|apply O; left; reflexivity|exact H1].
  - change (text (params_encode ps l)) with ([] ++ text (params_encode ps l)). constructor; [reflexivity|apply IH; assumption].
Qed.

(** ** Values *)
Lemma zone_written t : zone_says t (concat (write_timezone t)).
Proof. unfold zone_says, write_timezone. destruct (t_loc t); cbn; rewrite ?app_nil_r; reflexivity. Qed.
Lemma colon_written v : value_ok v -> value_writable v -> colon_value v (concat (value_aencode v)).
Proof.
  intros O W. pose proof (value_written v O W) as S. unfold colon_value.
  assert (N : forall w, own_says v w -> concat (value_aencode v) = w ++ bs ":" ++ concat (value_encode v) ->
    exists o t, concat (value_aencode v) = o ++ bs ":" ++ t /\ own_says v o /\ value_says v t) by (intros w OW ->; eauto).
  destruct v; cbn [own_says] in *; try (apply (N []); reflexivity); try (apply (N (bs ";ENCODING=BASE64")); reflexivity);
    apply (N _ (zone_written _)); unfold value_aencode; rewrite !concat_app, <- app_assoc; reflexivity.
Qed.
Lemma alternative_written ts vs l first : Forall2 (fun t o => forall v, o = Some v -> kind_of v = snd t) vs l -> one_set l -> (forall v, In (Some v) l -> value_ok v /\ value_writable v) ->
  (first = true -> ts = vs \/ exists w w' k, vs = [(w, k)] /\ ts = [(w', k)]) -> first = true -> alternative ts l (text (values_encode first vs l)).
Proof.
  intros F (a & v & b & -> & A & B) OW TS ->. specialize (TS eq_refl). destruct (OW v) as [O W]; [apply in_or_app; right; left; reflexivity|].
  pose proof (colon_written v O W) as CV. assert (LEN : length vs = length (a ++ Some v :: b)) by (clear - F; induction F; cbn [length]; congruence).
  assert (G : forall first vs a, length vs = length (a ++ Some v :: b) -> Forall (fun o => o = None) a -> exists w k, nth_error vs (length a) = Some (w, k) /\
    values_encode first vs (a ++ Some v :: b) = (if first && isnil a then [] else [Wr (bs ";VALUE=" ++ w)]) ++ wrs (value_aencode v)).
  { clear - B. intros first vs. revert first. induction vs as [|[w k] vs IH]; intros first a L A; [destruct a; discriminate|]. destruct A as [|o a -> A]; cbn [app length nth_error values_encode isnil] in *.
    - exists w, k. split; [reflexivity|]. rewrite none_values by exact B. rewrite app_nil_r, andb_true_r. reflexivity.
    - destruct (IH false a) as (w' & k' & N & E); [lia|exact A|]. exists w', k'. split; [exact N|]. rewrite E, andb_false_r. reflexivity. }
  destruct (G true vs a LEN A) as (w & k & N & E). rewrite E. cbn [andb]. destruct a as [|o a]; cbn [isnil length nth_error] in *.
  - assert (T : exists w', nth_error ts 0 = Some (w', k)) by (destruct TS as [->|(x & w' & k' & -> & ->)]; [eauto|injection N as <- <-; eexists; reflexivity]).
    destruct T as (w' & T). exists [], v, b, w', k, [], (concat (value_aencode v)). split; [reflexivity|]. split; [constructor|]. split; [exact B|]. split; [exact T|].
    split; [cbn [app]; rewrite text_wrs; reflexivity|]. split; [left; auto|exact CV].
  - assert (T : ts = vs) by (destruct TS as [->|(x & w' & k' & -> & _)]; [reflexivity|cbn [nth_error] in N; destruct (length a); discriminate]). subst ts.
    exists (o :: a), v, b, w, k, (bs ";VALUE=" ++ w), (concat (value_aencode v)). split; [reflexivity|]. split; [exact A|]. split; [exact B|]. split; [exact N|].
    split; [cbn [app]; rewrite text_cons, text_wrs; reflexivity|]. split; [right; split; [discriminate|reflexivity]|exact CV].
Qed.

(** ** Lines *)
Theorem line_written pid p : prop_typed pid p -> prop_ok pid p -> prop_clean pid p -> prop_writable p /\ hangs (prop_encode pid p) = false ->
  exists l, text (prop_encode pid p) = l ++ CRLF /\ line_says pid p l /\ sound l.
Proof.
  intros T O C [W H]. destruct (prop_line pid p T O C) as (l & E & L). exists l. split; [exact E|]. split; [|exact (line_sound _ _ L)]. clear L C.
  unfold prop_typed, prop_ok, prop_encode in *. pose proof (prop_row pid) as R. pose proof (prop_name_key pid) as K. pose proof (prop_table pid) as TB. unfold mode_clean in TB. destruct (prop_spec pid) as [key k]. cbn [fst snd] in *. subst key.
  apply andb_true_iff in TB as [_ TB]. destruct k as [ps vs|ws|k], p as [pl vl|n|v]; try contradiction; cbn [line_says prop_writable] in *.
  - destruct T as (TP & TV & T1), O as (OP & OV & O1), R as (_ & R & TS). apply andb_true_iff in TB as [TN _].
    assert (ONE : one_set vl).
    { destruct vs as [|t [|t' vs]]; [discriminate| |apply O1; cbn [length]; lia]. inversion TV as [|? o ? vl' _ TV']; subst. inversion TV'; subst. destruct o as [v|]; [|destruct (T1 eq_refl); left; reflexivity]. exists [], v, []. repeat split; constructor. }
    rewrite text_cons, !text_app in E. change (text [Wr CRLF]) with CRLF in E. rewrite !app_assoc in E. apply app_inv_tail in E. rewrite <- app_assoc in E. subst l.
    change (hangs (Wr (prop_name pid) :: ?t)) with (hangs t) in H. rewrite hangs_app in H. apply orb_false_iff in H as [H _].
    exists ps, (text (params_encode ps pl)), (text (values_encode true vs vl)). split; [exact R|]. split; [reflexivity|]. split; [apply params_written; assumption|].
    apply alternative_written; [exact TV|exact ONE|intros v I; split; auto|intros _|reflexivity]. destruct TS as [->|(w & w' & k & -> & ->)]; [left; reflexivity|right; eauto].
  - destruct R as [R _]. unfold Utf8.in_range in E. replace ((0 <=? n) && (n <=? Z.of_nat (length ws) - 1)) with true in E by lia.
    exists (Z.to_nat n), (nth (Z.to_nat n) ws []). split; [lia|]. split; [rewrite R; apply nth_error_nth'; lia|].
    unfold text in E. cbn [app map concat] in E. rewrite app_nil_r, !app_assoc in E. apply app_inv_tail in E. rewrite <- E, <- app_assoc. reflexivity.
  - rewrite text_cons, !text_app in E. change (text [Wr CRLF]) with CRLF in E. rewrite !app_assoc in E. apply app_inv_tail in E. subst l.
    exists (text (wrs (value_aencode v))). split; [reflexivity|]. rewrite text_wrs. apply colon_written; assumption.
Qed.

(** ** Only one line fits *)
Lemma commas_one {A} (P : A -> bytes -> Prop) : (forall a s t, P a s -> P a t -> s = t) -> forall l s t, with_commas P l s -> with_commas P l t -> s = t.
Proof.
  intros F l s t H. revert t. induction H as [a s Q|a s l r Q H IH]; intros t G; inversion G; subst.
  - eapply F; eassumption.
  - match goal with X : with_commas P [] _ |- _ => inversion X end.
  - inversion H.
  - f_equal; [eapply F; eassumption|]. f_equal. apply IH. assumption.
Qed.
Lemma form_one f v s t : match f with Choice _ ws => NoDup (map bs ws) | _ => True end -> form_says f v s -> form_says f v t -> s = t.
Proof.
  intros ND H G. destruct H; inversion G; subst; try reflexivity; try contradiction; try lia;
    try (match goal with X : _ = _ \/ _ = _ |- _ => destruct X; discriminate end).
  - eapply commas_one; [|eassumption|eassumption]. intros; congruence.
  - eapply commas_one; [|eassumption|eassumption]. intros; congruence.
  - exfalso. match goal with X : forall c, In c ?t -> ~ mark c, Y : In ?c ?t, Z : mark ?c |- _ => exact (X c Y Z) end.
  - exfalso. match goal with X : forall c, In c ?t -> ~ mark c, Y : In ?c ?t, Z : mark ?c |- _ => exact (X c Y Z) end.
  - match goal with X : Z.of_nat ?a + _ = Z.of_nat ?b + _ |- _ => assert (a = b) by lia; subst a end. congruence.
  - match goal with X : nth_error ws ?i = Some ?w |- _ => assert (i < length ws)%nat by (apply nth_error_Some; congruence) end. exfalso. lia.
  - match goal with X : nth_error ws ?i = Some ?w |- _ => assert (i < length ws)%nat by (apply nth_error_Some; congruence) end. exfalso. lia.
Qed.
Lemma param_one q o s t : param_says q o s -> param_says q o t -> s = t.
Proof.
  destruct o as [v|]; cbn [param_says]; [|congruence]. intros [[U ->]|[U (w & -> & F)]] [[U' ->]|[U' (w' & -> & F')]]; try contradiction; [reflexivity|].
  do 3 f_equal. exact (form_one _ _ _ _ (choices_distinct q) F F').
Qed.
Lemma params_one qs l s t : params_say qs l s -> params_say qs l t -> s = t.
Proof. intros H. revert t. induction H as [|q qs o l s r P H IH]; intros t G; inversion G; subst; [reflexivity|]. f_equal; [eapply param_one; eassumption|apply IH; assumption]. Qed.
Lemma colon_one v s t : colon_value v s -> colon_value v t -> s = t.
Proof.
  intros (o & x & -> & O & V) (o' & x' & -> & O' & V'). assert (o = o') as <-; [|rewrite (value_one v x x' V V'); reflexivity].
  destruct v; cbn [own_says] in *; try congruence; unfold zone_says in *; destruct (t_loc _); congruence.
Qed.
Lemma one_place {A} (a a' : list (option A)) v v' b b' : a ++ Some v :: b = a' ++ Some v' :: b' -> Forall (fun o => o = None) a -> Forall (fun o => o = None) a' ->
  a = a' /\ v = v'.
Proof.
  intros Q F. revert a' Q. induction F as [|o a -> F IH]; intros a' Q F'; destruct F' as [|o' a' -> F']; cbn [app] in Q; try discriminate Q.
  - injection Q as <- _. auto.
  - injection Q as Q. destruct (IH _ Q F') as [-> ->]. auto.
Qed.
Lemma alternative_one ts l s t : alternative ts l s -> alternative ts l t -> s = t.
Proof.
  intros (a & v & b & w & k & x & y & -> & A & _ & N & -> & T & C) (a' & v' & b' & w' & k' & x' & y' & Q & A' & _ & N' & -> & T' & C').
  destruct (one_place _ _ _ _ _ _ Q A A') as [<- <-]. rewrite N in N'. injection N' as <- <-. rewrite (colon_one v y y' C C'). f_equal.
  destruct T as [[E ->]|[E ->]], T' as [[E' ->]|[E' ->]]; congruence.
Qed.
Lemma line_one pid p s t : line_says pid p s -> line_says pid p t -> s = t.
Proof.
  destruct p as [ps vl|n|v]; cbn [line_says].
  - intros (qs & x & y & Q & -> & P & A) (qs' & x' & y' & Q' & -> & P' & A'). rewrite Q in Q'. injection Q' as <-.
    rewrite (params_one _ _ _ _ P P'), (alternative_one _ _ _ _ A A'). reflexivity.
  - intros (i & w & -> & N & ->) (j & w' & Z & N' & ->). apply Nat2Z.inj in Z. subst j. congruence.
  - intros (y & -> & C) (y' & -> & C'). rewrite (colon_one _ _ _ C C'). reflexivity.
Qed.

(** ** Calendars *)
Lemma action_one w w' id : action_is w id -> action_is w' id -> w = w'.
Proof. unfold action_is. intros H G. repeat destruct H as [H|H]; try (injection H as <- <-); try contradiction; repeat destruct G as [G|G]; try discriminate; try contradiction; injection G as <-; reflexivity. Qed.
Lemma lines_one (L : propid -> prop -> bytes -> Prop) : (forall pid p s t, L pid p s -> L pid p t -> s = t) -> forall cal a b, comp_lines L cal a -> comp_lines L cal b -> a = b.
Proof.
  intros F cal. induction cal as [id fs IH] using sec_induct. intros a b H G. inversion H as [? ? ? H1]; subst. inversion G as [? ? ? G1]; subst. clear H G.
  assert (IH' : forall x, In (FVSec x) (concat fs) \/ In (FVAlarm (Some x)) (concat fs) -> forall a b, comp_lines L x a -> comp_lines L x b -> a = b).
  { intros x [J|J]; apply in_concat in J as (vs & I & J); [exact (IH vs x I (or_introl J))|exact (IH vs x I (or_intror J))]. }
  clear IH. revert a b H1 G1 IH'. induction (concat fs) as [|v vs IHv]; intros a b H G IH.
  - inversion H; subst. inversion G; subst. reflexivity.
  - assert (T : forall a b, vals_lines L vs a -> vals_lines L vs b -> a = b) by (intros a' b' H' G'; apply IHv; auto; intros x [J|J]; apply IH; [left|right]; right; exact J).
    destruct v as [pid p|x|[x|]]; inversion H; subst; inversion G; subst.
    + f_equal; [eapply F; eassumption|apply T; assumption].
    + assert (X : forall a b, comp_lines L x a -> comp_lines L x b -> a = b) by (apply IH; left; left; reflexivity).
      match goal with A : comp_lines L x ?p, B : comp_lines L x ?q |- (_ :: ?p ++ _) = (_ :: ?q ++ _) => rewrite (X p q A B) end. do 3 f_equal. apply T; assumption.
    + assert (X : forall a b, comp_lines L x a -> comp_lines L x b -> a = b) by (apply IH; right; left; reflexivity).
      match goal with A : comp_lines L x ?p, B : comp_lines L x ?q |- (_ :: _ :: ?p ++ _) = (_ :: _ :: ?q ++ _) => rewrite (X p q A B) end.
      match goal with A : action_is ?p _, B : action_is ?q _ |- (_ :: (_ ++ ?p) :: _) = (_ :: (_ ++ ?q) :: _) => rewrite (action_one p q _ A B) end. do 4 f_equal. apply T; assumption.
Qed.
Theorem cal_written cal e out s : sec_id cal = SCalendar -> cal_typed cal -> cal_clean cal -> cal_writable cal -> Encode ok_writer [] cal = EncDone e out ->
  (cal_says cal s <-> s = unfold (concat out)).
Proof.
  intros ID T C W H. assert (HG : hangs (sec_encode cal) = false).
  { unfold Encode in H. destruct (sec_valid cal); [discriminate|]. rewrite run_trace_spec in H. cbv zeta in H. destruct (hangs _); [discriminate|reflexivity]. }
  destruct (encode_lines_by line_says (fun pid p => prop_writable p /\ hangs (prop_encode pid p) = false) cal e out line_written ID T C) as (ls & CL & U & _); [|exact H|].
  - intros pid p P. split; [exact (W pid p P)|]. destruct (hangs (prop_encode pid p)) eqn:X; [|reflexivity]. apply hangs_prop in X.
    assert (hangs (sec_encode cal) = true) by (apply hangs_sec; eauto). congruence.
  - rewrite U. split; [|intros ->; exists ls; auto]. intros (ls' & CL' & ->). rewrite (lines_one line_says line_one cal ls ls' CL CL'). reflexivity.
Qed.
(** Every property has its line. *)
Lemma has_line (L : propid -> prop -> bytes -> Prop) cal : forall ls pid p, comp_lines L cal ls -> has_prop cal pid p -> exists l, In l ls /\ L pid p l.
Proof.
  induction cal as [id fs IH] using sec_induct. intros ls pid p H P. inversion H as [? ? ? V]; subst. clear H.
  assert (G : forall vs ls, vals_lines L vs ls -> (forall v, In v vs -> exists w, In w fs /\ In v w) ->
    (In (FVProp pid p) vs \/ exists x, (In (FVSec x) vs \/ In (FVAlarm (Some x)) vs) /\ has_prop x pid p) -> exists l, In l ls /\ L pid p l).
  { intros vs ks K. induction K as [|pid' p' l vs ks A K IHk|x a vs b A K IHk|x w a vs b A B K IHk]; intros S J.
    - destruct J as [[]|(x & [[]|[]] & _)].
    - destruct J as [[J|J]|(x & [[J|J]|[J|J]] & Q)]; try discriminate J.
      + injection J as -> ->. exists l. split; [left; reflexivity|exact A].
      + destruct IHk as (k & I & Z); [intros v I; apply S; right; exact I|left; exact J|]. exists k. split; [right; exact I|exact Z].
      + destruct IHk as (k & I & Z); [intros v I; apply S; right; exact I|right; exists x; auto|]. exists k. split; [right; exact I|exact Z].
      + destruct IHk as (k & I & Z); [intros v I; apply S; right; exact I|right; exists x; auto|]. exists k. split; [right; exact I|exact Z].
    - assert (R : (In (FVProp pid p) vs \/ exists x, (In (FVSec x) vs \/ In (FVAlarm (Some x)) vs) /\ has_prop x pid p) \/ has_prop x pid p).
      { destruct J as [[J|J]|(y & [[J|J]|[J|J]] & Q)]; try discriminate J; [left; left; exact J|injection J as ->; right; exact Q|left; right; exists y; auto|left; right; exists y; auto]. }
      destruct R as [R|R].
      + destruct IHk as (k & I & Z); [intros v I; apply S; right; exact I|exact R|]. exists k. split; [right; apply in_or_app; right; right; exact I|exact Z].
      + destruct (S (FVSec x)) as (w & I & M); [left; reflexivity|]. destruct (IH w x I (or_introl M) a pid p A R) as (k & N & Z).
        exists k. split; [right; apply in_or_app; left; exact N|exact Z].
    - assert (R : (In (FVProp pid p) vs \/ exists x, (In (FVSec x) vs \/ In (FVAlarm (Some x)) vs) /\ has_prop x pid p) \/ has_prop x pid p).
      { destruct J as [[J|J]|(y & [[J|J]|[J|J]] & Q)]; try discriminate J; [left; left; exact J|left; right; exists y; auto|injection J as ->; right; exact Q|left; right; exists y; auto]. }
      destruct R as [R|R].
      + destruct IHk as (k & I & Z); [intros v I; apply S; right; exact I|exact R|]. exists k. split; [right; right; apply in_or_app; right; right; exact I|exact Z].
      + destruct (S (FVAlarm (Some x))) as (w' & I & M); [left; reflexivity|]. destruct (IH w' x I (or_intror M) a pid p B R) as (k & N & Z).
        exists k. split; [right; right; apply in_or_app; left; exact N|exact Z]. }
  apply (G _ _ V).
  - intros v J. apply in_concat in J as (w & I & J). eauto.
  - apply has_prop_eq in P as [(vs & I & J)|(vs & x & I & J & Q)]; [left; apply in_concat; eauto|right; exists x; split; [|exact Q]].
    destruct J as [J|J]; [left|right]; apply in_concat; eauto.
Qed.
(** No calendar with an offset of zero or more is written as RFC 5545 demands. *)
Theorem offset_lines cal e out pid u : sec_id cal = SCalendar -> cal_typed cal -> cal_clean cal -> cal_writable cal -> Encode ok_writer [] cal = EncDone e out ->
  has_prop cal pid (PNew (VUTCOffset u)) -> 0 <= u -> exists ls s, unfold (concat out) = text_of_lines ls /\ In (prop_name pid ++ bs ":" ++ s) ls /\ forall u', ~ utcoffset_rfc s u'.
Proof.
  intros ID T C W H P U. pose proof (proj2 (cal_written cal e out _ ID T C W H) eq_refl) as (ls & CL & Q).
  destruct (has_line line_says cal ls pid _ CL P) as (l & I & y & -> & o & s & -> & O & V). cbn [own_says value_says] in O, V. subst o.
  eexists _, s. split; [exact Q|]. split; [right; apply in_or_app; left; exact I|]. intros u' R.
  assert (B : -360000 < u < 360000) by exact (W pid _ P).
  pose proof (proj1 (value_written_exact (VUTCOffset u) s Logic.I B) V) as ->. exact (offset_never_rfc u u' U R).
Qed.
End W.
