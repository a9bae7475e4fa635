(** When Encode never returns. *)
From Coq Require Import String Ascii ZArith Bool List Lia.
From Verif Require Import Base Lib Utf8 GoStrings Strtok Tokeniser SpecContent GoTime Types Params ParamTable PropTable Props SecTable Sections Codec SpecTree SpecRules EncodeProofs SpecParams ParamProofs SpecProps.
Import ListNotations.

(** ** Induction on components *)
Section Ind.
Context {env : Env} (P : sec -> Prop)
  (H : forall id fs, (forall vs x, In vs fs -> In (FVSec x) vs \/ In (FVAlarm (Some x)) vs -> P x) -> P (Sec id fs)).
Fixpoint sec_induct (s : sec) : P s :=
  match s with
  | Sec id fs => H id fs
    ((fix goL (fs : list (list fval)) : forall vs x, In vs fs -> In (FVSec x) vs \/ In (FVAlarm (Some x)) vs -> P x :=
       match fs with
       | [] => fun vs x I _ => match I with end
       | v0 :: fs' => fun vs x I J =>
         match I with
         | or_introl E =>
           (fix goV (l : list fval) : forall x, In (FVSec x) l \/ In (FVAlarm (Some x)) l -> P x :=
              match l with
              | [] => fun x J => match J with or_introl F => match F with end | or_intror F => match F with end end
              | f :: l' => fun x J =>
                match J with
                | or_introl (or_introl E) => match f as f0 return f0 = FVSec x -> P x with
                                             | FVSec s' => fun E => match E in _ = y return match y with FVSec z => P z | _ => True end with eq_refl => sec_induct s' end
                                             | FVProp _ _ => fun E => match E in _ = y return match y with FVProp _ _ => True | _ => P x end with eq_refl => Logic.I end
                                             | FVAlarm _ => fun E => match E in _ = y return match y with FVAlarm _ => True | _ => P x end with eq_refl => Logic.I end
                                             end E
                | or_intror (or_introl E) => match f as f0 return f0 = FVAlarm (Some x) -> P x with
                                             | FVAlarm (Some s') => fun E => match E in _ = y return match y with FVAlarm (Some z) => P z | _ => True end with eq_refl => sec_induct s' end
                                             | FVAlarm None => fun E => match E in _ = y return match y with FVAlarm None => True | _ => P x end with eq_refl => Logic.I end
                                             | FVProp _ _ => fun E => match E in _ = y return match y with FVProp _ _ => True | _ => P x end with eq_refl => Logic.I end
                                             | FVSec _ => fun E => match E in _ = y return match y with FVSec _ => True | _ => P x end with eq_refl => Logic.I end
                                             end E
                | or_introl (or_intror F) => goV l' x (or_introl F)
                | or_intror (or_intror F) => goV l' x (or_intror F)
                end
              end) v0 x (match E in _ = y return In (FVSec x) y \/ In (FVAlarm (Some x)) y -> In (FVSec x) v0 \/ In (FVAlarm (Some x)) v0 with eq_refl => fun J => J end J)
         | or_intror I' => goL fs' vs x I' J
         end
       end) fs)
  end.
End Ind.

Section H.
Context {env : Env}.

Lemma hangs_app a b : hangs (a ++ b) = hangs a || hangs b.
Proof. apply existsb_app. Qed.
Lemma hangs_wrs l : hangs (wrs l) = false.
Proof. induction l; [reflexivity|exact IHl]. Qed.
Lemma hangs_flat {A} (f : A -> list wev) l : hangs (flat_map f l) = true <-> exists a, In a l /\ hangs (f a) = true.
Proof.
  induction l as [|a l IH]; cbn [flat_map]; [split; [discriminate|intros (a & [] & _)]|]. rewrite hangs_app, orb_true_iff, IH. split.
  - intros [H|(x & I & H)]; eauto using in_eq, in_cons.
  - intros (x & [->|I] & H); eauto.
Qed.

Definition bad_text (s : bytes) : Prop := exists c, In c s /\ special68 c.
Lemma bad_dec s : {bad_text s} + {forall c, In c s -> ~ special68 c}.
Proof. exact (special_dec s). Qed.
Lemma hangs_6868 s : hangs (write6868 s) = true <-> bad_text s.
Proof.
  unfold write6868. destruct (bad_dec s) as [B|N].
  - rewrite (encode6868_none s B). split; [intros _; exact B|reflexivity].
  - rewrite (encode6868_plain s N). split; [discriminate|]. intros (c & I & S). destruct (N c I S).
Qed.
Lemma hangs_quoted s : hangs (write_quoted s) = true <-> bad_text s.
Proof. unfold write_quoted. change (hangs (Wr [DQ] :: write6868 s ++ [Wr [DQ]])) with (hangs (write6868 s ++ [Wr [DQ]])). rewrite hangs_app. cbn. rewrite orb_false_r. apply hangs_6868. Qed.
Lemma hangs_text s : hangs (write_text s) = true <-> bad_text s.
Proof. unfold write_text. destruct (contains_any s needquote); [apply hangs_quoted|apply hangs_6868]. Qed.

Lemma hangs_param key k v : hangs (param_encode key k v) = true <-> exists s, text_of k v s /\ bad_text s.
Proof.
  assert (HD : forall x t, hangs (Wr x :: t) = hangs t) by reflexivity.
  assert (NO : forall k v, (forall s, ~ text_of k v s) -> false = true <-> exists s, text_of k v s /\ bad_text s).
  { intros k0 v0 N. split; [discriminate|]. intros (s & T & _). destruct (N s T). }
  assert (ONE : forall k v s, (forall x, text_of k v x <-> x = s) -> bad_text s <-> exists s, text_of k v s /\ bad_text s).
  { intros k0 v0 s N. split; [intros B; exists s; split; [apply N; reflexivity|exact B]|]. intros (x & T & B). apply N in T. subst. exact B. }
  assert (EMPTY : forall k v s, isnil s = true -> (forall x, text_of k v x <-> x = s) -> false = true <-> exists s, text_of k v s /\ bad_text s).
  { intros k0 v0 s E N. split; [discriminate|]. intros (x & T & (c & I & _)). apply N in T. subst. destruct s; [destruct I|discriminate]. }
  destruct k, v; cbn [param_encode]; try (apply NO; intros s T; inversion T; fail).
  - destruct (isnil (url_string u)); apply NO; intros s T; inversion T.
  - assert (T : forall x, text_of (PKText quoted) (PVText t) x <-> x = t) by (intros x; split; [intros T; inversion T; reflexivity|intros ->; constructor]).
    destruct (isnil t) eqn:E; [apply (EMPTY _ _ t E T)|]. rewrite HD. destruct quoted; [rewrite hangs_quoted|rewrite hangs_text]; apply ONE, T.
  - destruct l as [|s l]; [apply NO; intros s T; inversion T; subst; contradiction|]. rewrite HD, hangs_app, orb_true_iff, hangs_quoted, hangs_flat. split.
    + intros [B|(x & I & B)]; [exists s; split; [constructor; left; reflexivity|exact B]|]. rewrite HD, hangs_quoted in B. exists x. split; [constructor; right; exact I|exact B].
    + intros (x & T & B). inversion T as [|? ? I|]; subst. destruct I as [->|I]; [left; exact B|right]. exists x. split; [exact I|]. rewrite HD, hangs_quoted. exact B.
  - assert (Z : hangs match l with [] => [] | u :: l' => Wr (bs ";" ++ key ++ bs "=") :: wrs (url_encode u) ++ flat_map (fun u0 => Wr (bs ",") :: wrs (url_encode u0)) l' end = false).
    { destruct l as [|u l]; [reflexivity|]. rewrite HD, hangs_app, hangs_wrs. cbn [orb]. apply not_true_is_false. rewrite hangs_flat. intros (x & _ & H). rewrite HD, hangs_wrs in H. discriminate. }
    rewrite Z. apply NO. intros s T. inversion T.
  - assert (Z : hangs (Wr (bs ";" ++ key ++ bs "=") :: enum_word free ws n) = false).
    { rewrite HD. unfold enum_word. destruct (enum_base free <=? n)%Z; [destruct (nth_error _ _)|]; destruct free; reflexivity. }
    rewrite Z. apply NO. intros s T. inversion T.
  - assert (T : forall x, text_of PKRegex (PVText t) x <-> x = t) by (intros x; split; [intros T; inversion T; reflexivity|intros ->; constructor]).
    destruct (isnil t) eqn:E; [apply (EMPTY _ _ t E T)|]. rewrite HD, hangs_text. apply ONE, T.
  - destruct b; apply NO; intros s T; inversion T.
Qed.

Lemma hangs_params : forall ps l, hangs (params_encode ps l) = true <-> exists q v s c, In (q, Some v) (combine ps l) /\ text_of (pkind_of q) v s /\ In c s /\ special68 c.
Proof.
  induction ps as [|q ps IH]; intros [|o l]; try (cbn [params_encode combine]; split; [discriminate|intros (? & ? & ? & ? & [] & _)]).
  cbn [combine]. destruct o as [v|]; cbn [params_encode].
  - rewrite hangs_app, orb_true_iff, IH, hangs_param. split.
    + intros [(s & T & c & I & S)|(q' & v' & s & c & I & R)]; [exists q, v, s, c; split; [left; reflexivity|auto]|exists q', v', s, c; split; [right; exact I|exact R]].
    + intros (q' & v' & s & c & [E|I] & T & R); [|right; exists q', v', s, c; auto]. injection E as <- <-. left. exists s. split; [exact T|]. exists c. exact R.
  - rewrite IH. split; intros (q' & v' & s & c & I & R); exists q', v', s, c; (split; [|exact R]); [right; exact I|]. destruct I as [E|I]; [discriminate|exact I].
Qed.

Lemma hangs_values : forall vs first l, hangs (values_encode first vs l) = false.
Proof.
  induction vs as [|[w k] vs IH]; intros first [|o l]; try reflexivity. cbn [values_encode]. rewrite hangs_app, IH, orb_false_r.
  destruct o; [|reflexivity]. rewrite hangs_app, hangs_wrs. destruct first; reflexivity.
Qed.
Lemma hangs_prop pid p : hangs (prop_encode pid p) = true <-> needs_escape pid p.
Proof.
  unfold prop_encode, needs_escape. destruct (prop_spec pid) as [key k]. cbn [snd]. destruct k as [ps vs|ws|k], p as [l vl|n|v];
    try (split; [discriminate|intros (? & ? & ? & ? & ? & ? & ? & ? & A & B & _); discriminate]).
  - change (hangs (Wr key :: ?t)) with (hangs t). rewrite !hangs_app, hangs_values. cbn [hangs existsb orb]. rewrite orb_false_r. rewrite hangs_params. split.
    + intros (q & v & s & c & R). exists ps, vs, l, vl, q, v, s, c. auto.
    + intros (ps' & vs' & l' & vl' & q & v & s & c & A & B & R). injection A as -> ->. injection B as -> ->. exists q, v, s, c. exact R.
  - split; [|intros (? & ? & ? & ? & ? & ? & ? & ? & A & B & _); discriminate]. destruct (Utf8.in_range _ _ _); discriminate.
  - split; [|intros (? & ? & ? & ? & ? & ? & ? & ? & A & B & _); discriminate]. change (hangs (Wr key :: ?t)) with (hangs t). rewrite hangs_app, hangs_wrs. discriminate.
Qed.


Lemma hangs_sec cal : hangs (sec_encode cal) = true <-> exists pid p, has_prop cal pid p /\ needs_escape pid p.
Proof.
  induction cal as [id fs IH] using sec_induct. cbn [sec_encode]. rewrite !hangs_app, !orb_true_iff, hangs_flat.
  assert (B : hangs (if sp_own (sec_spec id) then [Wr (begin_line (sp_name (sec_spec id)))] else []) = false) by (destruct (sp_own _); reflexivity).
  assert (E : hangs (if sp_own (sec_spec id) then [Wr (end_line (sp_name (sec_spec id)))] else []) = false) by (destruct (sp_own _); reflexivity).
  rewrite B, E. clear B E. split.
  - intros [H|[(vs & I & H)|H]]; try discriminate. apply hangs_flat in H as (v & J & H). destruct v as [pid p|x|[x|]]; cbn [fval_encode] in H.
    + exists pid, p. split; [|apply hangs_prop, H]. exists (Sec id fs), vs. split; [constructor|]. auto.
    + apply (IH vs x I (or_introl J)) in H as (pid & p & (y & ws & Py & Q) & N). exists pid, p. split; [|exact N]. exists y, ws. split; [eapply Part_sec; eauto|exact Q].
    + rewrite !hangs_app in H. cbn [hangs existsb orb] in H. rewrite orb_false_r in H. apply (IH vs x I (or_intror J)) in H as (pid & p & (y & ws & Py & Q) & N).
      exists pid, p. split; [|exact N]. exists y, ws. split; [eapply Part_alarm; eauto|exact Q].
    + discriminate.
  - intros (pid & p & (y & ws & Py & I & J) & N). right. left. inversion Py as [x E|y' x id' fs' vs I' J' Px|y' x id' fs' vs I' J' Px]; subst.
    + exists ws. split; [exact I|]. apply hangs_flat. exists (FVProp pid p). split; [exact J|]. apply hangs_prop, N.
    + exists vs. split; [exact I'|]. apply hangs_flat. exists (FVSec x). split; [exact J'|]. cbn [fval_encode]. apply (IH vs x I' (or_introl J')). exists pid, p. split; [|exact N]. exists y, ws. auto.
    + exists vs. split; [exact I'|]. apply hangs_flat. exists (FVAlarm (Some x)). split; [exact J'|]. cbn [fval_encode]. rewrite !hangs_app. cbn [hangs existsb orb]. rewrite orb_false_r.
      apply (IH vs x I' (or_intror J')). exists pid, p. split; [|exact N]. exists y, ws. auto.
Qed.

Theorem encode_hang_exact {W E} (wr : W -> bytes -> W * option E) w cal :
  (exists w', Encode wr w cal = EncHang w') <-> sec_valid cal = None /\ exists pid p, has_prop cal pid p /\ needs_escape pid p.
Proof.
  unfold Encode. destruct (sec_valid cal) as [e|] eqn:V; [split; [intros (w' & H); discriminate|intros [H _]; discriminate]|].
  rewrite run_trace_spec. cbv zeta. rewrite <- hangs_sec. destruct (hangs (sec_encode cal)); split; intros H; try discriminate; eauto.
  - destruct H as (w' & H). discriminate.
  - destruct H as [_ H]. discriminate.
Qed.
End H.
