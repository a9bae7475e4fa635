(** A decoded calendar holds no more than its text. *)
From Coq Require Import String Ascii ZArith Bool List Lia ZifyBool.
From Verif Require Import Base Lib Utf8 Utf8Proofs GoStrings Strtok Tokeniser SpecText SpecContent TokeniserProofs TextProofs GoTime Types Params ParamTable SpecParams ParamProofs PropTable Props SecTable Sections Folder Unfolder Codec OnDemand SpecTree TreeProofs ExactProofs CaseProofs LineProofs DateProofs TimeProofs SpecSource SpecDemand DemandProofs SourceProofs SampleDemand SampleSource SpecSize.
Import ListNotations.

Lemma total_app a b : total (a ++ b) = total a + total b.
Proof. induction a as [|x a IH]; [reflexivity|]. cbn [app total fold_right] in *. unfold total in *. lia. Qed.
Lemma total_cons x l : total (x :: l) = x + total l.
Proof. reflexivity. Qed.

(** ** Texts *)
Lemma width c l : 1 <= snd (decode_rune (c :: l)) <= length (c :: l).
Proof. pose proof (decode_rune_width c l) as W. destruct (decode_rune (c :: l)). cbn [snd]. cbn [length] in *. lia. Qed.
Lemma one_wide c l : let '(r, w) := decode_rune (c :: l) in w <= 1 -> (r < 65536)%Z.
Proof. pose proof (code_range c). cbn [decode_rune]. dr_cases; unfold RuneError; lia. Qed.
Lemma rune_grows c l : length (encode_rune (fst (decode_rune (c :: l)))) <= snd (decode_rune (c :: l)) + 2.
Proof.
  pose proof (width c l) as W. pose proof (one_wide c l) as O. destruct (decode_rune (c :: l)) as [r w]. cbn [fst snd] in *.
  unfold encode_rune. set (x := if valid_rune r then r else RuneError). assert (X : w <= 1 -> (x < 65536)%Z) by (intros H; subst x; destruct (valid_rune r); [auto|unfold RuneError; lia]). clearbody x.
  destruct (Z.ltb_spec x 128); [cbn [length]; lia|]. destruct (Z.ltb_spec x 2048); [cbn [length]; lia|]. destruct (Z.ltb_spec x 65536); cbn [length]; lia.
Qed.
Lemma reads_grows s t rest : SpecText.reads s t rest -> length t + 2 * length rest <= 2 * length s + (match rest with [] => 2 | _ => 0 end) /\ length rest <= length s.
Proof.
  induction 1; cbn [length] in *; try lia.
  - pose proof (width c s) as W. pose proof (rune_grows c s) as G. rewrite app_length. rewrite skipn_length in IHreads. cbn [length] in *.
    destruct IHreads as [A B]. split; [|lia]. lia.
  - vm_compute. lia.
Qed.

(** A text is [tame] from the front. *)
Lemma tame_tail c s : tame (c :: s) -> tame s.
Proof. intros [A B]. split; [intros I; apply A; right; exact I|]. intros a b ->. apply (B (c :: a) b). reflexivity. Qed.
Lemma tame_drop a b : tame (a ++ b) -> tame b.
Proof. induction a as [|c a IH]; [auto|]. intros T. apply IH, (tame_tail c), T. Qed.
Lemma tame_next s : tame ("\"%char :: s) -> exists c s', s = c :: s' /\ (32 <= code c < 128)%Z.
Proof. intros [_ B]. apply (B [] s). reflexivity. Qed.
Lemma reads_tame s t rest : SpecText.reads s t rest -> tame s -> length t + length rest <= length s.
Proof.
  induction 1; intros T; cbn [length] in *; try lia.
  - specialize (IHreads (tame_tail _ _ T)). lia.
  - specialize (IHreads (tame_tail _ _ (tame_tail _ _ T))). lia.
  - specialize (IHreads (tame_tail _ _ (tame_tail _ _ T))). lia.
  - destruct (tame_next _ T) as (c' & s' & E & R). injection E as <- <-. rewrite decode_rune_ascii in * by lia. cbn [fst snd skipn] in *.
    rewrite encode_rune_low by lia. specialize (IHreads (tame_tail _ _ (tame_tail _ _ T))). cbn [app length]. lia.
  - destruct (tame_next _ T) as (c' & s' & E & R). discriminate.
Qed.

Lemma text_of s t : text_decode s = Ok t -> SpecText.reads s t [].
Proof.
  intros H. destruct (text_decode_exact s) as [A B]. destruct (open_sep false s); [rewrite A in H by reflexivity; discriminate|].
  destruct (B eq_refl) as (t' & E & R). rewrite E in H. apply Ok_inj in H. subst. exact R.
Qed.

(** ** List of texts *)
Definition texts_held (l : list bytes) : nat := total (map (fun t => 1 + length t) l).
Lemma mtext_step fuel n acc s l : length s < n -> mtext_loop (S fuel) n acc (Tok [] s) = Ok l ->
  exists t rest, SpecText.reads s t rest /\ ((rest = [] /\ l = acc ++ [t]) \/ (exists rest', rest = ","%char :: rest' /\ mtext_loop fuel n (acc ++ [t]) (Tok [] rest') = Ok l)).
Proof.
  intros L H. cbn [mtext_loop] in H. destruct (reads_total (length s) s (le_n _)) as (t & rest & R).
  rewrite (decode_text_reads _ _ _ R n [] L) in H. cbn [bind app peek trest] in H. exists t, rest. split; [exact R|].
  destruct rest as [|c rest]; [left; split; [reflexivity|]; apply Ok_inj in H; auto|]. cbn [peek trest] in H.
  destruct (beqc c ",") eqn:C; [|discriminate]. apply beqc_eq in C. subst c. right. exists rest. split; [reflexivity|exact H].
Qed.
Lemma mtext_grows : forall fuel n acc s l, length s < n -> mtext_loop fuel n acc (Tok [] s) = Ok l -> texts_held l <= texts_held acc + 2 * length s + 3.
Proof.
  induction fuel as [|f IH]; intros n acc s l L H; [discriminate|]. destruct (mtext_step f n acc s l L H) as (t & rest & R & D).
  apply reads_grows in R as [A B]. destruct D as [[-> ->]|(rest' & -> & D)].
  - unfold texts_held. rewrite map_app, total_app. cbn [map total fold_right length] in *. lia.
  - cbn [length] in *. apply IH in D; [|lia]. unfold texts_held in *. rewrite map_app, total_app in D. cbn [map total fold_right] in *. lia.
Qed.
Lemma mtext_tame : forall fuel n acc s l, length s < n -> tame s -> mtext_loop fuel n acc (Tok [] s) = Ok l -> texts_held l <= texts_held acc + length s + 1.
Proof.
  induction fuel as [|f IH]; intros n acc s l L T H; [discriminate|]. destruct (mtext_step f n acc s l L H) as (t & rest & R & D).
  pose proof (reads_tame _ _ _ R T) as A. destruct D as [[-> ->]|(rest' & -> & D)].
  - unfold texts_held. rewrite map_app, total_app. cbn [map total fold_right length] in *. lia.
  - assert (T' : tame rest'). { clear - R T. apply (tame_tail ","%char). revert T. remember (","%char :: rest') as r eqn:Q. induction R; intros T; subst; auto; try discriminate;
      try (injection Q as -> ->; exact T); try exact (IHR eq_refl (tame_tail _ _ T)) ; try exact (IHR eq_refl (tame_tail _ _ (tame_tail _ _ T))).
      - apply IHR; [reflexivity|]. apply tame_tail in T. eapply tame_drop. rewrite firstn_skipn. exact T. }
    cbn [length] in *. apply IH in D; [|lia|exact T']. unfold texts_held in *. rewrite map_app, total_app in D. cbn [map total fold_right] in *. lia.
Qed.

(** ** Parameter texts *)
Lemma code_grows s t : code_reads s t -> length t <= 2 * length s.
Proof. induction 1; cbn [length] in *; rewrite ?app_length in *; cbn [length bs list_ascii_of_string] in *; rewrite ?app_length in *; try lia. Qed.

(** ** Base64 *)
Lemma b64_shrinks : forall n l d, length l <= n -> b64_dec l = Some d -> length d <= length l.
Proof.
  induction n as [|n IH]; intros l d L H; [destruct l; [|cbn [length] in L; lia]; injection H as <-; auto|].
  destruct l as [|a [|b [|c [|e l]]]]; cbn [b64_dec] in H; try discriminate; [injection H as <-; auto|].
  destruct (b64_val a); [|discriminate]. destruct (b64_val b); [|discriminate]. destruct (beqc c "=").
  - destruct (beqc e "="); [|discriminate]. destruct l; [|discriminate]. injection H as <-. cbn [length]. lia.
  - destruct (b64_val c); [|discriminate]. destruct (beqc e "="); [destruct l; [|discriminate]; injection H as <-; cbn [length]; lia|].
    destruct (b64_val e); [|discriminate]. destruct (b64_dec l) as [r|] eqn:R; [|discriminate]. injection H as <-.
    apply IH in R; cbn [length] in *; lia.
Qed.
Lemma filter_shrinks {A} (f : A -> bool) l : length (filter f l) <= length l.
Proof. induction l as [|a l IH]; [auto|]. cbn [filter]. destruct (f a); cbn [length]; lia. Qed.

(** ** Rules *)
Lemma split_total c s : total (map (@length _) (split c s)) + length (split c s) = S (length s).
Proof.
  induction s as [|x s IH]; [reflexivity|]. cbn [split]. destruct (beqc x c); [cbn [map length]; rewrite total_cons; cbn [length]; lia|].
  destruct (split c s) as [|w ws]; [cbn in IH; lia|]. cbn [map length] in *. rewrite total_cons in *. cbn [length] in *. lia.
Qed.
Lemma split_count c s : length (split c s) <= S (length s).
Proof. pose proof (split_total c s). lia. Qed.
Lemma mapM_count {A B} (f : A -> res B) l r : mapM f l = Ok r -> length r = length l.
Proof. intros H. apply mapM_iff in H. symmetry. induction H; [reflexivity|]. cbn [length]. congruence. Qed.

Section Sizes.
Context {env : Env}.

Definition lists_held (r : recur) : nat := length (r_bysecond r) + length (r_byminute r) + length (r_byhour r) + length (r_byday r) +
  length (r_bymonthday r) + length (r_byyearday r) + length (r_byweekno r) + length (r_bymonth r) + length (r_bysetpos r).
Lemma rule_held m r fq k v r' fq' : recur_rule m r fq k v = Ok (r', fq') -> lists_held r' <= lists_held r + length v + 1.
Proof.
  assert (U : forall lo hi l, parse_ulist lo hi v = Ok l -> length l <= length v + 1).
  { intros lo hi l H. apply mapM_count in H. pose proof (split_count ","%char v). lia. }
  assert (SL : forall b hi l, parse_slist b hi v = Ok l -> length l <= length v + 1).
  { intros b hi l H. apply mapM_count in H. pose proof (split_count ","%char v). lia. }
  destruct r as [fr wk ut un co iv bse bmi bho bda bmd byd bwn bmo bsp]. unfold recur_rule, lists_held.
  cbn [r_bysecond r_byminute r_byhour r_byday r_bymonthday r_byyearday r_byweekno r_bymonth r_bysetpos].
  repeat match goal with |- context [beq k ?w] => destruct (beq k w) end; intros H.
  all: repeat match type of H with
    | (if ?c then _ else _) = _ => destruct c; try discriminate H
    | match ?o with _ => _ end = _ => destruct o eqn:?; cbn [bind] in H; try discriminate H
    | bind ?o _ = _ => destruct o eqn:?; cbn [bind] in H; try discriminate H
    end.
  all: try discriminate H. all: injection H as <- _; cbn [r_bysecond r_byminute r_byhour r_byday r_bymonthday r_byyearday r_byweekno r_bymonth r_bysetpos].
  all: repeat match goal with
    | Q : parse_ulist _ _ _ = Ok _ |- _ => apply U in Q
    | Q : parse_slist _ _ _ = Ok _ |- _ => apply SL in Q
    | Q : mapM _ _ = Ok _ |- _ => apply mapM_count in Q; pose proof (split_count ","%char v)
    end; lia.
Qed.
Lemma rules_held m : forall rs r fq r' fq', recur_rules m r fq rs = Ok (r', fq') -> lists_held r' <= lists_held r + total (map (@length _) rs).
Proof.
  induction rs as [|x rs IH]; intros r fq r' fq' H; cbn [recur_rules] in H; [injection H as <- _; lia|].
  destruct (cut "=" x) as [[k v]|] eqn:C; [|discriminate]. apply cut_some in C as [-> _].
  destruct (recur_rule m r fq k v) as [[r1 f1]| | |] eqn:R; cbn [bind] in H; try discriminate H. apply rule_held in R. apply IH in H.
  cbn [map]. rewrite total_cons, app_length. cbn [length]. lia.
Qed.
Lemma recur_held m s r : recur_decode m s = Ok r -> value_held (VRecur r) <= length s + 1.
Proof.
  unfold recur_decode. destruct (recur_rules _ _ _ _) as [[r' f]| | |] eqn:R; cbn [bind]; try discriminate. destruct f; [|discriminate].
  intros H. apply Ok_inj in H. subst r'. apply rules_held in R. pose proof (split_total ";"%char s). change (lists_held zero_recur) with 0 in R.
  assert (length (split ";"%char s) >= 1) by (destruct s; cbn [split]; [cbn; lia|]; destruct (beqc _ _); [cbn; lia|]; destruct (split _ s); cbn; lia).
  unfold lists_held in R. cbn [value_held]. lia.
Qed.

(** [k] is the factor, [okv] what is known of values and [okp] of the values of parameters. *)
Section Factor.
Variables (k : nat) (okv okp : bytes -> Prop).
Hypothesis one : 1 <= k.
Hypothesis texts : forall s t, okv s -> text_decode s = Ok t -> length t + 1 <= k * length s + 2 * k.
Hypothesis lists : forall s l, okv s -> mtext_decode s = Ok l -> texts_held l + 1 <= k * length s + 2 * k.
Hypothesis params : forall s, okp s -> length (decode6868 s) <= k * length s.

Lemma value_fits kd m s v : okv s -> value_decode kd m s = Ok v -> value_held v + 1 <= k * length s + 2 * k.
Proof.
  assert (L : length s <= k * length s) by nia.
  intros O H. destruct kd; cbn [value_decode] in H; unfold rmap in H; match type of H with bind ?r _ = _ => destruct r eqn:E end; cbn [bind] in H; try discriminate H; apply Ok_inj in H; subst v; cbn [value_held]; try lia.
  - unfold binary_decode in E. destruct (pmap_get m _); [|discriminate]. destruct (beq _ _); [|discriminate]. unfold b64_decode_string in E.
    destruct (b64_dec _) as [d|] eqn:D; [|discriminate]. apply Ok_inj in E. subst. apply (b64_shrinks _ _ _ (le_n _)) in D.
    pose proof (filter_shrinks (fun c => negb (beqc c CR || beqc c LF)) s). lia.
  - apply recur_held in E. cbn [value_held] in E. lia.
  - apply texts; assumption.
  - apply lists; assumption.
Qed.

Definition pv_ok (v : pvalue) : Prop := okp (pvalue_text v).
Definition cp_ok (p : cparam) : Prop := Forall pv_ok (cp_first p :: cp_more p).
Definition line_ok (l : cline) : Prop := okv (cl_value l) /\ Forall cp_ok (cl_params l).
Definition weight (ls : list cline) : nat := total (map (fun l => k * length (cline_render l)) ls).

Lemma render_more v vs : length (cparam_render (CParam [] v vs)) = 2 + length (pvalue_render v) + total (map (fun v => 1 + length (pvalue_render v)) vs).
Proof.
  unfold cparam_render. cbn [cp_name cp_first cp_more]. rewrite !app_length. cbn [length bs list_ascii_of_string app].
  assert (E : length (more_render vs) = total (map (fun v => 1 + length (pvalue_render v)) vs)); [|lia].
  unfold more_render. induction vs as [|w vs IH]; [reflexivity|]. cbn [map concat]. rewrite total_cons, app_length, <- IH. rewrite app_length. reflexivity.
Qed.
Lemma render_name p : length (cparam_render p) = length (cp_name p) + length (cparam_render (CParam [] (cp_first p) (cp_more p))).
Proof. unfold cparam_render. cbn [cp_name cp_first cp_more]. rewrite !app_length. cbn [length]. lia. Qed.
Lemma quoted_inv v d : quoted_data (pvalue_token v) = Ok d -> v = Quoted d.
Proof. destruct v; cbn [pvalue_token]; unfold quoted_data; cbn [t_type t_data ttype_eqb]; [intros H; apply Ok_inj in H; congruence|discriminate]. Qed.
Lemma token_text v : t_data (pvalue_token v) = pvalue_text v.
Proof. destruct v; reflexivity. Qed.
Lemma text_in_value v : length (pvalue_text v) <= length (pvalue_render v).
Proof. destruct v; cbn [pvalue_text pvalue_render]; rewrite ?app_length; cbn [length]; lia. Qed.
Lemma quoted_lists {A} (f : bytes -> res A) (g : A -> nat) : (forall d a, okp d -> f d = Ok a -> g a <= k * length d) ->
  forall vs l, Forall pv_ok vs -> mapM (fun t => let! d := quoted_data t in f d) (map pvalue_token vs) = Ok l ->
  total (map (fun a => 1 + g a) l) <= k * total (map (fun v => length (pvalue_render v)) vs).
Proof.
  intros F vs l O H. apply mapM_iff in H. revert O. remember (map pvalue_token vs) as ts eqn:Q. revert vs Q.
  induction H as [|t a ts l E H IH]; intros vs Q O; [destruct vs; [cbn; lia|discriminate]|]. destruct vs as [|v vs]; [discriminate|]. cbn [map] in Q. injection Q as -> ->.
  apply Forall_cons_iff in O as [O1 O2]. specialize (IH vs eq_refl O2). destruct (quoted_data (pvalue_token v)) as [d| | |] eqn:D; cbn [bind] in E; try discriminate E.
  apply quoted_inv in D. subst v. apply F in E; [|exact O1]. cbn [map]. rewrite !total_cons. cbn [pvalue_render]. rewrite !app_length. cbn [length]. lia.
Qed.

Lemma one_inv f w t : one_value (map pvalue_token (f :: w)) = Ok t -> t = pvalue_token f /\ w = [].
Proof. intros E. destruct w; [|discriminate]. cbn [map one_value] in E. apply Ok_inj in E. auto. Qed.
Lemma param_fits kd p v : cp_ok p -> param_decode kd (snd (group_of p)) = Ok v -> param_held v <= k * length (cparam_render p).
Proof.
  intros O H. rewrite render_name, render_more. cbn [group_of snd] in H. set (f := cp_first p) in *. set (w := cp_more p) in *. unfold cp_ok in O. fold f w in O. clearbody f w.
  assert (MIN : 1 <= k * (length (cp_name p) + (2 + length (pvalue_render f) + total (map (fun v => 1 + length (pvalue_render v)) w)))) by nia.
  pose proof (text_in_value f) as TV. apply Forall_cons_iff in O as [O1 O2]. 
  assert (SUM : total (map (fun v => length (pvalue_render v)) (f :: w)) <= length (pvalue_render f) + total (map (fun v => 1 + length (pvalue_render v)) w)).
  { cbn [map]. rewrite total_cons. clear. induction w; cbn [map]; rewrite ?total_cons; cbn [total fold_right]; lia. }
  destruct kd as [|q| | |free ws|wd| |]; cbn [param_decode] in H.
  - destruct (one_value _) eqn:E1; cbn [bind] in H; try discriminate H. destruct (quoted_data _); cbn [bind] in H; try discriminate H. destruct (url_decode _); cbn [bind] in H; try discriminate H. apply Ok_inj in H. subst v. exact MIN.
  - destruct (one_value _) as [t| | |] eqn:E1; cbn [bind] in H; try discriminate H. apply one_inv in E1 as [-> ->].
    assert (X : exists d, (if q then quoted_data (pvalue_token f) else Ok (t_data (pvalue_token f))) = Ok d /\ v = PVText (decode6868 d)).
    { destruct (if q then _ else _) as [d| | |]; cbn [bind] in H; try discriminate H. apply Ok_inj in H. exists d. auto. }
    destruct X as (d & D & ->). assert (d = pvalue_text f) by (destruct q; [apply quoted_inv in D; subst f; reflexivity|rewrite token_text in D; apply Ok_inj in D; auto]).
    subst d. apply params in O1. cbn [param_held]. nia.
  - destruct (mapM _ _) as [l| | |] eqn:E1; cbn [bind] in H; try discriminate H. apply Ok_inj in H. subst v.
    apply (quoted_lists (fun d => Ok (decode6868 d)) (@length _)) in E1; [| |constructor; assumption].
    + cbn [param_held]. pose proof (Nat.mul_le_mono_l _ _ k SUM). nia.
    + intros d a P A. apply Ok_inj in A. subst a. apply params. exact P.
  - destruct (mapM _ _) as [l| | |] eqn:E1; cbn [bind] in H; try discriminate H. apply Ok_inj in H. subst v.
    apply (quoted_lists url_decode (fun _ => 0)) in E1; [|intros; lia|constructor; assumption].
    assert (Z : total (map (fun _ : url => 1 + 0) l) = length l) by (clear; induction l; [reflexivity|]; cbn [map length]; rewrite total_cons; lia). rewrite Z in E1.
    cbn [param_held]. pose proof (Nat.mul_le_mono_l _ _ k SUM). nia.
  - destruct (one_value _) eqn:E1; cbn [bind] in H; try discriminate H. destruct (index_of _ _); [apply Ok_inj in H; subst v; exact MIN|]. destruct free; [|discriminate]. apply Ok_inj in H. subst v. exact MIN.
  - destruct (one_value _) eqn:E1; cbn [bind] in H; try discriminate H. destruct (beq _ _); [|discriminate]. apply Ok_inj in H. subst v. exact MIN.
  - destruct (one_value _) as [t| | |] eqn:E1; cbn [bind] in H; try discriminate H. apply one_inv in E1 as [-> ->]. destruct (regex_match _); [|discriminate]. apply Ok_inj in H. subst v.
    rewrite token_text. cbn [param_held]. nia.
  - destruct (one_value _) eqn:E1; cbn [bind] in H; try discriminate H. match type of H with bind ?r _ = _ => destruct r; cbn [bind] in H; try discriminate H end. apply Ok_inj in H. subst v. exact MIN.
Qed.

Lemma groups_total cps : total (map (fun p => length (cparam_render p)) cps) = length (concat (map cparam_render cps)).
Proof. induction cps as [|p cps IH]; [reflexivity|]. cbn [map concat]. rewrite total_cons, app_length. lia. Qed.
Lemma set_nth_total {A} (f : A -> nat) a : forall l i, total (map f (set_nth i a l)) <= total (map f l) + f a.
Proof.
  induction l as [|x l IH]; intros [|i]; cbn [set_nth map]; rewrite ?total_cons; try (cbn [total fold_right]; lia). specialize (IH i). lia.
Qed.
Definition ps_held (st : pstate) : nat := total (map (opt_held param_held) (ps_params st)).
Lemma struct_fits ps vs : forall cps st st', Forall cp_ok cps -> struct_params ps vs st (map group_of cps) = Ok st' ->
  ps_held st' <= ps_held st + k * total (map (fun p => length (cparam_render p)) cps).
Proof.
  induction cps as [|p cps IH]; intros st st' O H; cbn [map struct_params] in H; [apply Ok_inj in H; subst; lia|].
  apply Forall_cons_iff in O as [O1 O2]. destruct (struct_param ps vs st (group_of p)) as [st1| | |] eqn:E; cbn [bind] in H; try discriminate H.
  apply IH in H; [|exact O2]. cbn [map]. rewrite total_cons.
  assert (X : ps_held st1 <= ps_held st + k * length (cparam_render p)); [|nia]. clear H IH O2.
  unfold struct_param in E. destruct (group_of p) as [n tv] eqn:G. assert (T : tv = snd (group_of p)) by (rewrite G; reflexivity).
  destruct (param_index n ps) as [i|].
  - destruct (nth i (ps_params st) None); [discriminate|]. destruct (param_decode _ tv) as [v| | |] eqn:D; cbn [bind] in E; try discriminate E. apply Ok_inj in E. subst st1 tv.
    apply param_fits in D; [|exact O1]. unfold ps_held. cbn [ps_params]. pose proof (set_nth_total (opt_held param_held) (Some v) (ps_params st) i) as X. cbn [opt_held] in X. lia.
  - assert (S : ps_params st1 = ps_params st); [|unfold ps_held; rewrite S; nia].
    destruct (_ && _); [|apply Ok_inj in E; subst st1; reflexivity]. destruct tv as [|t [|t' tv]]; try discriminate E. destruct (ps_vtype st); [discriminate|].
    destruct (index_of _ _); [|discriminate]. apply Ok_inj in E. subst st1. reflexivity.
Qed.
Lemma none_total {A B} (f : B -> nat) (l : list A) : total (map (opt_held f) (map (fun _ => None) l)) = 0.
Proof. induction l; [reflexivity|]. cbn [map]. rewrite total_cons. exact IHl. Qed.

Lemma prop_fits pid l p : cl_name l <> [] -> line_ok l -> prop_decode pid (params_tokens (cl_params l)) (cl_value l) = Ok p -> 1 + prop_held p <= k * length (cline_render l).
Proof.
  intros N [OV OP] H. unfold cline_render. rewrite !app_length, <- groups_total. assert (NL : 1 <= length (cl_name l)) by (destruct (cl_name l); [congruence|cbn; lia]). cbn [length bs list_ascii_of_string].
  unfold prop_decode in H. destruct (snd (prop_spec pid)) as [ps vs|ws|kd].
  - rewrite groups_params in H. destruct (struct_params _ _ _ _) as [st| | |] eqn:E; cbn [bind] in H; try discriminate H. apply struct_fits in E; [|exact OP].
    match type of H with bind ?r _ = _ => destruct r as [v| | |] eqn:D; cbn [bind] in H; try discriminate H end. apply Ok_inj in H. subst p. apply value_fits in D; [|exact OV].
    unfold ps_held in E. cbn [ps_params] in E. rewrite none_total in E. cbn [prop_held].
    pose proof (set_nth_total (opt_held value_held) (Some v) (map (fun _ => None) vs) (match ps_vtype st with Some i => i | None => 0 end)) as X. rewrite none_total in X. cbn [opt_held] in X. nia.
  - destruct (index_of _ _); [|discriminate]. apply Ok_inj in H. subst p. cbn [prop_held]. nia.
  - match type of H with bind ?r _ = _ => destruct r as [v| | |] eqn:D; cbn [bind] in H; try discriminate H end. apply Ok_inj in H. subst p. apply value_fits in D; [|exact OV]. cbn [prop_held]. nia.
Qed.

(** ** Components *)
Definition fields_held (fs : list (list fval)) : nat := total (map (fun vs => total (map fval_held vs)) fs).
Lemma add_held v : forall fs i, fields_held (add_field i v fs) <= fields_held fs + fval_held v.
Proof.
  unfold fields_held, add_field. induction fs as [|x fs IH]; intros [|i]; cbn [set_nth nth map]; rewrite ?total_cons; try (cbn [total fold_right]; lia).
  - rewrite map_app, total_app. cbn [map]. rewrite total_cons. cbn [total fold_right]. lia.
  - specialize (IH i). lia.
Qed.
Lemma weight_app a b : weight (a ++ b) = weight a + weight b.
Proof. unfold weight. rewrite map_app, total_app. reflexivity. Qed.
Lemma weight_cons a b : weight (a :: b) = k * length (cline_render a) + weight b.
Proof. reflexivity. Qed.
Lemma line_long l : 1 <= k * length (cline_render l).
Proof. unfold cline_render. rewrite !app_length. cbn [length bs list_ascii_of_string]. nia. Qed.
Lemma wf_named l : cline_wf l = true -> cl_name l <> [].
Proof. unfold cline_wf. intros H E. rewrite E in H. discriminate. Qed.

(** What stands in the source is known: every line read from it is [line_ok]. *)
Lemma dec_fits : forall fuel id fs s x s', src_ok s -> (forall ls s2, reads s ls s2 -> Forall line_ok ls) -> dec_sec fuel id fs s = Ok (x, s') ->
  exists ls, reads s ls s' /\ src_ok s' /\ held x <= 1 + fields_held fs + weight ls.
Proof.
  induction fuel as [|f IH]; intros id fs s x s' O OK H; [discriminate|]. cbn [dec_sec] in H.
  destruct (get_ph s) as [[[data|] s1]| | |] eqn:G; cbn [bind] in H; try discriminate H.
  destruct (get_ph_line s data s1 O G) as (l & -> & W & O1). rewrite parts_tokens in H. cbn [bind] in H.
  assert (R1 : reads s [l] s1) by (econstructor; [exact G|constructor]).
  assert (OK1 : forall ls s2, reads s1 ls s2 -> Forall line_ok ls).
  { intros ls s2 R. specialize (OK (l :: ls) s2 (reads_cons _ _ _ _ _ G R)). apply Forall_cons_iff in OK. tauto. }
  assert (LO : line_ok l). { specialize (OK _ _ R1). apply Forall_cons_iff in OK. tauto. }
  assert (NEXT : forall id fs0 s2 ls x s', reads s1 ls s2 -> src_ok s2 -> dec_sec f id fs0 s2 = Ok (x, s') -> exists ls', reads s (l :: ls ++ ls') s' /\ src_ok s' /\ held x <= 1 + fields_held fs0 + weight ls').
  { intros id0 fs0 s2 ls x0 s0' R O2 D. apply IH in D as (ls' & R' & O' & B); [|exact O2|].
    - exists ls'. split; [econstructor; [exact G|]; eapply reads_app; eassumption|]. split; assumption.
    - intros ls0 s3 R0. specialize (OK1 _ _ (reads_app _ _ _ _ _ R R0)). apply Forall_app in OK1. tauto. }
  pose proof (line_long l) as LL. destruct (beq (upper (cl_name l)) (bs "BEGIN")).
  - destruct (find_field _ _) as [[i fd]|].
    + destruct (full fd i fs); [discriminate|]. destruct (fd_type fd) as [pid|sid|]; [discriminate| |].
      * destruct (dec_sec f sid (no_fields sid) s1) as [[y s2]| | |] eqn:D; cbn [bind] in H; try discriminate H.
        apply IH in D as (ls & R & O2 & B); [|exact O1|exact OK1]. destruct (NEXT _ _ _ _ _ _ R O2 H) as (ls' & R' & O' & B').
        exists (l :: ls ++ ls'). split; [exact R'|]. split; [exact O'|]. rewrite weight_cons, weight_app. pose proof (add_held (FVSec y) fs i) as A. change (fval_held (FVSec y)) with (held y) in A.
        assert (Z : fields_held (no_fields sid) = 0) by (unfold fields_held, no_fields; clear; induction (fields_of sid); [reflexivity|]; cbn [map]; rewrite total_cons; exact IHl). lia.
      * destruct (gather f None [] s1) as [[[pt ty] s2]| | |] eqn:D; cbn [bind] in H; try discriminate H. destruct ty as [sid|]; [|discriminate].
        destruct (dec_sec f sid (no_fields sid) (SrcList pt)) as [[y s3]| | |] eqn:D2; cbn [bind] in H; try discriminate H.
        apply gather_sound in D as (body & e & R & Wb & -> & _ & _ & _ & O2); [|exact O1]. cbn [app] in D2.
        apply IH in D2 as (ls & R2 & _ & B); [|constructor; exact Wb|].
        -- destruct (NEXT _ _ _ _ _ _ R O2 H) as (ls' & R' & O' & B'). exists (l :: (body ++ [e]) ++ ls'). split; [exact R'|]. split; [exact O'|]. rewrite weight_cons, weight_app.
           destruct (reads_as_list _ _ _ R2) as [more Q]. rewrite Q, weight_app. pose proof (add_held (FVAlarm (Some y)) fs i) as A. change (fval_held (FVAlarm (Some y))) with (held y) in A.
           assert (Z : fields_held (no_fields sid) = 0) by (unfold fields_held, no_fields; clear; induction (fields_of sid); [reflexivity|]; cbn [map]; rewrite total_cons; exact IHl). lia.
        -- intros ls0 s4 R0. destruct (reads_as_list _ _ _ R0) as [more Q]. specialize (OK1 _ _ R). rewrite Q in OK1. apply Forall_app in OK1. tauto.
    + destruct (dec_dummy f _ s1) as [s2| | |] eqn:D; cbn [bind] in H; try discriminate H. apply skip_sound in D as (ds & e & R & _ & _ & _ & _ & O2); [|exact O1].
      destruct (NEXT _ _ _ _ _ _ R O2 H) as (ls' & R' & O' & B'). eexists. split; [exact R'|]. split; [exact O'|]. rewrite weight_cons, weight_app. lia.
  - destruct (find_field _ _) as [[i fd]|].
    + destruct (full fd i fs); [discriminate|]. destruct (fd_type fd) as [pid|sid|]; [|discriminate|discriminate].
      destruct (prop_decode pid _ _) as [p| | |] eqn:D; cbn [bind] in H; try discriminate H. apply prop_fits in D; [|apply wf_named, W|exact LO].
      destruct (NEXT _ _ _ _ _ _ (reads_nil s1) O1 H) as (ls' & R' & O' & B'). eexists. split; [exact R'|]. split; [exact O'|]. cbn [app]. rewrite weight_cons.
      pose proof (add_held (FVProp pid p) fs i) as A. change (fval_held (FVProp pid p)) with (1 + prop_held p) in A. lia.
    + destruct (beq _ (bs "END")).
      * destruct (beq _ _); [|discriminate]. unfold finish in H. destruct (missing _ _); [discriminate|]. destruct (forallb _ _); [|discriminate]. cbn [bind] in H. injection H as <- <-.
        exists [l]. split; [exact R1|]. split; [exact O1|]. change (held (Sec id fs)) with (1 + fields_held fs). lia.
      * destruct (NEXT _ _ _ _ _ _ (reads_nil s1) O1 H) as (ls' & R' & O' & B'). eexists. split; [exact R'|]. split; [exact O'|]. cbn [app]. rewrite weight_cons. lia.
Qed.

Lemma weight_text : forall ls z s s', ready z s -> reads (SrcTok z) ls s' -> weight ls <= k * length s.
Proof.
  induction ls as [|l ls IH]; intros z s s' R H; [cbn; lia|]. inversion H as [|? ? s1 ? ? G H']; subst. cbn [get_ph] in G. pose proof (get_phrase_sound z s R) as P.
  destruct (get_phrase z) as [[[data|] z']| | |]; cbn [bind] in G; try discriminate G. assert (E1 : data = cline_tokens l) by congruence. assert (E2 : s1 = SrcTok z') by congruence. subst s1.
  destruct P as (l' & e & _ & D & L & ->). rewrite E1 in D. apply cline_tokens_inj in D. subst l'. rewrite weight_cons, app_length.
  assert (X : weight ls <= k * length e); [|nia]. destruct L as [r|]; (eapply Nat.le_trans; [eapply IH; [|exact H']; constructor|]); cbn [length]; nia.
Qed.

Lemma decode_fits s cal : (forall ls s', reads (SrcTok (new_tokeniser s)) ls s' -> Forall line_ok ls) -> decode_bytes s = Ok cal -> held cal <= k * length s.
Proof.
  intros OK H. unfold decode_bytes, decode_src in H. destruct (get_ph (SrcTok (new_tokeniser s))) as [[[data|] s1]| | |] eqn:G; cbn [bind] in H; try discriminate H.
  assert (R : ready (new_tokeniser s) s) by constructor. assert (O : src_ok (SrcTok (new_tokeniser s))) by (econstructor; exact R).
  destruct (get_ph_line _ data s1 O G) as (b & -> & W & O1). rewrite parts_tokens in H. cbn [bind] in H. destruct (_ && _); [|discriminate].
  destruct (dec_sec _ _ _ s1) as [[c s2]| | |] eqn:D; cbn [bind] in H; try discriminate H. apply Ok_inj in H. subst c.
  apply dec_fits in D as (ls & R2 & _ & B); [|exact O1|].
  - assert (RR : reads (SrcTok (new_tokeniser s)) (b :: ls) s2) by (econstructor; [exact G|exact R2]). apply (weight_text _ _ s) in RR; [|exact R]. rewrite weight_cons in RR.
    pose proof (line_long b). change (fields_held (no_fields SCalendar)) with 0 in B. lia.
  - intros ls s2' R2. specialize (OK (b :: ls) s2' (reads_cons _ _ _ _ _ G R2)). apply Forall_cons_iff in OK. tauto.
Qed.
End Factor.

(** Twice the text, always *)
Theorem held_twice s cal : decode_bytes s = Ok cal -> held cal <= 2 * length s.
Proof.
  intros H. apply (decode_fits 2 (fun _ => True) (fun _ => True)); [lia|..|exact H].
  - intros v t _ T. apply text_of, reads_grows in T as [T _]. cbn [length] in T. lia.
  - intros v l _ T. apply mtext_grows in T; [|lia]. cbn [texts_held map total fold_right] in T. change (texts_held []) with 0 in T. lia.
  - intros v _. apply code_grows, decode6868_reads.
  - clear. intros ls s' _. apply Forall_forall. intros l _. split; [exact Logic.I|]. apply Forall_forall. intros p _. apply Forall_forall. intros v _. exact Logic.I.
Qed.

(** ** Tame texts *)
Lemma tame_lines : forall ls z s s', ready z s -> tame s -> reads (SrcTok z) ls s' -> Forall (line_ok tame (fun v => ~ In "^"%char v)) ls.
Proof.
  induction ls as [|l ls IH]; intros z s s' R T H; [constructor|]. inversion H as [|? ? s1 ? ? G H']; subst. cbn [get_ph] in G. pose proof (get_phrase_sound z s R) as P.
  destruct (get_phrase z) as [[[data|] z']| | |]; cbn [bind] in G; try discriminate G. assert (E1 : data = cline_tokens l) by congruence. assert (E2 : s1 = SrcTok z') by congruence. subst s1.
  destruct P as (l' & e & _ & D & L & ->). rewrite E1 in D. apply cline_tokens_inj in D. subst l'. pose proof T as [T1 T2]. unfold cline_render in T1, T2. constructor.
  - split.
    + split; [intros I; apply T1; rewrite !in_app_iff; tauto|]. intros a b E. rewrite E in T2.
      destruct (T2 (cl_name l ++ concat (map cparam_render (cl_params l)) ++ bs ":" ++ a) (b ++ e)) as (c & b' & Q & C); [rewrite <- !app_assoc; reflexivity|].
      destruct b as [|c0 b]; [|cbn [app] in Q; injection Q as -> _; eauto]. cbn [app] in Q. destruct L; [|discriminate]. injection Q as <- _. vm_compute in C. destruct C as [C _]. congruence.
    + apply Forall_forall. intros p Ip. apply Forall_forall. intros v Iv. unfold pv_ok. intros I. apply T1. rewrite !in_app_iff. left. right. left.
      apply in_concat. exists (cparam_render p). split; [apply in_map, Ip|]. unfold cparam_render. rewrite !in_app_iff. right. right. right.
      assert (IV : forall v, In "^"%char (pvalue_text v) -> In "^"%char (pvalue_render v)) by (intros [q|q]; cbn [pvalue_text pvalue_render]; rewrite ?in_app_iff; tauto).
      destruct Iv as [<-|Iv]; [left; apply IV, I|]. right. unfold more_render. apply in_concat. eexists. split; [apply in_map, Iv|]. apply in_app_iff. right. apply IV, I.
  - destruct L as [r|]; (eapply IH; [|..|exact H']; [constructor|]).
    + apply (tame_drop (cline_render l ++ CRLF)). rewrite <- app_assoc. exact T.
    + split; [intros []|]. intros a b E. destruct a; discriminate.
Qed.
Theorem held_once s cal : tame s -> decode_bytes s = Ok cal -> held cal <= length s.
Proof.
  intros T H. replace (length s) with (1 * length s) by lia. apply (decode_fits 1 tame (fun v => ~ In "^"%char v)); [lia|..|exact H].
  - intros v t TV E. apply text_of in E. pose proof (reads_tame _ _ _ E TV). cbn [length] in *. lia.
  - intros v l TV E. apply mtext_tame in E; [|lia|exact TV]. change (texts_held []) with 0 in E. lia.
  - intros v N. rewrite decode6868_plain by exact N. lia.
  - intros ls s' R. eapply tame_lines; [constructor|exact T|exact R].
Qed.

(** ** From a reader *)
Lemma part_shorter d s : part d s -> length d <= length s.
Proof. induction 1; cbn [length]; lia. Qed.
Theorem held_read fuel sizes r cal : result fuel sizes r = Ok cal -> held cal <= 2 * length (concat (r_chunks r)).
Proof.
  intros H. apply source_result in H as (d & P & S). apply decode_bytes_exact in S. apply held_twice in S. apply part_shorter in P. lia.
Qed.
Theorem held_decode fuel sizes chunks w cal : Decode fuel sizes chunks w = Ok cal -> held cal <= 2 * length (concat chunks).
Proof.
  intros H. apply source_decode in H as (d & P & S). apply held_twice in S. apply part_shorter in P. lia.
Qed.
End Sizes.
