(** What Encode writes for a value. *)
From Coq Require Import String Ascii ZArith Bool List Lia ZifyBool.
From Verif Require Import Base Lib Utf8 GoStrings Strtok Tokeniser SpecContent GoTime Types SpecText SpecDuration SpecTime SpecRecur SpecLang SpecRule SpecCal SpecValid SpecWrite.
From Verif Require Import Utf8Proofs NumProofs BinaryProofs TextProofs DurationProofs TimeProofs RecurProofs LangProofs LangTimeProofs LangRuleProofs ValidProofs.
Import ListNotations.
Local Open Scope Z_scope.
Ltac dlia := Z.to_euclidean_division_equations; lia.

(** ** Numbers *)
Lemma fmt_uint_short n : 0 <= n -> short_decimal (fmt_uint n) n.
Proof.
  intros H. destruct (fmt_uint_spec n H) as (D & N & V & NZ & Z0). split; [|split].
  - apply decimal_spec. auto.
  - intros NN r E. destruct (NZ NN) as (c & t & E' & C). rewrite E in E'. injection E' as <- _. apply C. reflexivity.
  - intros ->. rewrite Z0; reflexivity.
Qed.
Lemma fmt_int_says z : integer_says z (fmt_int z).
Proof.
  unfold integer_says, fmt_int. destruct (z <? 0) eqn:L.
  - right. split; [lia|]. exists (fmt_uint (- z)). split; [reflexivity|]. apply fmt_uint_short. lia.
  - left. split; [lia|]. apply fmt_uint_short. lia.
Qed.
Lemma fmt_uint_says z : 0 <= z -> unsigned_says z (fmt_uint z).
Proof. intros H. split; [exact H|]. left. split; [exact H|]. apply fmt_uint_short, H. Qed.

(** ** Base 64 *)
Lemma b64_sextet v : 0 <= v < 64 -> sextet (b64_chr v) v.
Proof. intros H. apply sextet_iff, b64_val_chr, H. Qed.
Lemma b64_says l : base64_says l (b64_enc l).
Proof.
  induction l as [|a|a b|a b c l IH] using b64_ind.
  - constructor.
  - cbn [b64_enc]. cbv zeta. pose proof (code_range a).
    apply (W64_one _ _ a (code a * 65536 / 262144) (code a * 65536 / 4096 mod 64)); [apply b64_sextet; dlia|apply b64_sextet; dlia|dlia].
  - cbn [b64_enc]. cbv zeta. pose proof (code_range a). pose proof (code_range b). set (v := code a * 65536 + code b * 256).
    apply (W64_two _ _ _ a b (v / 262144) (v / 4096 mod 64) (v / 64 mod 64)); [apply b64_sextet; unfold v; dlia|apply b64_sextet; dlia|apply b64_sextet; dlia|unfold v; dlia].
  - cbn [b64_enc]. cbv zeta. pose proof (code_range a). pose proof (code_range b). pose proof (code_range c). set (v := code a * 65536 + code b * 256 + code c).
    apply (W64_three _ _ _ _ a b c (v / 262144) (v / 4096 mod 64) (v / 64 mod 64) (v mod 64)); try exact IH; [apply b64_sextet; unfold v; dlia|apply b64_sextet; dlia|apply b64_sextet; dlia|apply b64_sextet; dlia|unfold v; dlia].
Qed.

(** ** Offsets *)
Lemma two_digits_of x : 0 <= x < 100 -> digits_of 2 (two_digits x) x.
Proof.
  intros H. split; [|reflexivity]. apply decimal_spec. split; [discriminate|]. split; [|apply two_val, H].
  unfold two_digits. cbn [forallb]. rewrite !digit_chr_digit by dlia. reflexivity.
Qed.
Lemma offset_written u : -360000 < u < 360000 -> offset_says u (concat (utcoffset_encode u)).
Proof.
  intros H. rewrite utcoffset_encode_text by exact H. unfold NumProofs.offset_text.
  exists (if u <? 0 then bs "-" else []), (two_digits (Z.abs u / 3600)), (Z.abs u / 3600), (two_digits (Z.abs u / 60 mod 60)), (Z.abs u / 60 mod 60).
  exists (if 0 <? Z.abs u mod 60 then two_digits (Z.abs u mod 60) else []), (Z.abs u mod 60).
  split; [reflexivity|]. split; [apply two_digits_of; dlia|]. split; [apply two_digits_of; dlia|]. split; [dlia|]. split; [dlia|]. split; [dlia|].
  split; [dlia|]. split.
  - destruct (0 <? Z.abs u mod 60) eqn:E; [right|left]; (split; [dlia|]); [apply two_digits_of; dlia|reflexivity].
  - destruct (u <? 0) eqn:E; [left|right]; (split; [lia|reflexivity]).
Qed.

(** ** Texts *)
Lemma plain_text a : forall t s, Forall (fun c => ~ In c [LF; "\"; ","; ";"]%char) a -> text_says t s -> text_says (a ++ t) (a ++ s).
Proof. induction a as [|c a IH]; intros t s F T; [exact T|]. inversion F; subst. cbn [app]. apply WT_plain; auto. Qed.
Lemma rune_plain r : valid_rune r = true -> r <> 92 -> r <> 10 -> r <> 59 -> r <> 44 -> Forall (fun c => ~ In c [LF; "\"; ","; ";"]%char) (encode_rune r).
Proof.
  intros V N1 N2 N3 N4. destruct (Z.lt_ge_cases r 128) as [L|G].
  - assert (0 <= r) by (unfold valid_rune, Utf8.in_range in V; lia). rewrite encode_rune_low by lia. constructor; [|constructor].
    intros I. assert (C : code (chr r) = r) by (apply code_chr; lia).
    destruct I as [E|[E|[E|[E|[]]]]]; rewrite <- E in C; cbn in C; lia.
  - pose proof (encode_rune_high r ltac:(lia)) as F. eapply Forall_impl; [|exact F]. cbv beta. intros c H I.
    destruct I as [<-|[<-|[<-|[<-|[]]]]]; cbn in H; lia.
Qed.
Lemma text_written x : utf8 x -> text_says x (text_bytes x).
Proof.
  intros U. destruct (utf8_runes x U) as [E V]. rewrite <- E at 1. unfold text_bytes. clear E U.
  revert V. generalize (runes x) as l. induction 1 as [|r rs V _ IH]; [constructor|]. cbn [map concat].
  unfold text_rune at 1.
  destruct (r =? 92) eqn:E1; [apply Z.eqb_eq in E1; subst; apply WT_mark; [left; reflexivity|exact IH]|].
  destruct (r =? 10) eqn:E2; [apply Z.eqb_eq in E2; subst; apply WT_line; exact IH|].
  destruct (r =? 59) eqn:E3; [apply Z.eqb_eq in E3; subst; apply WT_mark; [right; right; left; reflexivity|exact IH]|].
  destruct (r =? 44) eqn:E4; [apply Z.eqb_eq in E4; subst; apply WT_mark; [right; left; reflexivity|exact IH]|].
  apply plain_text; [|exact IH]. apply rune_plain; auto; lia.
Qed.
Lemma texts_written l : Forall utf8 l -> texts_say l (concat (mtext_encode l)).
Proof.
  intros F. unfold mtext_encode. rewrite comma_writes_concat. destruct l as [|x l]; [constructor|]. inversion F; subst. cbn [commas].
  unfold text_encode at 1. cbn [concat]. rewrite app_nil_r. revert x H1 F. induction H2 as [|y l U F' IH]; intros x Ux F.
  - cbn [map concat]. rewrite app_nil_r. apply WTs_last, text_written, Ux.
  - cbn [map concat]. rewrite <- app_comm_cons. apply WTs_more; [discriminate|apply text_written, Ux|].
    unfold text_encode at 1. cbn [concat]. rewrite app_nil_r. apply IH; auto.
Qed.

(** ** Durations *)
Lemma itoa_short n : 0 <= n < 2 ^ 64 -> short_decimal (itoa n) n.
Proof.
  intros H. split; [apply itoa_decimal, H|]. unfold itoa. destruct (n =? 0) eqn:N.
  - split; [lia|reflexivity].
  - split; [|lia]. intros _ r.
    assert (B : 0 <= n < 10 ^ Z.of_nat 20) by (change (10 ^ Z.of_nat 20) with 100000000000000000000; lia).
    destruct (itoa_loop_spec 20 n [] B) as (ds & E0 & _ & _ & L & _). rewrite E0, app_nil_r. destruct (L ltac:(lia)) as (c & t & -> & C).
    intros Q. injection Q as -> _. apply C. reflexivity.
Qed.
Lemma amount_yes (P : Prop) n l : P -> 0 <= n < 2 ^ 64 -> amount P n l (itoa n ++ l).
Proof. intros H R. left. split; [exact H|]. exists (itoa n). split; [apply itoa_short, R|reflexivity]. Qed.
Lemma amount_no (P : Prop) n l : ~ P -> amount P n l [].
Proof. intros H. right. auto. Qed.
Lemma duration_written d : dur_fits d -> duration_says d (concat (duration_encode d)).
Proof.
  destruct d as [neg w dd h m s]. unfold dur_fits, duration_says, duration_encode, clock_part. cbn [d_neg d_weeks d_days d_hours d_minutes d_seconds concat].
  intros (W & D & H & M & S'). rewrite app_nil_r. cbv zeta.
  eexists. eexists. split; [reflexivity|]. split; [destruct neg; [left|right]; split; reflexivity|].
  destruct (w =? 0) eqn:EW; cbn [negb]; [|left; split; [lia|exists (itoa w); split; [apply itoa_short, W|reflexivity]]].
  right. split; [lia|]. eexists. eexists. split; [reflexivity|]. split.
  - destruct (dd =? 0) eqn:ED; cbn [negb]; [apply amount_no; lia|apply amount_yes; [lia|exact D]].
  - destruct (h =? 0) eqn:EH, (m =? 0) eqn:EM, (s =? 0) eqn:ES; cbn [negb orb]; rewrite ?orb_true_r, ?orb_false_r.
    1: { destruct (dd =? 0) eqn:ED; [right; split; [lia|]|left; repeat split; lia].
      exists [], [], (itoa s ++ bs "S"). split; [reflexivity|]. split; [apply amount_no; lia|]. split; [apply amount_no; lia|apply amount_yes; [lia|assumption]]. }
    all: right; split; [lia|].
    + exists [], [], (itoa s ++ bs "S"). split; [reflexivity|]. split; [apply amount_no; lia|]. split; [apply amount_no; lia|apply amount_yes; [lia|assumption]].
    + exists [], (itoa m ++ bs "M"), []. split; [rewrite <- ?app_assoc; reflexivity|]. split; [apply amount_no; lia|]. split; [apply amount_yes; [lia|assumption]|apply amount_no; lia].
    + exists [], (itoa m ++ bs "M"), (itoa s ++ bs "S"). split; [rewrite <- ?app_assoc; reflexivity|]. split; [apply amount_no; lia|]. split; apply amount_yes; try assumption; lia.
    + exists (itoa h ++ bs "H"), [], []. split; [rewrite <- ?app_assoc; reflexivity|]. split; [apply amount_yes; [lia|assumption]|]. split; apply amount_no; lia.
    + exists (itoa h ++ bs "H"), (itoa m ++ bs "M"), (itoa s ++ bs "S"). split; [rewrite <- ?app_assoc; reflexivity|]. split; [|split]; apply amount_yes; try assumption; lia.
    + exists (itoa h ++ bs "H"), (itoa m ++ bs "M"), []. split; [rewrite <- ?app_assoc; reflexivity|]. split; [|split]; [apply amount_yes; try assumption; lia|apply amount_yes; try assumption; lia|apply amount_no; lia].
    + exists (itoa h ++ bs "H"), (itoa m ++ bs "M"), (itoa s ++ bs "S"). split; [rewrite <- ?app_assoc; reflexivity|]. split; [|split]; apply amount_yes; try assumption; lia.
Qed.

Section Write.
Context {env : Env}.

(** ** Dates and clocks *)
Lemma shown_always t : exists y mo d h mi x, shown t y mo d h mi x /\ shows (wall t) y mo d h mi x /\ 1 <= mo <= 12 /\ 1 <= d <= days_in mo y /\
  (in_years t -> 0 <= y < 10000).
Proof.
  destruct (civil_from_days (wall t / 86400)) as [[y m] d] eqn:E.
  pose proof (civil_inverse (wall t / 86400)) as C. rewrite E in C. destruct C as (M & D & V).
  exists y, m, d, (wall t mod 86400 / 3600), (wall t mod 86400 / 60 mod 60), (wall t mod 86400 mod 60).
  split; [|split; [|split; [|split]]]; auto.
  - unfold shown. split; [apply real_date_spec; auto|]. split; [dlia|]. split; [dlia|]. split; [dlia|].
    rewrite <- day_number_spec by exact M. rewrite V. fold (wall t). dlia.
  - unfold shows. auto.
  - intros Y. apply (year_range _ _ _ _ E). unfold in_years in Y. dlia.
Qed.
Lemma date_digits y m d : 0 <= y < 10000 -> 1 <= m <= 12 -> 1 <= d <= days_in m y -> date_text (ymd_text y m d) y m d.
Proof.
  intros Y M D. pose proof (days_in_le m y). exists (two_digits (y / 100) ++ two_digits (y mod 100)), (two_digits m), (two_digits d).
  split; [unfold ymd_text; rewrite <- !app_assoc; reflexivity|]. split; [reflexivity|]. split; [reflexivity|]. split; [reflexivity|].
  split; [|split; apply two_digits_of; lia].
  apply decimal_spec. split; [discriminate|]. unfold two_digits. cbn [app forallb digits_val]. rewrite !digit_chr_digit by dlia. split; [reflexivity|].
  rewrite !digit_chr_code by dlia. dlia.
Qed.
Lemma clock_written h mi x : 0 <= h <= 23 -> 0 <= mi <= 59 -> 0 <= x <= 59 -> clock_digits (hms_text h mi x) h mi x.
Proof. intros H M X. exists (two_digits h), (two_digits mi), (two_digits x). split; [reflexivity|]. split; [|split]; apply two_digits_of; lia. Qed.
Lemma date_written t : in_years t -> date_says t (concat (date_encode t)).
Proof.
  intros Y. destruct (shown_always t) as (y & mo & d & h & mi & x & S1 & S2 & M & D & YR). specialize (YR Y).
  exists y, mo, d, h, mi, x. split; [exact S1|]. unfold date_encode. cbn [concat]. rewrite app_nil_r.
  rewrite (format_date_text t y mo d h mi x S2 YR M D). apply date_digits; auto.
Qed.
Lemma utc_dec t : utc_mark t (match t_loc t with LUTC => bs "Z" | _ => [] end).
Proof. unfold utc_mark. destruct (t_loc t); [left|right|right]; (split; [|reflexivity]); [reflexivity|discriminate|discriminate]. Qed.
Lemma datetime_written t : in_years t -> datetime_says t (concat (datetime_encode t)).
Proof.
  intros Y. destruct (shown_always t) as (y & mo & d & h & mi & x & S1 & S2 & M & D & YR). specialize (YR Y).
  destruct S1 as (R & H & MI & X & W) eqn:Q. clear Q.
  exists y, mo, d, h, mi, x, (ymd_text y mo d), (hms_text h mi x), (match t_loc t with LUTC => bs "Z" | _ => [] end).
  split; [exact S1|]. split.
  - unfold datetime_encode, format_datetime. cbn [concat]. rewrite app_nil_r.
    rewrite (format_date_text t y mo d h mi x S2 YR M D), (format_clock_text t y mo d h mi x S2) by lia.
    destruct (t_loc t); rewrite <- ?app_assoc, ?app_nil_r; reflexivity.
  - split; [apply date_digits; auto|]. split; [apply clock_written; auto|apply utc_dec].
Qed.
Lemma time_written t : time_says t (concat (clock_encode t)).
Proof.
  destruct (shown_always t) as (y & mo & d & h & mi & x & S1 & S2 & M & D & _).
  destruct S1 as (R & H & MI & X & W) eqn:Q. clear Q.
  exists y, mo, d, h, mi, x, (hms_text h mi x), (match t_loc t with LUTC => bs "Z" | _ => [] end).
  split; [exact S1|]. split; [|split; [apply clock_written; auto|apply utc_dec]].
  unfold clock_encode. cbn [concat]. rewrite (format_clock_text t y mo d h mi x S2) by lia. rewrite app_nil_r. destruct (t_loc t); rewrite ?app_nil_r; reflexivity.
Qed.
Lemma year_one_dec t : (is_zero t = true /\ year_one t) \/ (is_zero t = false /\ ~ year_one t).
Proof. unfold is_zero, year_one, zero_sec. destruct ((t_sec t =? -62135596800) && (t_nsec t =? 0)) eqn:Q; [left|right]; (split; [reflexivity|lia]). Qed.
Lemma period_written p : in_years (p_start p) -> (year_one (p_end p) -> dur_fits (p_dur p)) -> (~ year_one (p_end p) -> in_years (p_end p)) ->
  period_says p (concat (period_encode p)).
Proof.
  intros S0 D N. unfold period_encode. rewrite !concat_app. change (concat [bs "/"]) with (bs "/").
  eexists. eexists. split; [reflexivity|]. split; [apply datetime_written, S0|].
  destruct (year_one_dec (p_end p)) as [[-> Y]|[-> Y]]; [left|right]; (split; [exact Y|]); [apply duration_written; auto|apply datetime_written; auto].
Qed.

(** ** Rules *)
Lemma commas_listed {A} (f : A -> list bytes) (P : A -> bytes -> Prop) l : l <> [] -> Forall (fun a => P a (concat (f a)) /\ ~ In ","%char (concat (f a))) l ->
  listed ","%char (fun w a => P a w) (commas f l) l.
Proof.
  intros N F. destruct l as [|a l]; [contradiction|]. clear N. inversion F as [|? ? [Pa Na] F']; subst. clear F. cbn [commas].
  revert a Pa Na. induction F' as [|b l [Pb Nb] F' IH]; intros a Pa Na.
  - cbn [map concat]. rewrite app_nil_r. apply L_one; assumption.
  - cbn [map concat]. rewrite <- app_comm_cons. apply L_more; [assumption|assumption|]. apply IH; assumption.
Qed.
Lemma semis_listed (P : bytes -> rpart -> Prop) w p : forall ws ps, P w p -> ~ In ";"%char w -> Forall2 (fun w p => P w p /\ ~ In ";"%char w) ws ps ->
  listed ";"%char P (w ++ semis ws) (p :: ps).
Proof.
  intros ws ps Pw Nw F. revert w p Pw Nw. induction F as [|v q ws ps [Pv Nv] F IH]; intros w p Pw Nw.
  - unfold semis. cbn [map concat]. rewrite app_nil_r. apply L_one; assumption.
  - unfold semis. cbn [map concat]. fold (semis ws). rewrite <- app_comm_cons. apply L_more; [assumption|assumption|]. apply IH; assumption.
Qed.

(** Of UNTIL only that it is written. *)
Definition part_wrote (p : rpart) (v : bytes) : Prop :=
  match p with
  | RUntil b t => v = concat (if b then datetime_encode t else date_encode t)
  | _ => part_says p v
  end.
Definition says (w : bytes) (p : rpart) : Prop := exists v, w = rname p ++ bs "=" ++ v /\ part_wrote p v.
(** A part that is there if it is set. *)
Lemma opt_set (b : bool) (unset : Prop) k v p : (b = true <-> ~ unset) -> (b = false -> unset) -> k = rname p -> (b = true -> part_wrote p v /\ ~ In ";"%char v) ->
  exists ps, if_set unset p ps /\ Forall2 (fun w p => says w p /\ ~ In ";"%char w) (opt b k v) ps.
Proof.
  intros B NB -> H. unfold opt. destruct b.
  - destruct (H eq_refl) as [P N]. exists [p]. split; [constructor; apply B; reflexivity|]. constructor; [|constructor]. split.
    + exists v. split; [reflexivity|exact P].
    + unfold RecurProofs.rule_text. intros I. apply in_app_or in I as [I|I].
      * destruct p; cbn in I; repeat (destruct I as [I|I]; [discriminate|]); exact I.
      * apply in_app_or in I as [I|I]; [destruct I as [I|[]]; discriminate|exact (N I)].
  - exists []. split; [constructor; apply NB; reflexivity|constructor].
Qed.
Lemma numchar_semi s : forallb numchar s = true -> ~ In ";"%char s.
Proof. intros F I. rewrite forallb_forall in F. destruct (numchar_ok _ (F _ I)) as (_ & N & _). apply N. reflexivity. Qed.
Definition nchar (c : byte) : bool := numchar c || beqc c ",".
Lemma nchar_semi s : forallb nchar s = true -> ~ In ";"%char s.
Proof. intros F I. rewrite forallb_forall in F. specialize (F _ I). discriminate F. Qed.
Lemma commas_semi {A} (f : A -> list bytes) l : Forall (fun a => forallb numchar (concat (f a)) = true) l -> ~ In ";"%char (commas f l).
Proof.
  intros F. apply nchar_semi. apply commas_chars; [reflexivity|]. eapply Forall_impl; [|exact F]. intros a H. eapply forallb_impl; [|exact H].
  intros c C. unfold nchar. rewrite C. reflexivity.
Qed.
Lemma nil_set {A} (l : list A) : (negb (isnil l) = true <-> l <> []) /\ (negb (isnil l) = false -> l = []).
Proof. destruct l; cbn; split; [split; congruence|reflexivity|split; congruence|discriminate]. Qed.
Lemma zero_set z : (negb (z =? 0) = true <-> z <> 0) /\ (negb (z =? 0) = false -> z = 0).
Proof. lia. Qed.
Lemma list_set {A} (f : A -> list bytes) (P : A -> bytes -> Prop) l p k : k = rname p ->
  (forall v, listed ","%char (fun w a => P a w) v l -> part_wrote p v) ->
  Forall (fun a => P a (concat (f a)) /\ forallb numchar (concat (f a)) = true) l ->
  exists ps, if_set (l = []) p ps /\ Forall2 (fun w p => says w p /\ ~ In ";"%char w) (opt (negb (isnil l)) k (commas f l)) ps.
Proof.
  intros K H F. destruct (nil_set l) as [B NB]. apply opt_set; auto. intros T. apply B in T. split.
  - apply H, commas_listed; [exact T|]. eapply Forall_impl; [|exact F]. cbv beta. intros a [Q1 Q2]. split; [exact Q1|]. apply numchar_comma, Q2.
  - apply commas_semi. eapply Forall_impl; [|exact F]. cbv beta. tauto.
Qed.
Lemma fu_all l : within 0 255 l -> Forall (fun a => unsigned_says a (concat (fu a)) /\ forallb numchar (concat (fu a)) = true) l.
Proof.
  intros F. eapply Forall_impl; [|exact F]. cbv beta. intros z R. unfold fu. cbn [concat]. rewrite app_nil_r.
  split; [apply fmt_uint_says; lia|apply fmt_uint_chars; lia].
Qed.
Lemma fi_all l : Forall (fun a => integer_says a (concat (fi a)) /\ forallb numchar (concat (fi a)) = true) l.
Proof.
  apply Forall_forall. intros z _. unfold fi. cbn [concat]. rewrite app_nil_r. split; [apply fmt_int_says|apply fmt_int_chars].
Qed.
Lemma day_word d : 1 <= d <= 7 -> In (word_of_day d, d) weekdays /\ forallb numchar (word_of_day d) = true.
Proof. intros R. destruct (wkst_sweep d R) as [A B]. split; [apply weekday_iff, A|exact B]. Qed.
Lemma fd_all l : Forall (fun d => 1 <= dr_day d <= 7) l -> Forall (fun a => day_says a (concat (fd a)) /\ forallb numchar (concat (fd a)) = true) l.
Proof.
  intros F. eapply Forall_impl; [|exact F]. cbv beta. intros d R. destruct (day_word _ R) as [W C]. unfold fd, day_writes, in_range.
  replace ((1 <=? dr_day d) && (dr_day d <=? 7)) with true by lia. rewrite concat_app. cbn [concat]. rewrite app_nil_r. split.
  - eexists. eexists. split; [reflexivity|]. split; [exact W|]. destruct (dr_occ d =? 0) eqn:O; [left|right]; (split; [lia|]); [reflexivity|].
    cbn [concat]. rewrite app_nil_r. apply fmt_int_says.
  - rewrite forallb_app, C. destruct (dr_occ d =? 0); [reflexivity|]. cbn [concat]. rewrite app_nil_r, fmt_int_chars. reflexivity.
Qed.
Lemma freq_in f : 0 <= f <= 6 -> In (nth (Z.to_nat f) freq_words [], f) frequencies /\ forallb numchar (nth (Z.to_nat f) freq_words []) = true.
Proof.
  intros R. destruct (freq_sweep f R) as [A B]. split; [|exact B]. apply freq_iff. exists (Z.to_nat f). split; [exact A|lia].
Qed.
Lemma digits_semi ds n : decimal ds n -> ~ In ";"%char ds.
Proof. intros (_ & F & _) I. rewrite Forall_forall in F. specialize (F _ I). cbn in F. lia. Qed.
Lemma format_date_semi t : ~ In ";"%char (format_date t).
Proof.
  unfold format_date. destruct (civil_from_days (wall t / 86400)) as [[y m] d].
  assert (U : forall w n, 0 <= n -> ~ In ";"%char (pad_uint w n)).
  { intros w n H I. unfold pad_uint in I. apply in_app_or in I as [I|I]; [apply repeat_spec in I; discriminate|]. exact (numchar_semi _ (fmt_uint_chars n H) I). }
  assert (P : forall w n, ~ In ";"%char (pad_int w n)).
  { intros w n. unfold pad_int. destruct (n <? 0) eqn:L; [intros [I|I]; [discriminate|revert I; apply U; lia]|apply U; lia]. }
  rewrite !in_app_iff. intros [I|[I|I]]; exact (P _ _ I).
Qed.
Lemma until_semi (b : bool) t : ~ In ";"%char (concat (if b then datetime_encode t else date_encode t)).
Proof.
  destruct b.
  - destruct (time_written t) as (y & mo & d & h & mi & x & c & m & _ & E & (hh & mm & ss & -> & (A & _) & (B & _) & (C & _)) & U).
    assert (Q : concat (datetime_encode t) = format_date t ++ bs "T" ++ concat (clock_encode t)).
    { unfold datetime_encode, clock_encode, format_datetime. cbn [concat]. rewrite !app_nil_r. destruct (t_loc t); rewrite <- ?app_assoc; reflexivity. }
    rewrite Q, E, !in_app_iff. intros [I|[[I|[]]|[[I|[I|I]]|I]]]; [exact (format_date_semi t I)|discriminate|exact (digits_semi _ _ A I)|exact (digits_semi _ _ B I)|exact (digits_semi _ _ C I)|].
    destruct U as [[_ ->]|[_ ->]]; [destruct I as [I|[]]; discriminate|destruct I].
  - unfold date_encode. cbn [concat]. rewrite app_nil_r. apply format_date_semi.
Qed.
Lemma recur_wrote r : recur_ok r -> recur_typed r -> exists ps, rule_parts r ps /\ listed ";"%char says (concat (recur_encode r)) ps.
Proof.
  intros (F & WK & _ & _ & _ & DA & _) (_ & _ & CO & IV & SE & MI & HO & _ & _ & _ & _ & MO & _).
  rewrite recur_encode_plain by lia.
  assert (BOUND : exists b, (if_set (r_count r = 0) (RCount (r_count r)) b /\ r_count r <> 0 \/
     if_set (year_one (r_until r)) (RUntil (r_untiltime r) (r_until r)) b /\ r_count r = 0) /\
     Forall2 (fun w p => says w p /\ ~ In ";"%char w) (if negb (r_count r =? 0) then opt true (bs "COUNT") (fmt_uint (r_count r))
       else opt (negb (is_zero (r_until r))) (bs "UNTIL") (until_text r)) b).
  { destruct (r_count r =? 0) eqn:C; cbn [negb].
    - destruct (opt_set (negb (is_zero (r_until r))) (year_one (r_until r)) (bs "UNTIL") (until_text r) (RUntil (r_untiltime r) (r_until r))) as (ps & A & B).
      + destruct (year_one_dec (r_until r)) as [[-> Z]|[-> Z]]; cbn; split; [discriminate|intros X; contradiction|intros _; exact Z|reflexivity].
      + destruct (year_one_dec (r_until r)) as [[-> Z]|[-> Z]]; cbn; [intros _; exact Z|discriminate].
      + reflexivity.
      + intros _. split; [reflexivity|apply until_semi].
      + exists ps. split; [right; split; [exact A|lia]|exact B].
    - destruct (opt_set true (r_count r = 0) (bs "COUNT") (fmt_uint (r_count r)) (RCount (r_count r))) as (ps & A & B).
      + split; [lia|reflexivity].
      + discriminate.
      + reflexivity.
      + intros _. split; [apply fmt_uint_says; lia|apply numchar_semi, fmt_uint_chars; lia].
      + exists ps. split; [left; split; [exact A|lia]|exact B]. }
  destruct BOUND as (b & B1 & B2).
  destruct (opt_set (negb (r_interval r =? 0)) (r_interval r = 0) (bs "INTERVAL") (fmt_uint (r_interval r)) (RInterval (r_interval r))) as (iv & I1 & I2);
    [apply zero_set|apply zero_set|reflexivity|intros _; split; [apply fmt_uint_says; lia|apply numchar_semi, fmt_uint_chars; lia]|].
  destruct (list_set fu unsigned_says (r_bysecond r) (RBySecond (r_bysecond r)) (bs "BYSECOND") eq_refl (fun v H => H) (fu_all _ SE)) as (l1 & L1 & M1).
  destruct (list_set fu unsigned_says (r_byminute r) (RByMinute (r_byminute r)) (bs "BYMINUTE") eq_refl (fun v H => H) (fu_all _ MI)) as (l2 & L2 & M2).
  destruct (list_set fu unsigned_says (r_byhour r) (RByHour (r_byhour r)) (bs "BYHOUR") eq_refl (fun v H => H) (fu_all _ HO)) as (l3 & L3 & M3).
  destruct (list_set fd day_says (r_byday r) (RByDay (r_byday r)) (bs "BYDAY") eq_refl (fun v H => H) (fd_all _ DA)) as (l4 & L4 & M4).
  destruct (list_set fi integer_says (r_bymonthday r) (RByMonthDay (r_bymonthday r)) (bs "BYMONTHDAY") eq_refl (fun v H => H) (fi_all _)) as (l5 & L5 & M5).
  destruct (list_set fi integer_says (r_byyearday r) (RByYearDay (r_byyearday r)) (bs "BYYEARDAY") eq_refl (fun v H => H) (fi_all _)) as (l6 & L6 & M6).
  destruct (list_set fi integer_says (r_byweekno r) (RByWeekNo (r_byweekno r)) (bs "BYWEEKNO") eq_refl (fun v H => H) (fi_all _)) as (l7 & L7 & M7).
  destruct (list_set fu unsigned_says (r_bymonth r) (RByMonth (r_bymonth r)) (bs "BYMONTH") eq_refl (fun v H => H) (fu_all _ MO)) as (l8 & L8 & M8).
  destruct (list_set fi integer_says (r_bysetpos r) (RBySetPos (r_bysetpos r)) (bs "BYSETPOS") eq_refl (fun v H => H) (fi_all _)) as (l9 & L9 & M9).
  destruct (opt_set (negb (r_wkst r =? 0)) (r_wkst r = 0) (bs "WKST") (word_of_day (r_wkst r)) (RWkst (r_wkst r))) as (wk & W1 & W2);
    [apply zero_set|apply zero_set|reflexivity| |].
  { intros T. destruct (day_word (r_wkst r)) as [Q1 Q2]; [lia|]. split; [exact Q1|apply numchar_semi, Q2]. }
  exists (RFreq (r_freq r) :: b ++ iv ++ l1 ++ l2 ++ l3 ++ l4 ++ l5 ++ l6 ++ l7 ++ l8 ++ l9 ++ wk). split; [constructor; assumption|].
  destruct (freq_in (r_freq r) F) as [F1 F2].
  apply (semis_listed says).
  - exists (freq_word r). split; [reflexivity|exact F1].
  - unfold RecurProofs.rule_text. intros I. apply in_app_or in I as [I|I]; [cbn in I; repeat (destruct I as [I|I]; [discriminate|]); exact I|].
    apply in_app_or in I as [I|I]; [destruct I as [I|[]]; discriminate|]. exact (numchar_semi _ F2 I).
  - unfold more_rules. repeat apply Forall2_app; assumption.
Qed.

Lemma rule_until r ps b t : rule_parts r ps -> In (RUntil b t) ps -> b = r_untiltime r /\ t = r_until r /\ r_count r = 0 /\ ~ year_one (r_until r).
Proof.
  assert (S0 : forall (P : Prop) (p q : rpart) l, if_set P p l -> In q l -> q = p /\ ~ P).
  { intros P p q l [U|U] I; [destruct I|]. destruct I as [<-|[]]. auto. }
  intros [bd iv l1 l2 l3 l4 l5 l6 l7 l8 l9 wk B H1 H2 H3 H4 H5 H6 H7 H8 H9 H10 H11] I. cbn [In] in I. destruct I as [I|I]; [discriminate|].
  rewrite !in_app_iff in I. destruct I as [I|I].
  - destruct B as [[B N]|[B N]]; destruct (S0 _ _ _ _ B I) as [Q U]; [discriminate|]. injection Q as -> ->. auto.
  - repeat (destruct I as [I|I]; [match goal with H : if_set _ _ ?l, H' : In _ ?l |- _ => destruct (S0 _ _ _ _ H H') as [Q _]; discriminate end|]).
    destruct (S0 _ _ _ _ H11 I) as [Q _]. discriminate.
Qed.
Lemma listed_impl {A} sep (P Q : bytes -> A -> Prop) s l : (forall w a, In a l -> P w a -> Q w a) -> listed sep P s l -> listed sep Q s l.
Proof.
  intros F L. induction L as [w a X N|w a s l X N L IH]; [apply L_one|apply L_more]; auto; [apply F; [left; reflexivity|exact X]|apply F; [left; reflexivity|exact X]|].
  apply IH. intros w' a' I. apply F. right. exact I.
Qed.
Lemma recur_written r : recur_ok r -> recur_typed r -> (r_count r = 0 -> ~ year_one (r_until r) -> in_years (r_until r)) -> recur_says r (concat (recur_encode r)).
Proof.
  intros O T Y. destruct (recur_wrote r O T) as (ps & P & L). exists ps. split; [exact P|]. revert L. apply listed_impl. intros w p I (v & -> & V). exists v. split; [reflexivity|].
  destruct p as [f|b t| | | | | | | | | | | | ]; try exact V. cbn [part_wrote part_says] in *. destruct (rule_until r ps b t P I) as (-> & -> & C & N). specialize (Y C N). rewrite V.
  destruct (r_untiltime r); [apply datetime_written, Y|apply date_written, Y].
Qed.

(** ** All values *)
Lemma float_written f : ~ finite f -> float_says f (format_float f).
Proof. unfold float_says. destruct f as [|[]|x]; intros N; [left|right; right|right; left|]; auto. exfalso. apply N. exact Logic.I. Qed.
Theorem value_written v : value_ok v -> value_writable v -> value_says v (concat (value_encode v)).
Proof.
  destruct v as [b|b|u|t|t|d|f|[fa fb]|z|p|r|t|l|t|u|z]; cbn [value_ok value_writable value_says value_encode]; intros V W.
  - unfold binary_encode. rewrite binary_writes_concat by lia. apply b64_says.
  - destruct b; [left|right]; split; reflexivity.
  - unfold url_encode. cbn [concat]. apply app_nil_r.
  - apply date_written, W.
  - apply datetime_written, W.
  - apply duration_written, W.
  - unfold float_encode. cbn [concat]. rewrite app_nil_r. apply float_written, V.
  - exists (format_float fa), (format_float fb). split; [|split; apply float_written; tauto]. unfold tfloat_encode. cbn [concat fst snd]. rewrite app_nil_r. reflexivity.
  - unfold integer_encode. cbn [concat]. rewrite app_nil_r. apply fmt_int_says.
  - destruct W as (A & B & C). apply period_written; assumption.
  - destruct W as (A & B). apply recur_written; assumption.
  - unfold text_encode. cbn [concat]. rewrite app_nil_r. apply text_written, W.
  - apply texts_written, W.
  - apply time_written.
  - unfold url_encode. cbn [concat]. apply app_nil_r.
  - apply offset_written, W.
Qed.
End Write.
