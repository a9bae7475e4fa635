(** For which values a text of RFC 5545 is written. *)
From Coq Require Import String Ascii ZArith Bool List Lia ZifyBool.
From Verif Require Import Base Lib Utf8 GoStrings Strtok Tokeniser SpecContent GoTime Types SpecText SpecDuration SpecTime SpecRecur SpecLang SpecRule SpecCal SpecValid SpecWrite.
From Verif Require Import Utf8Proofs NumProofs BinaryProofs TextProofs DurationProofs TimeProofs RecurProofs LangTimeProofs LangRuleProofs ValidProofs WriteProofs WriteOneProofs.
Import ListNotations.
Local Open Scope Z_scope.

(** ** Numbers *)
Lemma integer_signed z s : integer_says z s -> signed_text s z.
Proof.
  intros [[_ (D & _)]|[_ (ds & -> & D & _)]]; [exists s, z; auto|]. exists ds, (- z). split; [exact D|]. right. right. split; [reflexivity|lia].
Qed.
Lemma base64_rfc l s : base64_says l s -> base64 s l.
Proof.
  induction 1 as [|a b x va vb A B E|a b c x y va vb vc A B C E|a b c d x y z va vb vc vd s out A B C D E S IH].
  - constructor.
  - apply (B64_one a b x va vb 0); auto; lia.
  - apply (B64_two a b c x y va vb vc 0); auto; lia.
  - apply (B64_three a b c d x y z va vb vc vd); auto.
Qed.

(** ** Floats *)
Lemma float_head s : float_rfc s -> exists sign c r, s = sign ++ c :: r /\ In sign [[]; bs "+"; bs "-"] /\ 48 <= code c <= 57.
Proof.
  intros (sign & a & f & -> & G & (n & N & D & _) & _). destruct a as [|c a]; [contradiction|]. inversion D; subst.
  exists sign, c, (a ++ f). auto.
Qed.
Lemma float_no_head s r r' {env : Env} f : float_rfc s -> ~ finite f -> s ++ r <> format_float f ++ r'.
Proof.
  intros F N Q. destruct (float_head s F) as (sign & c & t & -> & G & C).
  destruct f as [|[]|x]; [| | |exact (N Logic.I)]; cbn in G; destruct G as [<-|[<-|[<-|[]]]]; cbn in Q; injection Q as; subst; cbn in C; try lia; discriminate.
Qed.

(** ** Offsets *)
Lemma offset_rfc_iff u : utcoffset_rfc (concat (utcoffset_encode u)) u <-> -86400 < u < 0.
Proof.
  split.
  - intros (ds & n & (hh & h & mm & m & DH & DM & H & M & T) & Q).
    assert (N : 0 <= n <= 86400) by (destruct T as [[_ ->]|(ss & x & _ & _ & X & ->)]; lia).
    assert (U : -86400 <= u <= 86400) by lia.
    destruct (offset_written u ltac:(lia)) as (sg & hh' & h' & mm' & m' & tl & x & E & DH' & DM' & H' & M' & X & A & TL & G). rewrite E in Q.
    assert (L2 : forall w v, digits_of 2 w v -> exists a b, w = [a; b] /\ 48 <= code a <= 57).
    { intros w v [(_ & F & _) L]. destruct w as [|a [|b [|]]]; try discriminate L. inversion F; subst. exists a, b. auto. }
    destruct (L2 _ _ DH) as (a1 & a2 & -> & D1). destruct (L2 _ _ DH') as (b1 & b2 & -> & D2).
    assert (exists r, ds = a1 :: a2 :: r) as (r & ->) by (destruct T as [[-> _]|(ss & x' & -> & _)]; eexists; reflexivity).
    destruct G as [[G ->]|[G ->]].
    + split; [|lia]. destruct (Z.eq_dec u (-86400)) as [->|]; [exfalso|lia]. assert (h' = 24) by lia. subst h'.
      destruct Q as [[Q _]|[Q _]]; [discriminate|]. injection Q as Q1 Q2 _. subst b1 b2.
      pose proof (digits_fun _ _ _ _ DH DH'). lia.
    + exfalso. destruct Q as [[Q _]|[Q _]]; injection Q as Q1 _; rewrite Q1 in D2; cbn in D2; lia.
  - intros U. destruct (offset_written u ltac:(lia)) as (sg & hh & h & mm & m & tl & x & -> & DH & DM & H & M & X & A & TL & G).
    destruct G as [[G ->]|[G ->]]; [|lia]. exists (hh ++ mm ++ tl), (- u). split.
    + exists hh, h, mm, m. split; [exact DH|]. split; [exact DM|]. split; [lia|]. split; [lia|].
      destruct TL as [[-> ->]|[N D]]; [left; rewrite app_nil_r; split; [reflexivity|lia]|]. right. exists tl, x. split; [reflexivity|]. split; [exact D|lia].
    + right. split; [reflexivity|lia].
Qed.

(** One of zero or more is written without a sign, and so never as an offset at all. *)
Lemma offset_never_rfc u u' : 0 <= u -> ~ utcoffset_rfc (concat (utcoffset_encode u)) u'.
Proof.
  intros U (ds & n & _ & Q). unfold utcoffset_encode in Q. rewrite (proj2 (Z.ltb_ge u 0) U) in Q. cbv zeta in Q.
  set (h := to_byte (Z.quot (Z.quot u 60) 60)) in Q. set (k := if 99 <? h then 0 else h) in Q.
  assert (0 <= h) by (unfold h, to_byte; apply Z.mod_pos_bound; lia).
  assert (0 <= k <= 99) by (unfold k; destruct (Z.ltb_spec 99 h); lia).
  assert (C : code (chr (to_byte (48 + k / 10))) = 48 + k / 10).
  { unfold to_byte. rewrite Z.mod_small by (Z.to_euclidean_division_equations; lia). apply code_chr. Z.to_euclidean_division_equations; lia. }
  assert (48 <= 48 + k / 10 <= 57) by (Z.to_euclidean_division_equations; lia).
  set (c := chr (to_byte (48 + k / 10))) in *. clearbody c. rewrite <- C in *. clear C.
  destruct Q as [[Q _]|[Q _]]; apply (f_equal (fun l => hd c l)) in Q; change (c = "+"%char) in Q || change (c = "-"%char) in Q; subst c; cbn in *; lia.
Qed.

(** ** Texts *)
Lemma text_rfc_app a s : Forall (fun c => value_char c = true /\ ~ In c ["\"; ","; ";"]%char) a -> text_rfc s -> text_rfc (a ++ s).
Proof. induction 1 as [|c a [V N] F IH]; intros T; [exact T|]. cbn [app]. apply TR_plain; auto. Qed.
Lemma rune_rfc r : 0 <= r -> r <> 10 -> r <> 92 -> r <> 59 -> r <> 44 -> (128 <= r \/ value_char (chr r) = true) ->
  Forall (fun c => value_char c = true /\ ~ In c ["\"; ","; ";"]%char) (encode_rune r).
Proof.
  intros P N0 N1 N2 N3 V. destruct (Z.lt_ge_cases r 128) as [L|G].
  - rewrite encode_rune_low by lia. constructor; [|constructor]. split; [destruct V; [lia|assumption]|].
    intros I. assert (C : code (chr r) = r) by (apply code_chr; lia). destruct I as [E|[E|[E|[]]]]; rewrite <- E in C; cbn in C; lia.
  - pose proof (encode_rune_high r ltac:(lia)) as F. eapply Forall_impl; [|exact F]. cbv beta. intros c H. split; [apply high_value, H|].
    intros I. destruct I as [<-|[<-|[<-|[]]]]; cbn in H; lia.
Qed.
Lemma text_rfc_written t : no_control t -> text_rfc (text_bytes t).
Proof.
  intros NC. unfold text_bytes.
  assert (F : Forall (fun r => 0 <= r /\ (r = 10 \/ 128 <= r \/ value_char (chr r) = true)) (runes t)).
  { apply Forall_forall. intros r I. split; [exact (runes_ge t r I)|]. destruct (Z.lt_ge_cases r 128) as [L|G]; [|auto].
    destruct (runes_low t r I L) as (c & Ic & ->). unfold no_control in NC. rewrite Forall_forall in NC. destruct (NC c Ic) as [V| ->]; [|left; reflexivity].
    right. right. rewrite chr_code. exact V. }
  induction F as [|r rs [P V] _ IH]; [constructor|]. cbn [map concat]. unfold text_rune at 1.
  destruct (r =? 92) eqn:E1; [apply TR_escape; [left; reflexivity|exact IH]|].
  destruct (r =? 10) eqn:E2; [apply TR_escape; [right; right; right; left; reflexivity|exact IH]|].
  destruct (r =? 59) eqn:E3; [apply TR_escape; [right; right; left; reflexivity|exact IH]|].
  destruct (r =? 44) eqn:E4; [apply TR_escape; [right; left; reflexivity|exact IH]|].
  apply text_rfc_app; [|exact IH]. apply rune_rfc; [lia|lia|lia|lia|lia|]. destruct V as [V|V]; [exfalso; lia|exact V].
Qed.
Lemma texts_rfc_written l : Forall no_control l -> texts_rfc (concat (mtext_encode l)).
Proof.
  intros F. unfold mtext_encode. rewrite comma_writes_concat. destruct l as [|x l]; [repeat constructor|]. inversion F; subst. cbn [commas].
  unfold text_encode at 1. cbn [concat]. rewrite app_nil_r. revert x H1 F. induction H2 as [|y l U F' IH]; intros x Ux F.
  - cbn [map concat]. rewrite app_nil_r. apply TRs_last, text_rfc_written, Ux.
  - cbn [map concat]. rewrite <- app_comm_cons. apply TRs_more; [apply text_rfc_written, Ux|].
    unfold text_encode at 1. cbn [concat]. rewrite app_nil_r. apply IH; auto.
Qed.

(** The first separator. *)
Lemma sep_unique (c : byte) : forall a a' b b', ~ In c a -> ~ In c a' -> a ++ c :: b = a' ++ c :: b' -> a = a' /\ b = b'.
Proof.
  induction a as [|x a IH]; intros a' b b' N N' Q; destruct a' as [|y a']; cbn [app] in Q.
  - injection Q as ->. auto.
  - injection Q as -> _. destruct N'. left. reflexivity.
  - injection Q as -> _. destruct N. left. reflexivity.
  - injection Q as -> Q. destruct (IH a' b b') as [-> ->]; auto; [intros I; apply N; right; exact I|intros I; apply N'; right; exact I].
Qed.
Lemma decimal_not c ds n : decimal ds n -> (code c < 48 \/ 57 < code c) -> ~ In c ds.
Proof. intros (_ & F & _) C I. rewrite Forall_forall in F. specialize (F _ I). lia. Qed.
Lemma date_text_not c s y m d : date_text s y m d -> (code c < 48 \/ 57 < code c) -> ~ In c s.
Proof.
  intros (dy & dm & dd & -> & _ & _ & _ & Y & M & D) C I. rewrite !in_app_iff in I. destruct I as [I|[I|I]]; revert I; eapply decimal_not; eauto.
Qed.

Section Write.
Context {env : Env}.

(** ** Dates *)
Lemma pad_length y : (0 <= y < 10000 -> length (pad_int 4 y) = 4%nat) /\ (~ 0 <= y < 10000 -> (4 < length (pad_int 4 y))%nat).
Proof.
  assert (W : forall n, (4 <= length (pad_uint 4 n))%nat) by (intros n; unfold pad_uint; rewrite app_length, repeat_length; lia).
  unfold pad_int. split; intros H.
  - replace (y <? 0) with false by lia. apply (pad_uint_spec 4 y); [change (10 ^ Z.of_nat 4) with 10000; lia|lia].
  - destruct (y <? 0) eqn:L; [cbn [length]; pose proof (W (- y)); lia|]. unfold pad_uint. rewrite app_length.
    destruct (fmt_uint_spec y ltac:(lia)) as (D & _ & V & _). pose proof (digits_val_bound _ D) as B. rewrite V in B.
    destruct (Nat.le_gt_cases (length (fmt_uint y)) 4) as [Q|Q]; [exfalso|lia].
    assert (10 ^ Z.of_nat (length (fmt_uint y)) <= 10 ^ 4) by (apply Z.pow_le_mono_r; lia). change (10 ^ 4) with 10000 in *. lia.
Qed.
Lemma format_date_length t : (in_years t -> length (format_date t) = 8%nat) /\ (~ in_years t -> (8 < length (format_date t))%nat).
Proof.
  unfold format_date. destruct (civil_from_days (wall t / 86400)) as [[y m] d] eqn:E.
  pose proof (civil_inverse (wall t / 86400)) as C. rewrite E in C. destruct C as (M & D & V). pose proof (days_in_le m y).
  rewrite !pad2 by lia. rewrite !app_length. cbn [two_digits length]. pose proof (year_range _ _ _ _ E) as Y. destruct (pad_length y) as [P1 P2]. unfold in_years. split; intros Q.
  - rewrite P1; [reflexivity|]. apply Y. dlia.
  - assert (~ 0 <= y < 10000) as N by (intros N; apply Y in N; dlia). specialize (P2 N). lia.
Qed.
Lemma format_date_chars t : forallb (fun c => is_digit c || beqc c "-") (format_date t) = true.
Proof.
  unfold format_date. destruct (civil_from_days (wall t / 86400)) as [[y m] d] eqn:E.
  assert (U : forall w n, 0 <= n -> forallb (fun c => is_digit c || beqc c "-") (pad_uint w n) = true).
  { intros w n H. unfold pad_uint. rewrite forallb_app. apply andb_true_iff.
    assert (G : forall l, forallb is_digit l = true -> forallb (fun c => is_digit c || beqc c "-") l = true).
    { intros l F. rewrite forallb_forall in *. intros c I. rewrite (F c I). reflexivity. }
    split; apply G; [apply (digits_zeros _ [])|apply fmt_uint_digits, H]. }
  assert (P : forall w n, forallb (fun c => is_digit c || beqc c "-") (pad_int w n) = true).
  { intros w n. unfold pad_int. destruct (n <? 0) eqn:L; [cbn [forallb]|]; rewrite U by lia; reflexivity. }
  rewrite !forallb_app, !P. reflexivity.
Qed.
Lemma format_date_not c t : (code c < 45 \/ (45 < code c < 48) \/ 57 < code c) -> ~ In c (format_date t).
Proof.
  intros C I. pose proof (format_date_chars t) as F. rewrite forallb_forall in F. specialize (F c I). unfold is_digit, Utf8.in_range in F.
  apply orb_true_iff in F as [F|F]; [lia|]. apply beqc_eq in F. subst. cbn in C. lia.
Qed.
Lemma date_rfc_iff t : date_rfc (format_date t) <-> in_years t.
Proof.
  split.
  - intros (y & mo & d & D & _). apply date_length in D. unfold in_years. destruct (format_date_length t) as [_ L].
    destruct (Z_le_dec (-62167219200) (wall t)), (Z_lt_dec (wall t) 253402300800); try (split; assumption); specialize (L ltac:(unfold in_years; lia)); lia.
  - intros Y. destruct (date_written t Y) as (y & mo & d & h & mi & x & S1 & D). unfold date_encode in D. cbn [concat] in D. rewrite app_nil_r in D.
    exists y, mo, d. split; [exact D|apply S1].
Qed.
Lemma datetime_out t : exists c m, concat (datetime_encode t) = format_date t ++ "T"%char :: c ++ m /\ utc_mark t m /\
  exists h mi x, clock_rfc c h mi x.
Proof.
  destruct (shown_always t) as (y & mo & d & h & mi & x & S1 & S2 & M & D & _). destruct S1 as (R & H & MI & X & W).
  exists (hms_text h mi x), (match t_loc t with LUTC => bs "Z" | _ => [] end). split; [|split; [apply utc_dec|]].
  - unfold datetime_encode, format_datetime. cbn [concat]. rewrite app_nil_r. rewrite (format_clock_text t y mo d h mi x S2) by lia.
    destruct (t_loc t); rewrite <- ?app_assoc, ?app_nil_r; reflexivity.
  - exists h, mi, x. split; [apply clock_written; auto|lia].
Qed.
Lemma datetime_rfc_iff tz t : (tz = None <-> zone_of t = None) -> datetime_rfc tz (concat (datetime_encode t)) <-> in_years t.
Proof.
  intros Z. destruct (datetime_out t) as (c & m & E & U & h & mi & x & C). rewrite E. split.
  - intros (d & c' & y & mo & da & h' & mi' & x' & Q & DT & R & C'). apply date_rfc_iff.
    assert (exists r, format_date t ++ "T"%char :: c ++ m = d ++ "T"%char :: r) as (r & Q').
    { destruct tz; [|destruct Q as [Q|Q]]; rewrite Q; eexists; reflexivity. }
    apply sep_unique in Q' as [-> _]; [exists y, mo, da; auto|apply format_date_not; cbn; lia|apply (date_text_not _ _ _ _ _ DT); cbn; lia].
  - intros Y. apply date_rfc_iff in Y. destruct Y as (y & mo & d & D & R). exists (format_date t), c, y, mo, d, h, mi, x. split; [|auto].
    unfold zone_of in Z. destruct U as [[L ->]|[L ->]].
    + rewrite L in Z. destruct tz; [destruct Z as [_ Z]; discriminate (Z eq_refl)|]. right. reflexivity.
    + rewrite app_nil_r. destruct tz; [reflexivity|left; reflexivity].
Qed.
Lemma time_rfc_written t : time_rfc (zone_of t) (concat (clock_encode t)).
Proof.
  destruct (time_written t) as (y & mo & d & h & mi & x & c & m & S1 & -> & C & U). destruct S1 as (_ & H & M & X & _).
  exists c, h, mi, x. split; [|split; [exact C|lia]]. unfold zone_of. destruct U as [[L ->]|[L ->]].
  - rewrite L. right. reflexivity.
  - rewrite app_nil_r. destruct (t_loc t); [left|left|]; reflexivity.
Qed.
Lemma datetime_no_slash t : ~ In "/"%char (concat (datetime_encode t)).
Proof.
  destruct (datetime_out t) as (c & m & -> & U & h & mi & x & (hh & mm & ss & -> & (A & _) & (B & _) & (C & _)) & _). intros I.
  apply in_app_or in I as [I|[I|I]]; [revert I; apply format_date_not; cbn; lia|discriminate|].
  apply in_app_or in I as [I|I].
  - apply in_app_or in I as [I|I]; [revert I; apply (decimal_not _ _ _ A); cbn; lia|].
    apply in_app_or in I as [I|I]; revert I; [apply (decimal_not _ _ _ B)|apply (decimal_not _ _ _ C)]; cbn; lia.
  - destruct U as [[_ ->]|[_ ->]]; [destruct I as [I|[]]; discriminate|destruct I].
Qed.
Lemma datetime_rfc_no_slash tz s : datetime_rfc tz s -> ~ In "/"%char s.
Proof.
  intros (d & c & y & mo & da & h & mi & x & Q & DT & _ & (hh & mm & ss & -> & (A & _) & (B & _) & (C & _)) & _) I.
  assert (I' : In "/"%char (d ++ bs "T" ++ (hh ++ mm ++ ss) ++ bs "Z")).
  { destruct tz as [z|]; [|destruct Q as [Q|Q]]; rewrite Q in I; [| |exact I];
      (rewrite !in_app_iff in *; tauto). }
  rewrite !in_app_iff in I'. destruct I' as [I'|[[I'|[]]|[[I'|[I'|I']]|[I'|[]]]]]; try discriminate; revert I';
    [apply (date_text_not _ _ _ _ _ DT)|apply (decimal_not _ _ _ A)|apply (decimal_not _ _ _ B)|apply (decimal_not _ _ _ C)]; cbn; lia.
Qed.
Lemma datetime_not_duration t w d h m x : ~ dur_value (concat (datetime_encode t)) false w d h m x.
Proof.
  destruct (datetime_out t) as (c & mk & -> & _). intros V.
  assert (exists a r, format_date t = a :: r /\ (is_digit a || beqc a "-") = true) as (a & r & E & A).
  { pose proof (format_date_chars t) as F. destruct (format_date_length t) as [L1 L2]. destruct (format_date t) as [|a r]; [cbn [length] in *; exfalso|].
    - assert (~ in_years t) as N by (intros N; specialize (L1 N); discriminate). specialize (L2 N). lia.
    - exists a, r. split; [reflexivity|]. cbn [forallb] in F. apply andb_true_iff in F as [F _]. exact F. }
  rewrite E in V. inversion V; subst; discriminate.
Qed.
Lemma period_rfc_iff p : value_ok (VPeriod p) -> dur_fits (p_dur p) ->
  period_rfc (zone_of (p_start p)) (concat (period_encode p)) <-> in_years (p_start p) /\ (~ year_one (p_end p) -> in_years (p_end p)).
Proof.
  intros (_ & V) F. unfold period_encode. rewrite !concat_app. change (concat [bs "/"]) with (bs "/").
  assert (TZ : zone_of (p_start p) = None <-> zone_of (p_start p) = None) by tauto.
  destruct (year_one_dec (p_end p)) as [[-> Y]|[-> Y]].
  - split.
    + intros (a & b & Q & A & _). split; [|contradiction].
      change (concat (datetime_encode (p_start p)) ++ "/"%char :: concat (duration_encode (p_dur p)) = a ++ "/"%char :: b) in Q.
      apply sep_unique in Q as [<- <-]; [exact (proj1 (datetime_rfc_iff _ _ TZ) A)|apply datetime_no_slash|exact (datetime_rfc_no_slash _ _ A)].
    + intros [S0 _]. eexists. eexists. split; [reflexivity|]. split; [apply datetime_rfc_iff; auto|]. right.
      destruct V as [[_ N]|[N _]]; [|contradiction]. pose proof (duration_encode_value _ F) as DV. rewrite N in DV. eauto 10.
  - destruct V as [[V _]|(_ & _ & V)]; [contradiction|].
    assert (TZ' : zone_of (p_start p) = None <-> zone_of (p_end p) = None) by (unfold zone_of, same_place in *; destruct (t_loc (p_start p)), (t_loc (p_end p)); try contradiction; split; try discriminate; reflexivity).
    split.
    + intros (a & b & Q & A & B).
      change (concat (datetime_encode (p_start p)) ++ "/"%char :: concat (datetime_encode (p_end p)) = a ++ "/"%char :: b) in Q.
      apply sep_unique in Q as [<- <-]; [|apply datetime_no_slash|exact (datetime_rfc_no_slash _ _ A)].
      split; [exact (proj1 (datetime_rfc_iff _ _ TZ) A)|]. intros _.
      destruct B as [B|(w & d & h & m & x & B)]; [exact (proj1 (datetime_rfc_iff _ _ TZ') B)|exfalso; exact (datetime_not_duration _ _ _ _ _ _ B)].
    + intros [S0 S1]. eexists. eexists. split; [reflexivity|]. split; [apply datetime_rfc_iff; auto|]. left. apply datetime_rfc_iff; auto.
Qed.

(** ** Rules *)
Lemma same_words {A B} sep (P : bytes -> A -> Prop) (Q : bytes -> B -> Prop) s l m : listed sep P s l -> listed sep Q s m ->
  Forall2 (fun a b => exists w, P w a /\ Q w b) l m.
Proof.
  intros H G. apply listed_split in H, G. revert m G. induction H as [|w a ws l X F IH]; intros m G; inversion G; subst; constructor; eauto.
Qed.
Lemma F2_left {A B} (P : A -> B -> Prop) l m a : Forall2 P l m -> In a l -> exists b, In b m /\ P a b.
Proof.
  induction 1 as [|x y l m X F IH]; intros I; [destruct I|]. destruct I as [<-|I]; [exists y; split; [left; reflexivity|exact X]|].
  destruct (IH I) as (b & Ib & Pb). exists b. split; [right; exact Ib|exact Pb].
Qed.
Lemma day_conforms d d' w : day_says d w -> day_rfc w d' -> -53 <= dr_occ d <= 53.
Proof.
  intros (n & wd & -> & W & N) (n' & wd' & E & W' & N').
  destruct (weekday_shape _ _ W) as (a & b & -> & _). destruct (weekday_shape _ _ W') as (a' & b' & -> & _).
  assert (n = n') as <-. { apply (f_equal (@rev byte)) in E. rewrite !rev_app_distr in E. cbn in E. injection E as _ _ E. rewrite <- (rev_involutive n), E. apply rev_involutive. }
  destruct N as [[-> ->]|[NZ N]]; [lia|]. destruct N' as [[-> _]|(ds & k & D & _ & K & Q)].
  - destruct N as [[_ (D & _)]|[_ (ds & Q & _)]]; [destruct D as [D _]; contradiction|discriminate].
  - assert (HD : forall c r, decimal (c :: r) k -> code c = 43 \/ code c = 45 -> False).
    { intros c r (_ & F & _) C. inversion F; subst. lia. }
    assert (HD2 : forall c r z, decimal (c :: r) z -> code c = 43 \/ code c = 45 -> False).
    { intros c r z (_ & F & _) C. inversion F; subst. lia. }
    destruct N as [[P (D' & _)]|[P (ds' & -> & D' & _)]], Q as [[Q _]|[[Q _]|[Q _]]]; subst.
    + destruct D as (_ & _ & ->), D' as (_ & _ & ->). lia.
    + exfalso. apply (HD2 _ _ _ D'). left. reflexivity.
    + exfalso. apply (HD2 _ _ _ D'). right. reflexivity.
    + exfalso. apply (HD2 _ _ _ D). right. reflexivity.
    + discriminate.
    + injection Q as ->. destruct D as (_ & _ & ->), D' as (_ & _ & D'). lia.
Qed.
Lemma day_says_rfc d w : 1 <= dr_day d <= 7 -> -53 <= dr_occ d <= 53 -> day_says d w -> day_rfc w d.
Proof.
  intros R O (n & wd & -> & W & N). exists n, wd. split; [reflexivity|]. split; [exact W|]. destruct N as [[Z ->]|[NZ N]]; [left; auto|]. right.
  assert (L : forall ds k, short_decimal ds k -> 1 <= k <= 53 -> (length ds <= 2)%nat).
  { intros ds k SD K. rewrite (short_one _ _ _ SD (fmt_uint_short k ltac:(lia))). apply fmt_uint_length; [change (10 ^ Z.of_nat 2) with 100; lia|lia]. }
  destruct N as [[P SD]|[P (ds & -> & SD)]].
  - exists n, (dr_occ d). split; [apply SD|]. split; [apply (L _ _ SD); lia|]. split; [lia|]. left. auto.
  - exists ds, (- dr_occ d). split; [apply SD|]. split; [apply (L _ _ SD); lia|]. split; [lia|]. right. right. split; [reflexivity|lia].
Qed.
Lemma part_agree r tz p p' v : tz = zone_of (r_until r) -> rname p = rname p' -> part_wrote p v -> part_rfc tz v p' ->
  match p with RByDay l => Forall (fun d => -53 <= dr_occ d <= 53) l | RUntil _ t => t = r_until r -> in_years t | _ => True end.
Proof.
  intros -> N W R. destruct p as [f|b t| | | | | |l| | | | | |]; try exact Logic.I; destruct p' as [f'|b' t'| | | | | |l'| | | | | |]; try discriminate N; cbn [part_wrote part_says part_rfc rvalue] in *.
  - intros ->. subst v. destruct b, b'.
    + apply (datetime_rfc_iff (zone_of (r_until r))) in R; [exact R|tauto].
    + exfalso. destruct R as (y & mo & d & D & _). destruct (datetime_out (r_until r)) as (c & m & E & _). rewrite E in D.
      refine (date_text_not "T"%char _ _ _ _ D _ _); [cbn; lia|]. apply in_or_app. right. left. reflexivity.
    + exfalso. unfold date_encode in R. cbn [concat] in R. rewrite app_nil_r in R. destruct R as (d & c & y & mo & da & h & mi & x & Q & _).
      apply (format_date_not "T"%char (r_until r)); [cbn; lia|]. destruct (zone_of (r_until r)); [|destruct Q as [Q|Q]]; rewrite Q; apply in_or_app; right; left; reflexivity.
    + unfold date_encode in R. cbn [concat] in R. rewrite app_nil_r in R. apply date_rfc_iff, R.
  - apply Forall_forall. intros d I. destruct (F2_left _ _ _ _ (same_words _ _ _ _ _ _ W R) I) as (d' & _ & w & A & B). exact (day_conforms _ _ _ A B).
Qed.
Lemma part_conforms r tz p v : tz = zone_of (r_until r) -> recur_ok r -> recur_typed r -> Forall (fun d => -53 <= dr_occ d <= 53) (r_byday r) ->
  (r_count r = 0 -> ~ year_one (r_until r) -> in_years (r_until r)) -> forall ps, rule_parts r ps -> In p ps -> part_wrote p v -> part_rfc tz v p.
Proof.
  intros -> O T D Y ps P I W.
  assert (S0 : forall (P : Prop) (p q : rpart) l, if_set P p l -> In q l -> q = p).
  { intros P0 p0 q l [U|U] J; [destruct J|]. destruct J as [<-|[]]. reflexivity. }
  assert (UI : forall lo hi l, Forall (fun z => 0 <= z -> lo <= z <= hi) l -> listed ","%char (fun w z => unsigned_says z w) v l -> listed ","%char (unsigned_item lo hi) v l).
  { intros lo hi l F. rewrite Forall_forall in F. apply listed_impl. intros w z J [P0 [[_ (Q & _)]|[Q _]]]; [split; [exact Q|exact (F z J P0)]|lia]. }
  assert (SI : forall hi l, Forall (fun z => z <> 0 /\ - hi <= z <= hi) l -> listed ","%char (fun w z => integer_says z w) v l -> listed ","%char (signed_item hi) v l).
  { intros hi l F. rewrite Forall_forall in F. apply listed_impl. intros w z J Q. split; [apply integer_signed, Q|exact (F z J)]. }
  assert (DC : forall n, unsigned_says n v -> decimal v n) by (intros n [P0 [[_ (Q & _)]|[Q _]]]; [exact Q|lia]).
  destruct O as (F & WK & O1 & O2 & O3 & O4 & O5 & O6 & O7 & O8 & O9). destruct T as (_ & _ & CO & IV & _).
  pose proof P as P'. destruct P as [bd iv l1 l2 l3 l4 l5 l6 l7 l8 l9 wk B H1 H2 H3 H4 H5 H6 H7 H8 H9 H10 H11].
  cbn [In] in I. destruct I as [<-|I]; [exact W|]. rewrite !in_app_iff in I.
  assert (UP : forall lo hi l, Forall (fun v => v <= hi) l -> lo <= 0 -> Forall (fun z => 0 <= z -> lo <= z <= hi) l).
  { intros lo hi l G L. eapply Forall_impl; [|exact G]. cbv beta. lia. }
  destruct I as [I|[I|[I|[I|[I|[I|[I|[I|[I|[I|[I|I]]]]]]]]]]].
  - destruct B as [[B _]|[B C]].
    + rewrite (S0 _ _ _ _ B I) in *. cbn [part_wrote part_says part_rfc rvalue] in *. split; [apply DC, W|lia].
    + assert (J : In p [RUntil (r_untiltime r) (r_until r)]) by (destruct B as [U|U]; [destruct I|exact I]). destruct J as [<-|[]].
      assert (N : ~ year_one (r_until r)) by (destruct B; [destruct I|assumption]). specialize (Y C N). cbn [part_wrote part_rfc] in *. rewrite W.
      destruct (r_untiltime r); [apply datetime_rfc_iff; [tauto|exact Y]|]. unfold date_encode. cbn [concat]. rewrite app_nil_r. apply date_rfc_iff, Y.
  - rewrite (S0 _ _ _ _ H1 I) in *. cbn [part_wrote part_says part_rfc rvalue] in *. split; [apply DC, W|lia].
  - rewrite (S0 _ _ _ _ H2 I) in *. cbn [part_wrote part_says part_rfc rvalue] in *. apply UI; [apply UP; [exact O1|lia]|exact W].
  - rewrite (S0 _ _ _ _ H3 I) in *. cbn [part_wrote part_says part_rfc rvalue] in *. apply UI; [apply UP; [exact O2|lia]|exact W].
  - rewrite (S0 _ _ _ _ H4 I) in *. cbn [part_wrote part_says part_rfc rvalue] in *. apply UI; [apply UP; [exact O3|lia]|exact W].
  - rewrite (S0 _ _ _ _ H5 I) in *. cbn [part_wrote part_says part_rfc rvalue] in *. rewrite Forall_forall in O4, D.
    revert W. apply listed_impl. intros w d J Q. apply day_says_rfc; auto.
  - rewrite (S0 _ _ _ _ H6 I) in *. cbn [part_wrote part_says part_rfc rvalue] in *. apply SI; [exact O5|exact W].
  - rewrite (S0 _ _ _ _ H7 I) in *. cbn [part_wrote part_says part_rfc rvalue] in *. apply SI; [exact O6|exact W].
  - rewrite (S0 _ _ _ _ H8 I) in *. cbn [part_wrote part_says part_rfc rvalue] in *. apply SI; [exact O7|exact W].
  - rewrite (S0 _ _ _ _ H9 I) in *. cbn [part_wrote part_says part_rfc rvalue] in *. apply UI; [|exact W]. eapply Forall_impl; [|exact O8]. cbv beta. lia.
  - rewrite (S0 _ _ _ _ H10 I) in *. cbn [part_wrote part_says part_rfc rvalue] in *. apply SI; [exact O9|exact W].
  - rewrite (S0 _ _ _ _ H11 I) in *. exact W.
Qed.

(** No part twice. *)
Lemma names_more l rest n N : (forall p, In p l -> rname p = n) -> (length l <= 1)%nat -> ~ In n N ->
  NoDup (map rname rest) /\ incl (map rname rest) N -> NoDup (map rname (l ++ rest)) /\ incl (map rname (l ++ rest)) (n :: N).
Proof.
  intros F L O [D I]. destruct l as [|p [|q l]]; [| |cbn [length] in L; lia].
  - split; [exact D|]. intros x J. right. apply I, J.
  - cbn [app map]. rewrite (F p (or_introl eq_refl)). split; [constructor; [intros J; apply O, I, J|exact D]|]. intros x [<-|J]; [left; reflexivity|right; apply I, J].
Qed.
Lemma set_names P p l : if_set P p l -> (forall q, In q l -> rname q = rname p) /\ (length l <= 1)%nat.
Proof. intros [U|U]; split; cbn; try lia; intros q [] ; [subst; reflexivity|contradiction]. Qed.
Lemma rule_parts_rfc r ps : rule_parts r ps -> parts_rfc ps.
Proof.
  intros [bd iv l1 l2 l3 l4 l5 l6 l7 l8 l9 wk B H1 H2 H3 H4 H5 H6 H7 H8 H9 H10 H11].
  assert (Z : NoDup (map rname wk) /\ incl (map rname wk) [bs "WKST"]).
  { destruct (set_names _ _ _ H11) as [A L]. rewrite <- (app_nil_r wk). apply names_more; [exact A|exact L|intros []|split; [constructor|intros x []]]. }
  destruct (set_names _ _ _ H10) as [A10 L10]. apply (names_more l9 _ (bs "BYSETPOS")) in Z; [|exact A10|exact L10|cbn; intuition discriminate]. clear A10 L10.
  destruct (set_names _ _ _ H9) as [A10 L10]. apply (names_more l8 _ (bs "BYMONTH")) in Z; [|exact A10|exact L10|cbn; intuition discriminate]. clear A10 L10.
  destruct (set_names _ _ _ H8) as [A10 L10]. apply (names_more l7 _ (bs "BYWEEKNO")) in Z; [|exact A10|exact L10|cbn; intuition discriminate]. clear A10 L10.
  destruct (set_names _ _ _ H7) as [A10 L10]. apply (names_more l6 _ (bs "BYYEARDAY")) in Z; [|exact A10|exact L10|cbn; intuition discriminate]. clear A10 L10.
  destruct (set_names _ _ _ H6) as [A10 L10]. apply (names_more l5 _ (bs "BYMONTHDAY")) in Z; [|exact A10|exact L10|cbn; intuition discriminate]. clear A10 L10.
  destruct (set_names _ _ _ H5) as [A10 L10]. apply (names_more l4 _ (bs "BYDAY")) in Z; [|exact A10|exact L10|cbn; intuition discriminate]. clear A10 L10.
  destruct (set_names _ _ _ H4) as [A10 L10]. apply (names_more l3 _ (bs "BYHOUR")) in Z; [|exact A10|exact L10|cbn; intuition discriminate]. clear A10 L10.
  destruct (set_names _ _ _ H3) as [A10 L10]. apply (names_more l2 _ (bs "BYMINUTE")) in Z; [|exact A10|exact L10|cbn; intuition discriminate]. clear A10 L10.
  destruct (set_names _ _ _ H2) as [A10 L10]. apply (names_more l1 _ (bs "BYSECOND")) in Z; [|exact A10|exact L10|cbn; intuition discriminate]. clear A10 L10.
  destruct (set_names _ _ _ H1) as [A10 L10]. apply (names_more iv _ (bs "INTERVAL")) in Z; [|exact A10|exact L10|cbn; intuition discriminate]. clear A10 L10.
  set (rest := iv ++ _) in *. clearbody rest.
  assert (Q : exists n, (n = bs "COUNT" \/ n = bs "UNTIL") /\ NoDup (map rname (bd ++ rest)) /\
     incl (map rname (bd ++ rest)) [n; bs "INTERVAL"; bs "BYSECOND"; bs "BYMINUTE"; bs "BYHOUR"; bs "BYDAY"; bs "BYMONTHDAY"; bs "BYYEARDAY"; bs "BYWEEKNO"; bs "BYMONTH"; bs "BYSETPOS"; bs "WKST"]).
  { destruct B as [[B _]|[B _]]; destruct (set_names _ _ _ B) as [A L].
    - exists (bs "COUNT"). split; [auto|]. apply names_more; [exact A|exact L|cbn; intuition discriminate|exact Z].
    - exists (bs "UNTIL"). split; [auto|]. apply names_more; [exact A|exact L|cbn; intuition discriminate|exact Z]. }
  destruct Q as (n & N & D & I). split; [left; reflexivity|]. split.
  - cbn [map rname]. constructor; [|exact D]. intros J. apply I in J. destruct N as [-> | ->]; cbn in J; intuition discriminate.
  - intros [U C]. assert (G : forall x, Exists (named x) (RFreq (r_freq r) :: bd ++ rest) -> bs x <> bs "FREQ" -> In (bs x) (map rname (bd ++ rest))).
    { intros x X NF. apply Exists_exists in X as (p & [<-|J] & Q); [destruct NF; symmetry; exact Q|]. rewrite <- Q. apply in_map, J. }
    pose proof (I _ (G _ U ltac:(discriminate))) as IU. pose proof (I _ (G _ C ltac:(discriminate))) as IC.
    destruct N as [-> | ->]; cbn in IU, IC; intuition discriminate.
Qed.
Lemma rule_rfc_iff r : recur_ok r -> recur_typed r -> rule_rfc (zone_of (r_until r)) (concat (recur_encode r)) <->
  Forall (fun d => -53 <= dr_occ d <= 53) (r_byday r) /\ (r_count r = 0 -> ~ year_one (r_until r) -> in_years (r_until r)).
Proof.
  intros O T. destruct (recur_wrote r O T) as (ps & P & L). split.
  - intros (ps' & L' & _). pose proof (same_words _ _ _ _ _ _ L L') as S2.
    assert (A : forall p, In p ps -> match p with RByDay l => Forall (fun d => -53 <= dr_occ d <= 53) l | RUntil _ t => t = r_until r -> in_years t | _ => True end).
    { intros p I. destruct (F2_left _ _ _ _ S2 I) as (p' & _ & w & (v & -> & V) & (v' & Q & V')).
      change (rname p ++ "="%char :: v = rname p' ++ "="%char :: v') in Q.
      apply sep_unique in Q as [Q <-]; [exact (part_agree r _ p p' v eq_refl Q V V')| |]; intros J; exact (proj1 (names_distinct _ _ [] eq_refl) J). }
    destruct P as [bd iv l1 l2 l3 l4 l5 l6 l7 l8 l9 wk B H1 H2 H3 H4 H5 H6 H7 H8 H9 H10 H11]. split.
    + destruct H5 as [E|E]; [rewrite E; constructor|]. apply (A (RByDay (r_byday r))). right. rewrite !in_app_iff. do 5 right. left. left. reflexivity.
    + intros C N. destruct B as [[_ B]|[B _]]; [contradiction|]. destruct B as [B|B]; [contradiction|].
      apply (A (RUntil (r_untiltime r) (r_until r))); [|reflexivity]. right. rewrite !in_app_iff. left. left. reflexivity.
  - intros [D Y]. exists ps. split; [|exact (rule_parts_rfc _ _ P)]. revert L. apply listed_impl. intros w p I (v & -> & V). exists v. split; [reflexivity|].
    exact (part_conforms r _ p v eq_refl O T D Y ps P I V).
Qed.

Theorem value_rfc_iff v : value_ok v -> value_typed v -> value_rfc v (concat (value_encode v)) <-> conforms v.
Proof.
  destruct v as [b|b|u|t|t|d|f|[fa fb]|z|p|r|t|l|t|u|z]; cbn [value_ok value_typed value_rfc conforms value_encode]; intros V W.
  - split; [trivial|]. intros _. unfold binary_encode. rewrite binary_writes_concat by lia. apply base64_rfc, b64_says.
  - split; [trivial|]. intros _. destruct b; [left|right]; split; reflexivity.
  - tauto.
  - unfold date_encode. cbn [concat]. rewrite app_nil_r. apply date_rfc_iff.
  - apply datetime_rfc_iff. tauto.
  - split; [trivial|]. intros _. pose proof (duration_encode_value _ W) as DV. eauto 10.
  - split; [|contradiction]. intros F. unfold float_encode in F. cbn [concat] in F. exact (float_no_head _ [] [] f F V (app_nil_r _)).
  - split; [|contradiction]. intros (a & b & Q & A & _). unfold tfloat_encode in Q. cbn [concat fst snd] in Q. symmetry in Q. exact (float_no_head a _ _ fa A (proj1 V) Q).
  - split; [trivial|]. intros _. unfold integer_encode. cbn [concat]. rewrite app_nil_r. split; [apply integer_signed, fmt_int_says|lia].
  - apply period_rfc_iff; assumption.
  - apply rule_rfc_iff; assumption.
  - split; [trivial|]. intros _. unfold text_encode. cbn [concat]. rewrite app_nil_r. apply text_rfc_written, V.
  - split; [trivial|]. intros _. apply texts_rfc_written, V.
  - split; [trivial|]. intros _. apply time_rfc_written.
  - tauto.
  - apply offset_rfc_iff.
Qed.
Theorem float_never_rfc f : value_ok (VFloat f) -> ~ float_rfc (concat (value_encode (VFloat f))).
Proof. intros V F. exact (proj1 (value_rfc_iff (VFloat f) V Logic.I) F). Qed.
End Write.
