(** What RFC 5545 allows and Decode does not read. *)
From Coq Require Import String Ascii ZArith Bool List Lia.
From Verif Require Import Base Lib GoStrings Strtok Tokeniser SpecContent NumProofs GoTime Types Params ParamTable PropTable Props SecTable Sections Codec SpecDuration DurationProofs SpecTime TimeProofs DateProofs SpecTree TreeProofs ExactProofs SpecRules ShapeProofs RulesProofs SpecEdits AddProofs SpecText TextProofs HangProofs SpecProps GroupProofs SampleCal SpecRfc SpecLine LineProofs SpecComp CompProofs.
Import ListNotations.

Section R.
Context {env : Env}.

(** ** Parameters *)
Lemma params_read pid n : In n (rfc_params pid) <-> In n (read_params pid) \/ In (pid, n) unread_params.
Proof.
  unfold unread_params. destruct pid; cbn [rfc_params read_params api_struct map In]; (split; intros H; repeat (destruct H as [H|H]); try contradiction; try (injection H as <-); subst; try discriminate; auto 20).
  all: match goal with H : (_, _) = (_, _) |- _ => injection H as <-; auto 20 end.
Qed.
Theorem unread_ignored pid a x b d : In (pid, upper (cp_name x)) unread_params ->
  prop_decode pid (params_tokens (a ++ x :: b)) d = prop_decode pid (params_tokens (a ++ b)) d.
Proof.
  intros [H|[H|[]]]; injection H as <- H; apply unknown_params_ignored; rewrite <- H.
  all: try (intros [Q|Q]; discriminate).
  all: cbn; intros Q; repeat destruct Q as [Q|Q]; try contradiction; discriminate.
Qed.

(** ** Properties *)
Definition mem (n : bytes) (l : list bytes) : bool := existsb (beq n) l.
Lemma mem_in n l : mem n l = true <-> In n l.
Proof. unfold mem. rewrite existsb_exists. split; [intros (x & I & E); apply beq_eq in E; subst; exact I|intros I; exists n; split; [exact I|apply beq_refl]]. Qed.
Definition sid_eqb (a b : secid) : bool := match a, b with
  | SCalendar, SCalendar | SEvent, SEvent | STodo, STodo | SJournal, SJournal | SFreeBusy, SFreeBusy | STimezone, STimezone | SStandard, SStandard | SDaylight, SDaylight
  | SAlarmAudio, SAlarmAudio | SAlarmDisplay, SAlarmDisplay | SAlarmEmail, SAlarmEmail | SAlarmURI, SAlarmURI | SAlarmNone, SAlarmNone => true | _, _ => false end.
Lemma sid_eqb_eq a b : sid_eqb a b = true -> a = b.
Proof. destruct a, b; cbn [sid_eqb]; congruence. Qed.
Lemma lost_names : forallb (fun id => forallb (fun n => mem n (known id) || existsb (fun x => sid_eqb (fst x) id && beq (snd x) n) (lost_props)) (rfc_once id ++ rfc_many id)) all_secs = true.
Proof. vm_compute. reflexivity. Qed.
Lemma rfc_read id n : In n (rfc_once id ++ rfc_many id) -> In n (known id) \/ lost id n.
Proof.
  intros I. pose proof lost_names as T. rewrite forallb_forall in T. specialize (T id (all_secs_in id)). cbv beta in T. rewrite forallb_forall in T. specialize (T n I). cbv beta in T.
  apply orb_true_iff in T as [T|T]; [left; apply mem_in, T|right]. apply existsb_exists in T as ([i m] & J & E). cbn [fst snd] in E. apply andb_true_iff in E as [E F]. apply sid_eqb_eq in E. apply beq_eq in F. subst. exact J.
Qed.
Lemma lost_unknown id n : lost id n -> In n (rfc_once id ++ rfc_many id) /\ ~ In n (known id) /\ n <> bs "BEGIN" /\ n <> bs "END" /\ n <> bs "ACTION".
Proof.
  unfold lost, lost_props. cbn [map In fst snd]. intros H. repeat (destruct H as [H|H]; [injection H as <- <-; split; [apply mem_in; vm_compute; reflexivity|split; [rewrite <- mem_in; vm_compute; discriminate|repeat split; discriminate]]|]). destruct H.
Qed.

Theorem lost_ignored b items items' e tail : framed b items e -> framed b items' e -> rest_ok tail ->
  added lost_line lost_alarm_line SCalendar items items' ->
  forall cal, decode_bytes (frame_text b items e ++ tail) = Ok cal <-> decode_bytes (frame_text b items' e ++ tail) = Ok cal.
Proof.
  intros F F' T A. apply decode_unknown_line; try assumption. eapply added_mono; [| |exact A].
  - intros id i (l & -> & L). apply lost_unknown in L as (_ & N & B & E & _). exists l. split; [reflexivity|]. split; [split; unfold is_begin, is_end, line_is; assumption|exact N].
  - intros ls l [L (i0 & L0)]. apply lost_unknown in L0 as (_ & _ & B & E & AC). split; [split; unfold is_begin, is_end, line_is; assumption|]. split; [intros Q; rewrite Q in AC; apply AC; reflexivity|].
    intros w id I Aw. apply (lost_unknown id). eapply L; eauto.
Qed.

(** ** A line that cannot be read *)
Lemma own_item l n items : In l (own_lines n items) <-> In (ILine l) items /\ upper (cl_name l) = n.
Proof.
  unfold own_lines. rewrite in_flat_map. split.
  - intros (i & I & H). destruct i as [l0| | |]; try contradiction. destruct (beq (upper (cl_name l0)) n) eqn:E; [|contradiction]. destruct H as [->|[]]. apply beq_eq in E. auto.
  - intros [I E]. exists (ILine l). split; [exact I|]. rewrite E, beq_refl. left. reflexivity.
Qed.
Lemma Forall2_left {A B} (R : A -> B -> Prop) l l' a : Forall2 R l l' -> In a l -> exists b, R a b.
Proof. intros F. induction F as [|x y l l' H F IH]; intros I; [destruct I|]. destruct I as [<-|I]; eauto. Qed.
Theorem bad_line b items e tail id sub l pid : framed b items e -> rest_ok tail -> inside SCalendar items id sub -> In (FTProp pid) (api_fields id) ->
  In l (own_lines (read_name pid) sub) -> (forall p, ~ line_means pid (cl_params l) (cl_value l) p) -> forall cal, decode_bytes (frame_text b items e ++ tail) <> Ok cal.
Proof.
  intros F T I IF IL N cal D. destruct (decoded_means _ _ _ _ _ _ _ F T D I) as [y M]. apply means_exact in M. inversion M as [? ? fs Sh R O C W F2]; subst.
  destruct (Forall2_left _ _ _ _ F2 IF) as (vs & F3). apply own_item in IL as [IL E].
  destruct (Forall2_left _ _ _ (ILine l) F3) as (v & V); [apply filter_In; split; [exact IL|]; cbn [for_field]; rewrite E; apply beq_refl|]. inversion V; subst. eapply N; eauto.
Qed.

(** ** Lists *)
Lemma digits_split ds n : forallb is_digit ds = true -> length ds = S (S n) -> exists a b ds', ds = a :: b :: ds' /\ is_digit a = true /\ is_digit b = true /\ forallb is_digit ds' = true /\ length ds' = n.
Proof.
  intros D L. destruct ds as [|a [|b ds]]; try discriminate L. cbn [forallb] in D. apply andb_true_iff in D as [A D]. apply andb_true_iff in D as [B D].
  exists a, b, ds. cbn [length] in L. repeat split; try assumption. lia.
Qed.
Lemma ymd_left d r y m dd s : rfc_date d -> parse_ymd (d ++ r) = Some (y, m, dd, s) -> s = r.
Proof.
  intros [L D] H. apply parse_ymd_inv in H as (t & Q & (dy & dm & dt & -> & L1 & L2 & L3 & _) & _). symmetry.
  assert (LT : length d = length (dy ++ dm ++ dt)) by (rewrite !app_length; lia). revert LT Q. generalize (dy ++ dm ++ dt). clear. intros t. revert t. induction d as [|c d IH]; intros [|x t] L Q; try discriminate L; [exact Q|].
  cbn [app] in Q. injection Q as _ Q. injection L as L. eauto.
Qed.
Lemma getnum_two_left a b r f v s : is_digit a = true -> is_digit b = true -> getnum (a :: b :: r) f = Some (v, s) -> s = r.
Proof. intros A B. cbn [getnum]. rewrite A, B. congruence. Qed.
Lemma hms_left t r h m x ns s : length t = 6 -> forallb is_digit t = true -> parse_hms (t ++ r) = Some (h, m, x, ns, s) -> s = snd (parse_frac r).
Proof.
  intros L D H. destruct (digits_split t 4 D L) as (a1 & a2 & d1 & -> & A1 & A2 & D1 & L1). destruct (digits_split d1 2 D1 L1) as (a3 & a4 & d2 & -> & A3 & A4 & D2 & L2).
  destruct (digits_split d2 0 D2 L2) as (a5 & a6 & d3 & -> & A5 & A6 & D3 & L3). destruct d3; [|discriminate L3]. cbn [app] in H. unfold parse_hms in H.
  apply obind_some in H as ([v1 s1] & H1 & H). apply ranged_inv in H1 as [H1 _]. apply (getnum_two_left _ _ _ _ _ _ A1 A2) in H1. subst s1.
  apply obind_some in H as ([v2 s2] & H2 & H). apply ranged_inv in H2 as [H2 _]. apply (getnum_two_left _ _ _ _ _ _ A3 A4) in H2. subst s2.
  apply obind_some in H as ([v3 s3] & H3 & H). apply ranged_inv in H3 as [H3 _]. apply (getnum_two_left _ _ _ _ _ _ A5 A6) in H3. subst s3.
  destruct (parse_frac r) as [n' r']. cbn [snd]. congruence.
Qed.
Lemma frac_left r : exists ds, forallb is_digit ds = true /\ (snd (parse_frac r) = r \/ exists c, r = c :: ds ++ snd (parse_frac r)).
Proof.
  unfold parse_frac. destruct r as [|p [|d r]]; try (exists []; split; [reflexivity|left; reflexivity]). destruct ((beqc p "." || beqc p ",") && is_digit d); [|exists []; split; [reflexivity|left; reflexivity]].
  destruct (span is_digit (tl (p :: d :: r))) as [ds r'] eqn:S. cbn [tl] in S. exists ds. cbn [snd].
  assert (SP : d :: r = ds ++ r' /\ forallb is_digit ds = true) by (pose proof (span_app is_digit (d :: r)) as Q; rewrite S in Q; tauto).
  destruct SP as [E F]. split; [exact F|]. right. exists p. rewrite E. reflexivity.
Qed.
Lemma digit_not_T c : is_digit c = true -> c <> "T"%char.
Proof. intros D ->. discriminate D. Qed.
Lemma stamp_comma z a w l t : rfc_date_time a -> In "T"%char w -> parse_datetime z (a ++ "," %char :: w) l = Some t -> False.
Proof.
  intros (d & tm & zz & -> & Dd & Lt & Dt & Z) IT H. rewrite <- !app_assoc in H. unfold parse_datetime in H.
  apply obind_some in H as ([[[y m] dd] s1] & H1 & H). apply (ymd_left _ _ _ _ _ _ Dd) in H1. subst s1. cbn [bs list_ascii_of_string app lit] in H. change (beqc "T" "T") with true in H. cbn [obind] in H.
  apply obind_some in H as ([[[[h mi] x] ns] s2] & H2 & H). apply (hms_left _ _ _ _ _ _ _ Lt Dt) in H2. subst s2.
  destruct Z as [-> | ->].
  - cbn [app] in H. destruct (frac_left ("," %char :: w)) as (ds & Fd & [K|(c & K)]).
    + rewrite K in H. destruct z; cbn [obind lit] in H; discriminate H.
    + injection K as _ K. assert (TL : In "T"%char (snd (parse_frac ("," %char :: w)))).
      { rewrite K in IT at 1. apply in_app_or in IT as [IT|IT]; [|exact IT]. rewrite forallb_forall in Fd. apply Fd, digit_not_T in IT. contradiction. }
      destruct (snd (parse_frac ("," %char :: w))) as [|q r]; [destruct TL|]. destruct z; cbn [obind lit] in H; [|discriminate H].
      destruct (beqc q "Z") eqn:E; [|discriminate H]. cbn [obind] in H. destruct r; [|discriminate H]. apply beqc_eq in E. subst q. destruct TL as [TL|[]]. discriminate TL.
  - cbn [bs list_ascii_of_string app] in H. change (snd (parse_frac ("Z"%char :: "," %char :: w))) with ("Z"%char :: "," %char :: w) in H. destruct z; cbn [obind lit] in H; [|discriminate H]. change (beqc "Z" "Z") with true in H. cbn [obind] in H. discriminate H.
Qed.
Lemma stamp_has_T a : rfc_date_time a -> In "T"%char a.
Proof. intros (d & t & z & -> & _). apply in_or_app. right. left. reflexivity. Qed.
Lemma datetime_comma id m a w : rfc_date_time a -> In "T"%char w -> forall t, datetime_decode id m (a ++ "," %char :: w) <> Ok t.
Proof.
  intros A T t H. unfold datetime_decode in H. destruct (pmap_get m (bs "TZID")) as [tz|].
  - destruct (load_location id tz) as [l|]; [|discriminate]. destruct (parse_datetime false _ l) eqn:P; [|discriminate]. eapply stamp_comma; eauto.
  - destruct (ends_with _ _); (destruct (parse_datetime _ _ _) eqn:P; [|discriminate]); eapply stamp_comma; eauto.
Qed.
Lemma loop_no_comma : forall f d level b s d', duration_loop f d level (Tok b s) = Ok d' -> ~ In "," %char s.
Proof.
  induction f as [|f IH]; intros d level b s d' H I; [discriminate|]. rewrite loop_S in H. cbv zeta in H. destruct s as [|c0 s0]; [destruct I|].
  destruct (drop_T (c0 :: s0)) as [isT s1] eqn:DT. assert (I1 : In "," %char s1).
  { unfold drop_T in DT. destruct (beqc c0 "T") eqn:E; injection DT as <- <-; [|exact I]. apply beqc_eq in E. subst c0. destruct I as [I|I]; [discriminate|exact I]. }
  clear I DT. destruct (span is_digit s1) as [ds r] eqn:S. pose proof (span_app is_digit s1) as Q. rewrite S in Q. destruct Q as (Q & Q' & _).
  rewrite Q in I1. apply in_app_or in I1 as [I1|I1]; [rewrite forallb_forall in Q'; apply Q' in I1; discriminate|].
  destruct (parse_uint 64 ds); [|discriminate]. destruct r as [|c r]; [destruct I1|].
  assert (NC : forall k, beqc c k = true -> k <> "," %char -> In "," %char r) by (intros k E NE; apply beqc_eq in E; subst c; destruct I1 as [I1|I1]; [congruence|exact I1]).
  destruct (beqc c "W") eqn:E1; [|destruct (beqc c "D") eqn:E2; [|destruct (beqc c "H") eqn:E3; [|destruct (beqc c "M") eqn:E4; [|destruct (beqc c "S") eqn:E5; [|discriminate]]]]].
  - apply NC in E1; [|discriminate]. destruct (0 <? _)%Z; [discriminate|]. destruct r; [destruct E1|discriminate].
  - apply NC in E2; [|discriminate]. destruct (0 <? _)%Z; [discriminate|]. eapply IH; eauto.
  - apply NC in E3; [|discriminate]. destruct (1 <? _)%Z; [discriminate|]. eapply IH; eauto.
  - apply NC in E4; [|discriminate]. destruct (2 <? _)%Z; [discriminate|]. eapply IH; eauto.
  - apply NC in E5; [|discriminate]. destruct (3 <? _)%Z; [discriminate|]. destruct r; [destruct E5|discriminate].
Qed.
Lemma period_comma m a b rest : rfc_period a -> rfc_period b -> forall p, period_decode m (a ++ "," %char :: b ++ rest) <> Ok p.
Proof.
  intros (a1 & a2 & -> & A1 & A2) B p H. assert (TB : In "T"%char (b ++ rest)) by (destruct B as (b1 & b2 & -> & B1 & _); rewrite <- !app_assoc; apply in_or_app; left; apply stamp_has_T, B1).
  assert (NS : ~ In "/"%char a1).
  { destruct A1 as (d & t & z & -> & [_ Dd] & _ & Dt & Z). rewrite forallb_forall in Dd, Dt. intros I. apply in_app_or in I as [I|I]; [apply Dd in I; discriminate|]. apply in_app_or in I as [I|I]; [destruct I as [I|[]]; discriminate|].
    apply in_app_or in I as [I|I]; [apply Dt in I; discriminate|]. destruct Z as [-> | ->]; [destruct I|destruct I as [I|[]]; discriminate]. }
  unfold period_decode in H. rewrite <- !app_assoc in H. cbn [bs list_ascii_of_string app] in H. rewrite cut_app in H by exact NS. destruct A2 as [A2|(a3 & ->)].
  - destruct A2 as (d & t & z & E & [Ld Dd] & K). destruct d as [|c d]; [discriminate Ld|]. assert (W : rfc_date_time a2) by (exists (c :: d), t, z; split; [exact E|]; split; [split; assumption|exact K]).
    rewrite E in H at 1. cbn [app] in H. cbn [forallb] in Dd. apply andb_true_iff in Dd as [Dc _]. apply bind_ok in H as (st & _ & H).
    assert (NP : beqc c "P" || beqc c "+" = false) by (destruct (beqc c "P") eqn:E1; [apply beqc_eq in E1; subst; discriminate|]; destruct (beqc c "+") eqn:E2; [apply beqc_eq in E2; subst; discriminate|reflexivity]).
    rewrite NP in H. apply bind_ok in H as (en & H & _). eapply datetime_comma; eauto.
  - cbn [bs list_ascii_of_string app] in H. apply bind_ok in H as (st & _ & H). change (beqc "P" "P" || beqc "P" "+") with true in H. cbv iota in H. apply bind_ok in H as (dd & H & _).
    unfold duration_decode, new_tok in H. cbn [accept trest] in H. change (inset "P" (bs "-")) with false in H. cbv iota in H. cbn [accept trest] in H. change (inset "P" (bs "+")) with false in H. cbv iota in H. cbn [accept trest] in H.
    change (inset "P" (bs "P")) with true in H. cbv iota in H. apply loop_no_comma in H. apply H. apply in_or_app. right. left. reflexivity.
Qed.

(** ** The lines *)
Lemma datetime_after_date id m a c w : rfc_date a -> c <> "T"%char -> forall t, datetime_decode id m (a ++ c :: w) <> Ok t.
Proof.
  intros A NT t. assert (P : forall z l, parse_datetime z (a ++ c :: w) l = None).
  { intros z l. unfold parse_datetime. destruct (parse_ymd (a ++ c :: w)) as [[[[y mo] d] s]|] eqn:P; [|reflexivity]. apply (ymd_left _ _ _ _ _ _ A) in P. subst s. cbn [obind lit].
    destruct (beqc c "T") eqn:E; [apply beqc_eq in E; contradiction|reflexivity]. }
  unfold datetime_decode. destruct (pmap_get m (bs "TZID")) as [tz|]; [destruct (load_location id tz); [|discriminate]; rewrite P; discriminate|]. destruct (ends_with _ _); rewrite P; discriminate.
Qed.
Lemma datetime_slash id m a w : rfc_date_time a -> forall t, datetime_decode id m (a ++ "/"%char :: w) <> Ok t.
Proof.
  intros (d & tm & zz & -> & Dd & Lt & Dt & Z) t. assert (P : forall z l, parse_datetime z ((d ++ bs "T" ++ tm ++ zz) ++ "/"%char :: w) l = None).
  { intros z l. destruct (parse_datetime _ _ _) as [x|] eqn:H; [exfalso|reflexivity]. rewrite <- !app_assoc in H. unfold parse_datetime in H.
    apply obind_some in H as ([[[y m0] dd] s1] & H1 & H). apply (ymd_left _ _ _ _ _ _ Dd) in H1. subst s1. cbn [bs list_ascii_of_string app lit] in H. change (beqc "T" "T") with true in H. cbn [obind] in H.
    apply obind_some in H as ([[[[h mi] x0] ns] s2] & H2 & H). apply (hms_left _ _ _ _ _ _ _ Lt Dt) in H2. subst s2. destruct Z as [-> | ->]; cbn [bs list_ascii_of_string app] in H.
    - assert (PF : snd (parse_frac ("/"%char :: w)) = "/"%char :: w) by (unfold parse_frac; destruct w; reflexivity). rewrite PF in H. destruct z; cbn [obind lit] in H; discriminate H.
    - change (snd (parse_frac ("Z"%char :: "/"%char :: w))) with ("Z"%char :: "/"%char :: w) in H. destruct z; cbn [obind lit] in H; [|discriminate H]. change (beqc "Z" "Z") with true in H. cbn [obind] in H. discriminate H. }
  unfold datetime_decode. destruct (pmap_get m (bs "TZID")) as [tz|]; [destruct (load_location id tz); [|discriminate]; rewrite P; discriminate|]. destruct (ends_with _ _); rewrite P; discriminate.
Qed.
Lemma date_then a c w : rfc_date a -> forall t, date_decode (a ++ c :: w) <> Ok t.
Proof.
  intros A t H. unfold date_decode, parse_date in H. destruct (parse_ymd _) as [[[[y m] d] s]|] eqn:P; [|discriminate]. apply (ymd_left _ _ _ _ _ _ A) in P. subst s. discriminate H.
Qed.
Lemma no_slash_date d : rfc_date d -> ~ In "/"%char d.
Proof. intros [_ D] I. rewrite forallb_forall in D. apply D in I. discriminate. Qed.
Lemma no_slash_stamp d : rfc_date_time d -> ~ In "/"%char d.
Proof.
  intros (a & t & z & -> & A & _ & T & Z) I. apply in_app_or in I as [I|I]; [apply (no_slash_date _ A I)|]. apply in_app_or in I as [I|I]; [destruct I as [I|[]]; discriminate|].
  apply in_app_or in I as [I|I]; [rewrite forallb_forall in T; apply T in I; discriminate|]. destruct Z as [-> | ->]; [destruct I|destruct I as [I|[]]; discriminate].
Qed.
Theorem value_comma form k m s v : form_of form -> rfc_list form s -> k = KDateTime \/ k = KDate \/ k = KPeriod -> value_decode k m s <> Ok v.
Proof.
  intros FO (a & b & rest & -> & A & B & _) K H. cbn [bs list_ascii_of_string app] in H. destruct K as [-> |[-> | ->]]; cbn [value_decode] in H; unfold rmap in H; apply bind_ok in H as (t & H & _); destruct FO as [-> |[-> | ->]].
  - eapply datetime_after_date; [exact A| |exact H]. discriminate.
  - eapply datetime_comma; [exact A| |exact H]. apply in_or_app. left. apply stamp_has_T, B.
  - destruct A as (a1 & a2 & -> & A1 & _). rewrite <- !app_assoc in H. cbn [bs list_ascii_of_string app] in H. eapply datetime_slash; eauto.
  - eapply date_then; eauto.
  - destruct A as (d & tm & z & -> & D & _). rewrite <- !app_assoc in H. cbn [bs list_ascii_of_string app] in H. eapply date_then; eauto.
  - destruct A as (a1 & a2 & -> & (d & tm & z & -> & D & _) & _). rewrite <- !app_assoc in H. cbn [bs list_ascii_of_string app] in H. eapply date_then; eauto.
  - unfold period_decode in H. destruct (cut "/" _) as [[x y]|] eqn:C; [|discriminate]. destruct y; [discriminate|]. apply bind_ok in H as (st & H & _). apply cut_some in C as [C _].
    destruct (app_eq_app _ _ _ _ C) as (q & [[-> Q]|[-> Q]]).
    + destruct (no_slash_date (x ++ q) A). destruct q; [cbn [app] in Q; discriminate|]. injection Q as <- _. apply in_or_app. right. left. reflexivity.
    + destruct q as [|q0 q]; cbn [app] in Q; [discriminate|]. injection Q as <- _. eapply datetime_after_date; [exact A| |exact H]. discriminate.
  - unfold period_decode in H. destruct (cut "/" _) as [[x y]|] eqn:C; [|discriminate]. destruct y; [discriminate|]. apply bind_ok in H as (st & H & _). apply cut_some in C as [C _].
    destruct (app_eq_app _ _ _ _ C) as (q & [[-> Q]|[-> Q]]).
    + destruct (no_slash_stamp (x ++ q) A). destruct q; [cbn [app] in Q; discriminate|]. injection Q as <- _. apply in_or_app. right. left. reflexivity.
    + destruct q as [|q0 q]; cbn [app] in Q; [discriminate|]. injection Q as <- Q. eapply datetime_comma; [exact A| |exact H].
      destruct (app_eq_app _ _ _ _ Q) as (r & [[-> R]|[-> R]]); [|apply in_or_app; left; apply stamp_has_T, B].
      destruct r as [|r0 r]; [rewrite app_nil_r in B; apply stamp_has_T, B|]. destruct (no_slash_stamp _ B). cbn [app] in R. injection R as <- _. apply in_or_app. right. left. reflexivity.
  - exact (period_comma m a b rest A B t H).
Qed.
Theorem lists_unread pid form cps d p : pid = PrExceptionDateTime \/ pid = PrRecurrenceDateTimes \/ pid = PrFreeBusy -> form_of form -> rfc_list form d -> ~ line_means pid cps d p.
Proof.
  intros P FO L H. assert (K : forall w k, In (w, k) (rfc_types pid) -> k = KDateTime \/ k = KDate \/ k = KPeriod).
  { intros w k I. destruct P as [-> |[-> | ->]]; cbn in I; repeat destruct I as [I|I]; try contradiction; injection I as _ <-; auto. }
  assert (E : rfc_words pid = [] /\ exists ps, api_struct pid = Some ps) by (destruct P as [-> |[-> | ->]]; split; try reflexivity; eexists; reflexivity).
  destruct E as (E1 & ps & E2). unfold line_means in H. rewrite E1, E2 in H. destruct H as (l & a & w & k & b & v & _ & [T _] & V & _). apply (value_comma form k (value_params cps) d v FO L); [|exact V].
  apply (K w). rewrite T. apply in_or_app. right. left. reflexivity.
Qed.

(** A status code, a semicolon and a description. *)
Theorem request_status_unread cps code rest p : forallb (fun c => negb (is_bsl c)) code = true -> ~ line_means PrRequestStatus cps (code ++ bs ";" ++ rest) p.
Proof.
  intros C H. unfold line_means in H. cbn [rfc_words map api_struct] in H. destruct H as (w & k & v & Q & V & _). cbn in Q. injection Q as _ <-. cbn [value_decode] in V. unfold rmap in V. apply bind_ok in V as (t & V & _).
  assert (O : open_sep false (code ++ bs ";" ++ rest) = true).
  { clear V. induction code as [|c code IH]; [reflexivity|]. cbn [forallb] in C. apply andb_true_iff in C as [C1 C2]. apply negb_true_iff in C1. cbn [app open_sep]. rewrite C1, (IH C2). apply orb_true_r. }
  rewrite (proj1 (text_decode_exact _) O) in V. discriminate.
Qed.

Theorem lists_rejected b items e tail id sub pid l form : framed b items e -> rest_ok tail -> inside SCalendar items id sub -> In (FTProp pid) (api_fields id) ->
  pid = PrExceptionDateTime \/ pid = PrRecurrenceDateTimes \/ pid = PrFreeBusy -> In l (own_lines (prop_name pid) sub) -> form_of form -> rfc_list form (cl_value l) ->
  forall cal, decode_bytes (frame_text b items e ++ tail) <> Ok cal.
Proof.
  intros F T I IF P IL FO L. assert (E : read_name pid = prop_name pid) by (destruct P as [-> |[-> | ->]]; reflexivity). rewrite <- E in IL. eapply bad_line; eauto. intros p. eapply lists_unread; eauto.
Qed.
Theorem request_status_rejected b items e tail id sub l code rest : framed b items e -> rest_ok tail -> inside SCalendar items id sub -> In (FTProp PrRequestStatus) (api_fields id) ->
  In l (own_lines (bs "REQUEST-STATUS") sub) -> forallb (fun c => negb (is_bsl c)) code = true -> cl_value l = code ++ bs ";" ++ rest ->
  forall cal, decode_bytes (frame_text b items e ++ tail) <> Ok cal.
Proof. intros F T I IF IL C Q. eapply bad_line with (pid := PrRequestStatus); eauto. intros p. rewrite Q. eapply request_status_unread; eauto. Qed.
End R.
