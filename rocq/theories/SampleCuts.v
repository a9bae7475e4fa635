(** Decode on folded input in many reads, and concrete cases. *)
From Coq Require Import String Ascii ZArith List Arith Bool Lia.
From Verif Require Import Base Lib SpecLines Unfolder UnfolderProofs Folder Tokeniser SpecContent TokeniserProofs GoTime PropTable SecTable Sections Codec SpecTree TreeProofs ExactProofs SpecRules SpecEdits SpecProps EncodeProofs CalProofs SpecCal DecodeProofs ReadersProofs SampleReaders SpecCuts CutsProofs RoundProofs Sample SampleTree SampleCal.
Import ListNotations.

Section C.
Context {env : Env}.
Theorem decode_clean sizes chunks ds : (forall i, 2 <= sizes i) -> reads sizes 0 [] (Rdr chunks false REOF) ds -> no_cut ds -> Forall (fun d => ~ stuck d) ds ->
  exists n, forall fuel, n <= fuel -> Decode fuel sizes chunks false = decode_bytes (unfold (concat chunks)).
Proof. intros P R N G. destruct (drain_clean sizes chunks ds P R N G) as (n & H). exists n. intros fuel F. apply (Decode_drained _ _ _ _ _ REOF), H, F. Qed.
Theorem decode_unclean sizes chunks ds : (forall i, 2 <= sizes i) -> reads sizes 0 [] (Rdr chunks false REOF) ds -> no_cut ds -> Exists stuck ds ->
  forall fuel, Decode fuel sizes chunks false = NoFuel.
Proof. intros P R N G fuel. unfold Decode. rewrite (drain_unclean sizes chunks ds P R N G). reflexivity. Qed.
Lemma decode_text cal out : sec_id cal = SCalendar -> cal_good cal -> Encode ok_writer [] cal = EncDone None out -> forall c, decode_bytes (unfold (concat out)) = Ok c <-> rules_met cal /\ c = forget cal.
Proof.
  intros I G E. destruct (cal_out cal None out I G E) as (o & ls & items & O & IN & CT & LS & W & M).
  assert (WL : lines_text ls ++ last_piece = lines_text (ls ++ [end_of (bs "VCALENDAR")])) by (rewrite lines_text_app; reflexivity).
  intros c. rewrite (encode_unfold cal None out E), CT, WL, (lines_unfold _ W), <- WL, LS, <- (extras_rules cal G). apply cal_decodes; [|exact M]. rewrite LS in W. exact W.
Qed.
Theorem round_trip_reads cal out chunks sizes ds : sec_id cal = SCalendar -> cal_good cal -> Encode ok_writer [] cal = EncDone None out -> concat chunks = concat out ->
  (forall i, 2 <= sizes i) -> reads sizes 0 [] (Rdr chunks false REOF) ds -> no_cut ds -> Forall (fun d => ~ stuck d) ds ->
  exists n, forall fuel c, n <= fuel -> (Decode fuel sizes chunks false = Ok c <-> rules_met cal /\ c = forget cal).
Proof.
  intros I G E Q P R N K. destruct (decode_clean sizes chunks ds P R N K) as (n & H). exists n. intros fuel c F. rewrite (H fuel F), Q. exact (decode_text cal out I G E c).
Qed.
Theorem round_trip_many cal : sec_id cal = SCalendar -> cal_good cal -> rules_met cal -> (forall p, ~ has_prop cal PrLastModified p) -> sec_valid cal = None ->
  exists out, Encode ok_writer [] cal = EncDone None out /\
    forall chunks sizes ds, concat chunks = concat out -> (forall i, 2 <= sizes i) -> reads sizes 0 [] (Rdr chunks false REOF) ds -> no_cut ds -> Forall (fun d => ~ stuck d) ds ->
    exists n, forall fuel, n <= fuel -> Decode fuel sizes chunks false = Ok cal.
Proof.
  intros I G RM NM V. destruct (encode_decode cal I G V) as (out & E & _). exists out. split; [exact E|]. intros chunks sizes ds Q P R N K.
  destruct (round_trip_reads cal out chunks sizes ds I G E Q P R N K) as (n & H). exists n. intros fuel F. apply H; [exact F|]. split; [exact RM|]. symmetry. exact (forget_id cal G NM).
Qed.

(** ** Cases *)
Definition crossing (front back : bytes) : bool :=
  match rev front with
  | c :: q => beqc c CR && match back with x :: y :: _ => beqc x LF && beqc y SP | _ => false end ||
      match q with c' :: _ => beqc c LF && beqc c' CR && match back with x :: _ => beqc x SP | [] => false end | [] => false end
  | [] => false
  end.
Fixpoint no_cutb (front : bytes) (ds : list bytes) : bool :=
  negb (crossing front (concat ds)) && match ds with [] => true | d :: ds' => no_cutb (front ++ unfold d) ds' end.
Lemma crossing_spec front back : crossing front back = false ->
  (forall a b, front = a ++ [CR] -> back <> LF :: SP :: b) /\ (forall a b, front = a ++ CRLF -> back <> SP :: b).
Proof.
  intros H. split; intros a b -> ->; unfold crossing in H; rewrite rev_app_distr in H; cbn [rev app CRLF] in H.
  - rewrite !beqc_refl in H. discriminate H.
  - rewrite !beqc_refl in H. cbn [andb orb] in H. rewrite orb_true_r in H. discriminate H.
Qed.
Lemma no_cut_from ds : forall front, no_cutb front ds = true -> forall xs ys, ds = xs ++ ys ->
  crossing (front ++ concat (map unfold xs)) (concat ys) = false.
Proof.
  induction ds as [|d ds IH]; intros front H xs ys Q; cbn [no_cutb] in H; apply andb_true_iff in H as (A & B); apply negb_true_iff in A.
  - symmetry in Q. apply app_eq_nil in Q as (-> & ->). cbn [map concat]. rewrite app_nil_r. exact A.
  - destruct xs as [|x xs]; [cbn [app] in Q; subst ys; cbn [map concat]; rewrite app_nil_r; exact A|]. cbn [app] in Q. injection Q as -> Q. cbn [map concat]. rewrite app_assoc. exact (IH _ B xs ys Q).
Qed.
Lemma no_cut_by ds : no_cutb [] ds = true -> no_cut ds.
Proof. intros H xs ys Q. apply crossing_spec. exact (no_cut_from ds [] H xs ys Q). Qed.

(** The buffer is full after 40 bytes, in the middle of a line; the fold that is removed makes room for three more. *)
Definition small_buffer (i : nat) : nat := match i with 0 => 40 | _ => 100 end.
Definition its_reads : list bytes := [before_fold ++ fold3 ++ lines [".0"]%string ++ bs "PRODID:"; bs "x" ++ CRLF; bs "E"; lines ["ND:VCALENDAR"]%string; []].
Theorem clean_case : (forall i, 2 <= small_buffer i) /\ reads small_buffer 0 [] (Rdr [before_fold ++ fold3 ++ after_fold] false REOF) its_reads /\ no_cut its_reads /\
  Forall (fun d => ~ stuck d) its_reads /\ has_fold (before_fold ++ fold3 ++ after_fold) /\ small_buffer 0 < length (before_fold ++ fold3 ++ after_fold) /\
  decode_bytes (unfold (before_fold ++ fold3 ++ after_fold)) = Ok (cut_cal "2.0").
Proof.
  split; [intros [|i]; cbn; lia|]. split; [|split; [apply no_cut_by; vm_compute; reflexivity|]].
  - change its_reads with ([before_fold ++ fold3 ++ lines [".0"]%string ++ bs "PRODID:"; bs "x" ++ CRLF] ++ bs "E" :: ([lines ["ND:VCALENDAR"]%string] ++ [[]])).
    eapply (Reads_ahead small_buffer 0 [] _ _ _ 0).
    + eapply Fills_more; [cbn; lia|vm_compute; reflexivity|]. eapply Fills_more; [vm_compute; repeat constructor|vm_compute; reflexivity|]. vm_compute. constructor.
    + vm_compute. reflexivity.
    + vm_compute. reflexivity.
    + eapply (Reads_ahead_end small_buffer 1 _ _ _ _ 0).
      * eapply Fills_more; [cbn; lia|vm_compute; reflexivity|]. vm_compute. constructor.
      * vm_compute. reflexivity.
      * vm_compute. reflexivity.
  - split; [|split; [exists before_fold, after_fold; reflexivity|split; [vm_compute; repeat constructor|vm_compute; reflexivity]]].
    repeat constructor; intros (F & B); try (apply (proj1 (has_fold_find _)) in F; vm_compute in F; congruence).
    destruct B as (o & t & Q & R). apply (f_equal (fun l => firstn 3 (rev l))) in Q. cbv beta in Q. rewrite (rev_app_distr o t) in Q.
    destruct R as [->|[->| ->]]; cbn [rev app] in Q; vm_compute in Q; discriminate Q.
Qed.
(** The fold at the end of the buffer. *)
Definition its_end_reads : list bytes := [firstn 34 two_folds; firstn 6 (skipn 34 two_folds); skipn 40 two_folds; []].
Theorem unclean_case : (forall i, 2 <= buffer_end i) /\ reads buffer_end 0 [] (Rdr [two_folds] false REOF) its_end_reads /\ no_cut its_end_reads /\ Exists stuck its_end_reads.
Proof.
  split; [intros [|i]; cbn; lia|]. split; [|split; [apply no_cut_by; vm_compute; reflexivity|]].
  - change its_end_reads with ([firstn 34 two_folds; firstn 6 (skipn 34 two_folds)] ++ ([skipn 40 two_folds] ++ [[]])).
    eapply (Reads_next buffer_end 0 []).
    + eapply Fills_more; [cbn; lia|vm_compute; reflexivity|]. eapply Fills_more; [vm_compute; repeat constructor|vm_compute; reflexivity|]. vm_compute. constructor.
    + vm_compute. reflexivity.
    + eapply (Reads_ahead_end buffer_end 1 _ _ _ _ 0).
      * eapply Fills_more; [cbn; lia|vm_compute; reflexivity|]. vm_compute. constructor.
      * vm_compute. reflexivity.
      * vm_compute. reflexivity.
  - left. split; apply first_case.
Qed.
End C.
