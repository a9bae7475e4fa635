(** What Encode writes for a calendar that was read. *)
From Coq Require Import String Ascii ZArith Bool List Lia.
From Verif Require Import Base Lib Utf8 Utf8Proofs GoStrings Strtok Tokeniser SpecContent TokeniserProofs DecodeProofs GoTime Types Params ParamTable PropTable Props SecTable Sections Codec SpecText TextProofs SpecDuration DurationProofs SpecTime TimeProofs DateProofs SpecRecur RecurProofs ValueProofs SpecTree TreeProofs ExactProofs SpecRules SpecParams ParamProofs SpecProps PropProofs HangProofs GroupProofs SpecCal CalProofs EncodableProofs SpecOut DecodedProofs SpecKeep KeepProofs Folder Unfolder SpecRfc SpecOut SpecWrite SpecWritten WrittenProofs.
Import ListNotations.
Local Open Scope Z_scope.

Section D.
Context {env : Env}.
Lemma moment_years id m s t : datetime_decode id m s = Ok t -> (t_loc t <> LUTC -> in_years t) -> in_years t.
Proof.
  intros D H. apply datetime_decode_inv in D as [R _]. destruct (t_loc t) eqn:L; [apply (utc_clock s t R L)| |]; apply H; congruence.
Qed.
Lemma date_years s t : date_decode s = Ok t -> in_years t.
Proof. intros D. destruct (date_good _ _ D) as [(x & -> & X) _]. unfold in_years, wall. change (offset_at (t_loc (Time x 0 LUTC)) (t_sec (Time x 0 LUTC))) with 0. change (t_sec (Time x 0 LUTC)) with x. lia. Qed.
Lemma value_read_writable k m d v : value_decode k m d = Ok v -> utf8 d -> (forall t, In t (value_times v) -> t_loc t <> LUTC -> in_years t) -> value_writable v.
Proof.
  intros D U Y. destruct k; pose proof D as D'; cbn [value_decode] in D; unfold rmap in D; apply bind_ok in D as (x & D & E); apply Ok_inj in E; subst v; cbn [value_writable value_times] in *; auto.
  - eapply date_years, D.
  - eapply moment_years; [exact D|]. apply Y. left. reflexivity.
  - eapply duration_decoded, D.
  - apply period_decoded in D as (a & b & _ & D1 & D2). split; [eapply moment_years; [exact D1|apply Y; left; reflexivity]|].
    destruct D2 as [[D2 Z]|(D2 & Z & NG)].
    + split; [intros _; rewrite Z; unfold dur_fits; cbn; repeat split; lia|]. intros _. eapply moment_years; [exact D2|]. apply Y. right. left. reflexivity.
    + split; [intros _; eapply duration_decoded, D2|]. intros N. destruct N. rewrite Z. split; reflexivity.
  - destruct (v_recur_decoded _ _ _ D') as (y & E & R & _). injection E as <-. split.
    + clear - R. unfold recur_in_range in R. unfold recur_typed, within, within_signed in *.
      destruct R as (R1 & R2 & R3 & R4 & R5 & R6 & R7 & R8 & R9 & R10 & R11 & R12 & R13 & R14). repeat split; try lia; auto;
        (eapply Forall_impl; [|eassumption]); cbv beta; intros; lia.
    + intros _ N. apply recur_until in D as [[Q _]|[[_ (t & D)]|[_ (t & D)]]].
      * destruct N. rewrite Q. split; reflexivity.
      * eapply moment_years; [exact D|]. apply Y. left. reflexivity.
      * eapply date_years, D.
  - eapply text_utf8; eauto.
  - unfold mtext_decode in D. destruct (mtext_loop_utf8 _ _ _ _ _ U (Nat.lt_succ_diag_r _) (Forall_nil _) D) as [A B]. exact A.
  - destruct (v_offset_range _ _ _ D') as (y & E & F). injection E as <-. lia.
Qed.
Lemma prop_read_writable pid l p : utf8 (cl_value l) -> prop_decode pid (params_tokens (cl_params l)) (cl_value l) = Ok p ->
  (forall v t, prop_value p v -> In t (value_times v) -> t_loc t <> LUTC -> in_years t) -> prop_writable p.
Proof.
  intros U D Y. destruct (snd (prop_spec pid)) as [ps vs|ws|k] eqn:E.
  - destruct (struct_read _ _ _ _ _ _ E D) as (lp & a & w & k & b & v & -> & F2 & (EV & _) & K & m & DV). cbn [prop_writable]. intros v0 I.
    pose proof (Y v0) as Y0. cbn [prop_value] in Y0. specialize (fun t => Y0 t I).
    apply in_app_iff in I as [I|[I|I]]; [destruct (in_none _ _ I)| |destruct (in_none _ _ I)]. injection I as <-. eapply value_read_writable; eauto.
  - unfold prop_decode in D. rewrite E in D. destruct (index_of _ ws) as [n|] eqn:IX; [|discriminate]. apply Ok_inj in D. subst p. exact Logic.I.
  - unfold prop_decode in D. rewrite E in D. apply bind_ok in D as (v & DV & D). apply Ok_inj in D. subst p. cbn [prop_writable]. eapply value_read_writable; eauto. intros t. apply (Y v t). reflexivity.
Qed.
Theorem decoded_writable s cal : decode_bytes s = Ok cal -> utf8 s -> cal_years cal -> cal_writable cal.
Proof.
  intros D U Y pid p P. apply decode_bytes_exact in D as (b & items & e & tail & _ & _ & M & _ & _ & W & -> & _).
  pose proof (lines_values _ [] _ U) as L. inversion L as [|? ? _ L']; subst. inversion W as [|? ? _ W']; subst. apply Forall_app in W' as [W' _].
  destruct (prop_line (fun l => cline_wf l = true /\ utf8 (cl_value l)) _ _ _ pid p M) as (l & [Wl Ul] & PD); [|exact P|].
  - unfold lines_all. rewrite Forall_forall in *. auto.
  - eapply prop_read_writable; eauto. 
Qed.
Theorem decoded_written s cal e out x : urls_clean -> zones_clean -> decode_bytes s = Ok cal -> utf8 s -> cal_years cal -> Encode ok_writer [] cal = EncDone e out ->
  (cal_says cal x <-> x = unfold (concat out)).
Proof.
  intros UC ZC D U Y. apply cal_written; [eapply decoded_calendar, D|eapply decoded_typed, D|eapply decoded_clean; eauto|eapply decoded_writable; eauto].
Qed.
End D.
