(** The calls that a writer gets from Encode: none is empty, and none has more than a line. *)
From Coq Require Import String Ascii ZArith Bool List Lia.
From Verif Require Import Base Lib Utf8 Utf8Proofs GoStrings Tokeniser SpecContent NumProofs TextProofs BinaryProofs GoTime Types Params ParamTable PropTable Props SecTable Sections Folder Unfolder Codec SpecLines FolderProofs UnfolderProofs SpecTree SpecRules EncodeProofs SpecParams ParamProofs SpecProps PropProofs HangProofs SpecCal CalProofs EncodableProofs SpecValid ValidProofs RoundProofs SpecRfc SpecOut Folder Codec SpecLines FolderProofs EncodeProofs OutProofs SpecCalls.
Import ListNotations.
Local Open Scope Z_scope.

Section Filled.
Context {W E : Type} (wr : W -> bytes -> W * option E).
Definition filled (log : list (bytes * option E)) : Prop := Forall (fun c => fst c <> []) log.
Lemma filled_add log q e : filled log -> q <> [] -> filled (log ++ [(q, e)]).
Proof. intros F Q. apply Forall_app. split; [exact F|]. constructor; [exact Q|constructor]. Qed.
Lemma loop_filled : forall fuel line pre rest w log, filled log -> filled (snd (fst (fst (folder_loop (logging wr) fuel line pre rest (w, log))))).
Proof.
  induction fuel as [|fuel IH]; intros line pre rest w log F; [exact F|]. cbn [folder_loop]. destruct rest as [|c l].
  - destruct pre as [|b pre]; [exact F|]. unfold logging. cbn [fst snd]. destruct (wr w (b :: pre)) as [w' e]. cbn [fst snd]. apply filled_add; [exact F|discriminate].
  - destruct (decode_rune (c :: l)) as [r s]. destruct (r =? 10); [apply IH, F|]. destruct (r =? 13); [apply IH, F|]. destruct (maxLineLength <? _); [|apply IH, F].
    destruct pre as [|b pre].
    + unfold logging at 1. cbn [fst snd]. destruct (wr w eol) as [w' [e|]]; [|apply IH]; cbn [fst snd]; apply filled_add; try exact F; discriminate.
    + unfold logging at 1. cbn [fst snd]. destruct (wr w (b :: pre)) as [w' [e|]]; [cbn [fst snd]; apply filled_add; [exact F|discriminate]|].
      unfold logging at 1. cbn [fst snd]. destruct (wr w' eol) as [w'' [e|]]; [|apply IH]; cbn [fst snd]; apply filled_add; try discriminate; apply filled_add; try exact F; discriminate.
Qed.
Lemma writes_filled : forall qs f w log, filled log -> filled (snd (snd (folder_writes (logging wr) (f, (w, log)) qs))).
Proof.
  unfold folder_writes. induction qs as [|q qs IH]; intros f w log F; [exact F|]. cbn [fold_left]. unfold folder_write at 2. destruct (f_err f); [apply IH, F|].
  pose proof (loop_filled (S (length q)) (f_line f) [] q w log F) as L. destruct (folder_loop _ _ _ _ _ _) as [[[w' log'] e] k]. apply IH, L.
Qed.
Lemma filled_bytes log : filled log -> (length log <= length (concat (map fst log)))%nat.
Proof. induction 1 as [|[q e] log Q F IH]; [reflexivity|]. cbn [map concat fst]. rewrite app_length. destruct q; [destruct Q; reflexivity|]. cbn [length]. lia. Qed.
End Filled.

Section Calls.
Context {env : Env}.
Definition log_of {W E} (r : enc_result (W := W * list (bytes * option E)) (E := E)) : list (bytes * option E) :=
  match r with EncInvalid _ w => snd w | EncHang w => snd w | EncDone _ w => snd w end.
Theorem encode_filled {W E} (wr : W -> bytes -> W * option E) w cal :
  Forall (fun q => q <> []) (calls (Encode (logging wr) (w, []) cal)) /\
  (length (calls (Encode (logging wr) (w, []) cal)) <= length (concat (calls (Encode (logging wr) (w, []) cal))))%nat.
Proof.
  assert (F : filled (log_of (Encode (logging wr) (w, []) cal))).
  { unfold Encode. destruct (sec_valid cal); [constructor|]. rewrite run_trace_spec. cbv zeta. assert (X := writes_filled wr (pieces (sec_encode cal)) new_folder w [] ltac:(constructor)).
    destruct (hangs _); exact X. }
  split; [|unfold calls; rewrite map_length; apply filled_bytes, F]. unfold calls. apply Forall_map, F.
Qed.

(** ** What the encoders write ends where a line ends *)
Definition ev_last (e : wev) : Prop := match e with Wr b => break_last b | Hang => True end.
Lemma plain_last b : OutProofs.clean b -> break_last b.
Proof.
  intros C. exists b. split; [left; reflexivity|]. apply Forall_forall. intros c I. rewrite forallb_forall in C. specialize (C c I). split; intros ->; discriminate C.
Qed.
Lemma line_last b : OutProofs.clean b -> break_last (b ++ CRLF).
Proof. intros C. destruct (plain_last b C) as (l & [-> | Q] & F); [exists l; auto|exfalso]. rewrite Q, forallb_app, andb_true_iff in C. destruct C as [_ C]. discriminate C. Qed.
Lemma vis_last tr : vis tr -> Forall ev_last tr.
Proof. unfold vis. rewrite forallb_forall. intros V. apply Forall_forall. intros [b|] I; [|exact Logic.I]. apply plain_last, (V _ I). Qed.
Lemma crlf_last : break_last CRLF.
Proof. exists []. split; [right; reflexivity|constructor]. Qed.
Lemma prop_last pid p : prop_typed pid p -> prop_ok pid p -> prop_clean pid p -> Forall ev_last (prop_encode pid p).
Proof.
  unfold prop_typed, prop_ok, prop_clean, prop_encode. pose proof (prop_table pid) as T. unfold mode_clean in T. destruct (prop_spec pid) as [key k]. cbn [fst snd] in *.
  apply andb_true_iff in T as [TK T].
  destruct k as [ps vs|ws|k], p as [l vl|n|v]; intros TY OK CL; try contradiction.
  - destruct TY as (TP & TV & T1), OK as (OP & OV & O1), CL as (CP & CV). apply andb_true_iff in T as [TN TW].
    assert (ONE : one_set vl).
    { destruct vs as [|t [|t' vs]]; [discriminate| |apply O1; cbn [length]; lia]. inversion TV as [|? o ? vl' _ TV']; subst. inversion TV'; subst. destruct o as [v|]; [|destruct (T1 eq_refl); left; reflexivity]. exists [], v, []. repeat split; constructor. }
    destruct (one_value vs vl TV true ONE) as (w & v & IW & IV & EV). destruct (params_vis ps l OP CP) as [PV PT]. destruct (clean_avalue v) as [VC VS]; [apply value_valid_iff, OV, IV|apply CV, IV|].
    assert (VAL : vis (values_encode true vs vl)).
    { destruct EV as [->| ->]; [apply vis_wrs, VC|]. apply vis_cons; [|apply vis_wrs, VC].
      apply in_map_iff in IW as (t & <- & IW). rewrite forallb_forall in TW. specialize (TW t IW). cbv beta in TW. apply clean_app; [reflexivity|exact TW]. }
    constructor; [apply plain_last, TK|]. apply Forall_app. split; [apply vis_last, PV|]. apply Forall_app. split; [apply vis_last, VAL|]. constructor; [exact crlf_last|constructor].
  - unfold Utf8.in_range. replace ((0 <=? n) && (n <=? Z.of_nat (length ws) - 1)) with true by lia.
    constructor; [apply plain_last, clean_app; [exact TK|reflexivity]|]. constructor; [|constructor; [exact crlf_last|constructor]].
    apply plain_last. rewrite forallb_forall in T. apply T, nth_In. lia.
  - destruct (clean_avalue v) as [VC VS]; [apply value_valid_iff, OK|exact CL|].
    constructor; [apply plain_last, TK|]. apply Forall_app. split; [apply vis_last, vis_wrs, VC|]. constructor; [exact crlf_last|constructor].
Qed.
Lemma comp_last id : break_last (begin_line (sp_name (sec_spec id))) /\ break_last (end_line (sp_name (sec_spec id))).
Proof. destruct id; split; unfold begin_line, end_line; rewrite app_assoc; apply line_last; reflexivity. Qed.
Lemma action_last w sid : action_is w sid -> break_last (bs "ACTION:" ++ alarm_word sid ++ CRLF).
Proof. intros A. unfold action_is in A. rewrite app_assoc. apply line_last. repeat destruct A as [A|A]; try (injection A as <- <-; reflexivity). destruct A. Qed.
Lemma cal_last cal : cal_typed cal -> cal_ok cal -> cal_clean cal -> Forall ev_last (sec_encode cal).
Proof.
  induction cal as [id fs IH] using sec_induct. intros T [OK NA] C. rewrite sec_encode_eq. inversion T as [? ? LEN F]; subst.
  apply Forall_app. split; [destruct (sp_own _); constructor; [apply comp_last|constructor]|]. apply Forall_app. split; [|destruct (sp_own _); constructor; [apply comp_last|constructor]].
  apply Forall_forall. intros e I. apply in_flat_map in I as (vs & I & J). apply in_flat_map in J as (v & J & K). revert e K. apply Forall_forall.
  assert (TV : exists t, fval_typed t v).
  { destruct (In_nth_error _ _ I) as (i & N). destruct (nth_error (fields_of id) i) as [fd|] eqn:FD.
    - destruct (F i fd vs FD N) as [_ FT]. rewrite Forall_forall in FT. eauto.
    - exfalso. apply nth_error_None in FD. assert (X : nth_error fs i <> None) by congruence. apply nth_error_Some in X. unfold fields_of in *. lia. }
  assert (SUB : forall x, v = FVSec x \/ v = FVAlarm (Some x) -> cal_typed x -> Forall ev_last (sec_encode x)).
  { intros x V TX. assert (JJ : In (FVSec x) vs \/ In (FVAlarm (Some x)) vs) by (destruct V as [-> | ->]; auto). apply (IH vs x I JJ TX).
    - split; [intros pid p H; apply OK, has_prop_eq; right; eauto|]. intros y ws P. apply NA. destruct JJ as [JJ|JJ]; [eapply Part_sec|eapply Part_alarm]; eauto.
    - intros pid p H. apply C, has_prop_eq. right. eauto. }
  destruct TV as (t & TV). inversion TV as [pid p GP T1 T2|sid gs GC T1 T2|w sid gs A GC T1 T2|T1 T2]; subst.
  - assert (H : has_prop (Sec id fs) pid p) by (apply has_prop_eq; left; eauto). apply prop_last; [exact GP|apply OK, H|apply C, H].
  - exact (SUB (Sec sid gs) (or_introl eq_refl) GC).
  - change (fval_encode (FVAlarm (Some (Sec sid gs)))) with ([Wr (begin_line (bs "VALARM")); Wr (bs "ACTION:" ++ alarm_word sid ++ CRLF)] ++ sec_encode (Sec sid gs) ++ [Wr (end_line (bs "VALARM"))]).
    apply Forall_app. split; [|apply Forall_app; split; [exact (SUB (Sec sid gs) (or_intror eq_refl) GC)|]].
    + constructor; [apply (line_last (bs "BEGIN:VALARM")); reflexivity|]. constructor; [apply (action_last w), A|constructor].
    + constructor; [apply (line_last (bs "END:VALARM")); reflexivity|constructor].
  - destruct (NA (Sec id fs) vs (Part_self _) I J).
Qed.
Lemma pieces_last tr : Forall ev_last tr -> Forall break_last (pieces tr).
Proof. induction 1 as [|[b|] tr B F IH]; constructor; assumption. Qed.

(** ** How long the calls are *)
Lemma code_plain b : b <> CR /\ b <> LF -> code b <> 13 /\ code b <> 10.
Proof. intros [A B]. split; intros H; [apply A|apply B]; apply code_inj; exact H. Qed.
Lemma prefix_plain s a t : (t = [] \/ t = CRLF) -> (s <= length (a ++ t))%nat -> Forall (fun b => code b <> 13 /\ code b <> 10) (firstn s (a ++ t)) -> (s <= length a)%nat.
Proof.
  intros [-> | ->]; [rewrite app_nil_r; auto|]. intros L F. destruct (le_lt_dec s (length a)) as [|G]; [assumption|exfalso].
  rewrite firstn_app in F. apply Forall_app in F as [_ F]. destruct (s - length a)%nat as [|k] eqn:K; [lia|]. cbn [CRLF firstn] in F. inversion F as [|? ? [X _] _]; subst. apply X. reflexivity.
Qed.
Definition short (q : bytes) : Prop := one_line_call q.
Lemma loop_short : forall fuel line pre a t (w : list bytes), (length (a ++ t) < fuel)%nat -> (t = [] \/ t = CRLF) -> Forall (fun b => b <> CR /\ b <> LF) (pre ++ a) ->
  Z.of_nat (length pre) <= line <= 75 -> Forall short w ->
  let '(w', e, line') := folder_loop ok_writer fuel line pre (a ++ t) w in Forall short w' /\ 0 <= line' <= 75.
Proof.
  induction fuel as [|fuel IH]; intros line pre a t w L T P B S; [lia|]. cbn [folder_loop].
  assert (PRE : Forall (fun b => b <> CR /\ b <> LF) pre) by (apply Forall_app in P; tauto).
  assert (SP0 : pre <> [] -> short pre).
  { intros _. right. split; [exists pre; auto|]. split; [lia|]. intros _. lia. }
  destruct a as [|c a'].
  - destruct T as [-> | ->]; cbn [app].
    + destruct pre as [|b pre]; [split; [exact S|lia]|]. unfold ok_writer. split; [|lia]. apply Forall_app. split; [exact S|]. constructor; [apply SP0; discriminate|constructor].
    + change (decode_rune CRLF) with (13, 1%nat). change (CRLF) with [CR; LF]. cbn [firstn skipn]. change (13 =? 10) with false. change (13 =? 13) with true. cbv iota.
      destruct fuel as [|fuel]; [cbn in L; lia|]. cbn [folder_loop]. change (decode_rune [LF]) with (10, 1%nat). cbn [firstn skipn]. change (10 =? 10) with true. cbv iota.
      destruct fuel as [|fuel]; [cbn in L; lia|]. cbn [folder_loop]. rewrite <- app_assoc. destruct (pre ++ [CR] ++ [LF]) as [|b q] eqn:Q; [destruct pre; discriminate Q|]. unfold ok_writer. split; [|lia].
      apply Forall_app. split; [exact S|]. constructor; [|constructor]. rewrite <- Q. right. split; [exists pre; auto|]. split.
      * rewrite app_length. cbn [app length]. lia.
      * intros N. destruct (N pre). reflexivity.
  - pose proof (rune_cases c (a' ++ t)) as R. pose proof (decode_rune_width c (a' ++ t)) as WD. change ((c :: a') ++ t) with (c :: a' ++ t). destruct (decode_rune (c :: a' ++ t)) as [r s]. destruct WD as [W1 W2].
    assert (PC : c <> CR /\ c <> LF) by (apply Forall_app in P as [_ P]; inversion P; assumption).
    destruct R as [(X & _)|[(X & _)|(R1 & R2 & FP & SW)]]; [destruct (proj2 PC X)|destruct (proj1 PC X)|].
    rewrite (proj2 (Z.eqb_neq _ _) R1), (proj2 (Z.eqb_neq _ _) R2).
    assert (SL : (s <= length (c :: a'))%nat) by (apply (prefix_plain s (c :: a') t T); [exact W2|exact FP]).
    assert (F1 : firstn s (c :: a' ++ t) = firstn s (c :: a')). { change (c :: a' ++ t) with ((c :: a') ++ t). rewrite firstn_app. replace (s - length (c :: a'))%nat with 0%nat by lia. cbn [firstn]. apply app_nil_r. }
    assert (F2 : skipn s (c :: a' ++ t) = skipn s (c :: a') ++ t). { change (c :: a' ++ t) with ((c :: a') ++ t). rewrite skipn_app. replace (s - length (c :: a'))%nat with 0%nat by lia. reflexivity. }
    rewrite F1, F2. assert (FL : length (firstn s (c :: a')) = s) by (apply firstn_length_le; exact SL).
    assert (LEN : (length (skipn s (c :: a') ++ t) < fuel)%nat). { rewrite app_length, skipn_length. rewrite app_length in L. lia. }
    assert (PP : Forall (fun b => b <> CR /\ b <> LF) (firstn s (c :: a') ++ skipn s (c :: a'))) by (rewrite firstn_skipn; apply Forall_app in P; tauto).
    assert (PN : Forall (fun b => b <> CR /\ b <> LF) ((pre ++ firstn s (c :: a')) ++ skipn s (c :: a'))) by (rewrite <- app_assoc; apply Forall_app; split; assumption).
    rewrite (Z.mod_small (line + Z.of_nat s)) by lia. rewrite (Z.mod_small (Z.of_nat s + 1)) by lia. destruct (maxLineLength <? line + Z.of_nat s) eqn:M; unfold maxLineLength in M.
    + assert (SE : short eol) by (left; reflexivity). destruct pre as [|b pre]; unfold ok_writer at 1.
      * apply IH; try assumption; [lia|]. apply Forall_app. split; [exact S|]. constructor; [exact SE|constructor].
      * unfold ok_writer at 1. apply IH; try assumption; [lia|]. apply Forall_app. split; [apply Forall_app; split; [exact S|constructor; [apply SP0; discriminate|constructor]]|]. constructor; [exact SE|constructor].
    + apply Z.ltb_ge in M. apply IH; try assumption. rewrite app_length, FL. lia.
Qed.
Lemma writes_short : forall qs line (w : list bytes), Forall break_last qs -> 0 <= line <= 75 -> Forall short w -> Forall short (snd (folder_writes ok_writer (Folder None line, w) qs)).
Proof.
  unfold folder_writes. induction qs as [|q qs IH]; intros line w Q B S; [exact S|]. cbn [fold_left]. unfold folder_write at 2. cbn [f_err f_line]. inversion Q as [|? ? (l & QQ & P) Q']; subst.
  assert (X : exists t, (t = [] \/ t = CRLF) /\ q = l ++ t) by (destruct QQ as [-> | ->]; [exists []; rewrite app_nil_r|exists CRLF]; auto). destruct X as (t & T & ->).
  destruct (folder_loop_ok (Datatypes.S (length (l ++ t))) line [] (l ++ t) w ltac:(lia)) as (new & EQ & _).
  pose proof (loop_short (Datatypes.S (length (l ++ t))) line [] l t w ltac:(lia) T P ltac:(cbn; lia) S) as X. rewrite EQ in *. destruct X as [X1 X2]. apply IH; assumption.
Qed.
Theorem encode_short {W E} (wr : W -> bytes -> W * option E) w cal : cal_typed cal -> cal_clean cal ->
  Forall one_line_call (calls (Encode (logging wr) (w, []) cal)).
Proof.
  intros T C. pose proof (encode_failing wr w cal) as F. unfold calls.
  assert (ALL : forall full, (exists e, Encode ok_writer [] cal = EncDone e full) \/ Encode ok_writer [] cal = EncHang full -> Forall one_line_call full).
  { intros full H. assert (OK : cal_ok cal) by (apply (proj2 (encode_refuses ok_writer [] cal)); intros e' w' Q; destruct H as [(? & H)|H]; congruence).
    assert (X := writes_short (pieces (sec_encode cal)) 0 [] (pieces_last _ (cal_last cal T OK C)) ltac:(lia) ltac:(constructor)).
    unfold Encode in H. destruct (sec_valid cal); [destruct H as [(? & H)|H]; discriminate H|]. rewrite run_trace_spec in H. cbv zeta in H. unfold new_folder in H.
    destruct (hangs _); destruct H as [(? & H)|H]; try discriminate H; injection H; intros; subst; exact X. }
  destruct (Encode (logging wr) (w, []) cal) as [e [w' log]|[w' log]|e [w' log]]; cbn [snd].
  - destruct F as (_ & _ & ->). constructor.
  - destruct F as (full & H & rest & ->). specialize (ALL _ (or_intror H)). apply Forall_app in ALL. apply ALL.
  - destruct F as (full & H & F). specialize (ALL full (or_introl (ex_intro _ None H))). destruct e as [err|].
    + destruct F as (i & q & rest & _ & _ & ->). apply Forall_app in ALL. apply ALL.
    + destruct F as [F _]. rewrite F. exact ALL.
Qed.
End Calls.
