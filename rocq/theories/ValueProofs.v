(** The round trips of the value types, in terms of [value_decode] and [value_encode]. *)
From Coq Require Import String Ascii ZArith Bool List Lia.
From Verif Require Import Base Lib Utf8 GoTime Types SpecLines SpecContent SpecText SpecDuration
  NumProofs TextProofs DurationProofs BinaryProofs.
Import ListNotations.
Local Open Scope Z_scope.

Section Values.
Context {env : Env}.

Lemma v_text m x : utf8 x -> value_decode KText m (concat (value_encode (VText x))) = Ok (VText x).
Proof. intros U. cbn [value_decode value_encode]. rewrite (text_roundtrip x U). reflexivity. Qed.

Lemma v_mtext m l : l <> [] -> Forall utf8 l -> value_decode KMText m (concat (value_encode (VMText l))) = Ok (VMText l).
Proof.
  intros N U. destruct l as [|x xs]; [contradiction|]. cbn [value_decode value_encode].
  rewrite (mtext_roundtrip x xs U). reflexivity.
Qed.

Lemma v_text_safe x : value_valid (VText x) = None ->
  let out := concat (value_encode (VText x)) in
  Forall (fun c => 32 <= code c /\ code c <> 127 \/ code c = 9) out /\
  forall s, open_sep false (out ++ s) = open_sep false s.
Proof.
  intros V out. subst out. cbn [value_encode value_valid] in *. unfold text_encode. cbn [concat]. rewrite app_nil_r.
  destruct (text_bytes_safe x V) as [A B]. split; [|exact B].
  apply Forall_forall. intros c I. rewrite forallb_forall in A. specialize (A c I). unfold value_char in A. lia.
Qed.

Lemma v_text_exact m s :
  (open_sep false s = true -> value_decode KText m s = Err ErrInvalidText) /\
  (open_sep false s = false -> exists t, value_decode KText m s = Ok (VText t) /\ reads s t []).
Proof.
  destruct (text_decode_exact s) as [A B]. cbn [value_decode]. split; intros H.
  - rewrite (A H). reflexivity.
  - destruct (B H) as (t & D & R). exists t. rewrite D. split; [reflexivity|exact R].
Qed.

Lemma v_integer m i : - 2 ^ 31 <= i < 2 ^ 31 -> value_decode KInteger m (concat (value_encode (VInteger i))) = Ok (VInteger i).
Proof. intros H. cbn [value_decode value_encode]. rewrite (integer_roundtrip i H). reflexivity. Qed.

Lemma v_integer_range m s v : value_decode KInteger m s = Ok v -> exists i, v = VInteger i /\ - 2 ^ 31 <= i < 2 ^ 31.
Proof.
  cbn [value_decode]. destruct (integer_decode s) as [i| | |] eqn:D; try discriminate. cbn [rmap bind]. intros H.
  apply Ok_inj in H. exists i. split; [auto|]. apply (integer_range s i D).
Qed.

Lemma v_boolean m b : value_decode KBoolean m (concat (value_encode (VBoolean b))) = Ok (VBoolean b).
Proof. cbn [value_decode value_encode]. rewrite boolean_roundtrip. reflexivity. Qed.

Lemma v_boolean_exact m s b : value_decode KBoolean m s = Ok (VBoolean b) <->
  In s (if b then [bs "1"; bs "t"; bs "T"; bs "true"; bs "TRUE"; bs "True"]
             else [bs "0"; bs "f"; bs "F"; bs "false"; bs "FALSE"; bs "False"]).
Proof.
  rewrite <- boolean_exact. cbn [value_decode]. destruct (boolean_decode s) as [x| | |]; cbn [rmap bind]; split; intros H; try discriminate.
  - apply Ok_inj in H. injection H as ->. reflexivity.
  - apply Ok_inj in H. subst. reflexivity.
Qed.

Lemma v_duration m d : dur_fits d -> dur_plain d -> value_decode KDuration m (concat (value_encode (VDuration d))) = Ok (VDuration d).
Proof. intros F P. cbn [value_decode value_encode]. rewrite (duration_roundtrip d F P). reflexivity. Qed.

Lemma v_duration_weeks m d : dur_fits d -> ~ dur_plain d ->
  value_valid (VDuration d) = None /\
  value_decode KDuration m (concat (value_encode (VDuration d))) = Ok (VDuration (Duration (d_neg d) (d_weeks d) 0 0 0 0)) /\
  Duration (d_neg d) (d_weeks d) 0 0 0 0 <> d.
Proof.
  intros F P. split; [reflexivity|]. split.
  - cbn [value_decode value_encode]. rewrite (duration_weeks_only d F); [reflexivity|]. unfold dur_plain in P. lia.
  - intros E. apply P. unfold dur_plain. right. destruct d. cbn in *. injection E as <- <- <- <-. auto.
Qed.

Lemma v_duration_decoded m s v : value_decode KDuration m s = Ok v ->
  exists d, v = VDuration d /\ dur_fits d /\ dur_plain d.
Proof.
  cbn [value_decode]. destruct (duration_decode s) as [d| | |] eqn:D; try discriminate. cbn [rmap bind]. intros H.
  apply Ok_inj in H. exists d. split; [auto|]. apply (duration_decoded s d D).
Qed.

Lemma v_duration_accepts m t neg w d h mi s : dur_value t neg w d h mi s ->
  w < 2 ^ 64 -> d < 2 ^ 64 -> h < 2 ^ 64 -> mi < 2 ^ 64 -> s < 2 ^ 64 ->
  value_decode KDuration m t = Ok (VDuration (Duration neg w d h mi s)).
Proof. intros. cbn [value_decode]. rewrite (duration_accepts t neg w d h mi s); auto. Qed.

Lemma v_offset m u : - 360000 < u < 360000 -> value_decode KUTCOffset m (concat (value_encode (VUTCOffset u))) = Ok (VUTCOffset u).
Proof. intros H. cbn [value_decode value_encode]. rewrite (utcoffset_roundtrip u H). reflexivity. Qed.

Lemma v_offset_range m s v : value_decode KUTCOffset m s = Ok v -> exists u, v = VUTCOffset u /\ - 360000 < u < 360000.
Proof.
  cbn [value_decode]. destruct (utcoffset_decode s) as [u| | |] eqn:D; try discriminate. cbn [rmap bind]. intros H.
  apply Ok_inj in H. exists u. split; [auto|]. apply (utcoffset_range s u D).
Qed.

Lemma v_offset_lost m u : ~ (- 360000 < u < 360000) ->
  value_valid (VUTCOffset u) = None /\ value_decode KUTCOffset m (concat (value_encode (VUTCOffset u))) <> Ok (VUTCOffset u).
Proof.
  intros H. split; [reflexivity|]. intros D. apply v_offset_range in D as (u' & E & R). injection E as <-. exact (H R).
Qed.

Lemma v_binary m b : pmap_get m (bs "ENCODING") = Some (bs "BASE64") ->
  value_decode KBinary m (concat (value_encode (VBinary b))) = Ok (VBinary b).
Proof. intros H. cbn [value_decode value_encode]. rewrite (binary_roundtrip m b H). reflexivity. Qed.

Lemma v_binary_needs m s : pmap_get m (bs "ENCODING") <> Some (bs "BASE64") -> value_decode KBinary m s = Err ErrInvalidEncoding.
Proof.
  intros H. cbn [value_decode]. unfold binary_decode. destruct (pmap_get m (bs "ENCODING")) as [e|]; [|reflexivity].
  destruct (beq e (bs "BASE64")) eqn:E; [|reflexivity]. apply beq_eq in E. subst e. contradiction.
Qed.

(** Concrete cases. *)
Lemma text_case : utf8 (bs "a\,b;" ++ [LF] ++ bs "c" ++ encode_rune 8364) /\
  value_valid (VText (bs "a\,b;" ++ [LF] ++ bs "c" ++ encode_rune 8364)) = None.
Proof.
  split; [|vm_compute; reflexivity].
  exists [97; 92; 44; 98; 59; 10; 99; 8364]. split; [|vm_compute; reflexivity].
  repeat constructor.
Qed.
End Values.
