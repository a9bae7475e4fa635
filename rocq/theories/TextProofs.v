(** Text and text lists. *)
From Coq Require Import String Ascii ZArith Bool List Lia ZifyBool.
From Verif Require Import Base Lib Utf8 Utf8Proofs GoStrings Strtok Tokeniser GoTime Types SpecText SpecContent TokeniserProofs.
Import ListNotations.
Local Open Scope Z_scope.

Definition plain (c : byte) : bool := negb (is_sep c) && negb (is_bsl c).

Lemma text_set c : negb (inset c (bs "\,;")) = plain c.
Proof. revert c. apply (byte_eq (fun c => negb (inset c (bs "\,;"))) plain). vm_compute. reflexivity. Qed.

Lemma decode_text_S f d s : decode_text (S f) d (Tok [] s) =
  let (a, r) := span plain s in
  match r with
  | [] => Ok (d ++ a, Tok [] [])
  | c :: r' =>
    if is_bsl c then
      let '(x, t) := next (Tok [c] r') in
      decode_text f (d ++ a ++
          match x with
          | Some r =>
            if r =? 92 then bs "\"
            else if r =? 59 then bs ";"
            else if r =? 44 then bs ","
            else if (r =? 78) || (r =? 110) then [LF]
            else bs "\" ++ encode_rune r
          | None => bs "\" ++ encode_rune (-1)
          end) (Tok [] (trest t))
    else Ok (d ++ a, Tok [] (c :: r'))
  end.
Proof.
  cbn [decode_text]. rewrite (except_run_spec _ plain) by apply text_set. cbn [get tbuf trest app].
  destruct (span plain s) as [a r]. cbn [fst snd].
  destruct r as [|c r']; cbn [pk]; [reflexivity|]. change (beqc c "\") with (is_bsl c).
  destruct (is_bsl c) eqn:B; [|reflexivity].
  apply beqc_eq in B. subst c. rewrite accept_hit by reflexivity. cbn [app].
  destruct (next _) as [x t]. cbn [get]. rewrite app_assoc. reflexivity.
Qed.

Lemma decode_text_plain f d c s : plain c = true ->
  decode_text (S f) d (Tok [] (c :: s)) = decode_text (S f) (d ++ [c]) (Tok [] s).
Proof.
  intros P. rewrite !decode_text_S. cbn [span]. rewrite P. destruct (span plain s) as [a r].
  rewrite <- !app_assoc. cbn [app]. destruct r as [|c' r']; [reflexivity|].
  destruct (is_bsl c'); [|reflexivity]. destruct (next _) as [x t]. rewrite <- app_assoc. reflexivity.
Qed.

Lemma decode_text_escape f d s :
  decode_text (S f) d (Tok [] ("\"%char :: s)) =
  let '(x, t) := next (Tok ["\"%char] s) in
      decode_text f (d ++
          match x with
          | Some r =>
            if r =? 92 then bs "\"
            else if r =? 59 then bs ";"
            else if r =? 44 then bs ","
            else if (r =? 78) || (r =? 110) then [LF]
            else bs "\" ++ encode_rune r
          | None => bs "\" ++ encode_rune (-1)
          end) (Tok [] (trest t)).
Proof. rewrite decode_text_S. cbn [span plain]. reflexivity. Qed.

Lemma next_ascii b c s : code c < 128 -> next (Tok b (c :: s)) = (Some (code c), Tok (b ++ [c]) s).
Proof. intros H. unfold next. cbn [trest tbuf]. rewrite decode_rune_ascii by exact H. reflexivity. Qed.

Lemma decode_text_reads s t rest : reads s t rest -> forall fuel d, (length s < fuel)%nat ->
  decode_text fuel d (Tok [] s) = Ok (d ++ t, Tok [] rest).
Proof.
  induction 1; intros fuel d F; (destruct fuel as [|fuel]; [cbn [length] in F; lia|]).
  - rewrite decode_text_S. reflexivity.
  - rewrite decode_text_S. cbn [span]. unfold plain. rewrite H. cbn [negb andb].
    replace (is_bsl c) with false; [rewrite app_nil_r; reflexivity|].
    pose proof (byte_forall (fun c => implb (is_sep c) (negb (is_bsl c))) ltac:(vm_compute; reflexivity) c) as B.
    cbv beta in B. rewrite H in B. destruct (is_bsl c); [discriminate|reflexivity].
  - rewrite decode_text_plain by (unfold plain; rewrite H, H0; reflexivity).
    cbn [length] in F. rewrite IHreads by lia. rewrite <- app_assoc. reflexivity.
  - rewrite decode_text_escape. cbn [length] in F.
    assert (C : e = ","%char \/ e = ";"%char \/ e = "\"%char).
    { unfold is_sep, is_bsl in H. rewrite orb_true_iff, !beqc_eq in H. tauto. }
    rewrite next_ascii by (destruct C as [ -> | [ -> | -> ]]; vm_compute; reflexivity). cbn [trest].
    rewrite IHreads by lia. rewrite <- app_assoc. destruct C as [ -> | [ -> | -> ]]; reflexivity.
  - rewrite decode_text_escape. cbn [length] in F.
    rewrite next_ascii by (destruct H as [ -> | -> ]; vm_compute; reflexivity). cbn [trest].
    rewrite IHreads by lia. rewrite <- app_assoc. destruct H as [ -> | -> ]; reflexivity.
  - rewrite decode_text_escape. cbn [length] in F. unfold next. cbn [trest].
    pose proof (decode_rune_width c s) as W. pose proof (decode_rune_high c s) as HI. pose proof (decode_rune_ascii c s) as LO.
    destruct (decode_rune (c :: s)) as [r w] eqn:D. cbn [fst snd trest] in *.
    rewrite IHreads.
    + assert (NR : (r =? 92) = false /\ (r =? 59) = false /\ (r =? 44) = false /\ (r =? 78) = false /\ (r =? 110) = false).
      { destruct (Z.lt_ge_cases (code c) 128) as [L|G].
        - injection (LO L) as -> ->.
          pose proof (byte_forall (fun c => implb (negb (is_sep c) && negb (is_bsl c) && negb (beqc c "n") && negb (beqc c "N"))
            (negb (code c =? 92) && negb (code c =? 59) && negb (code c =? 44) && negb (code c =? 78) && negb (code c =? 110))) ltac:(vm_compute; reflexivity) c) as B.
          cbv beta in B. apply beqc_neq in H1, H2. rewrite H, H0, H1, H2 in B. cbn [negb andb implb] in B. lia.
        - destruct (HI G) as [R _]. lia. }
      destruct NR as (-> & -> & -> & -> & ->). cbn [orb]. rewrite <- app_assoc. reflexivity.
    + rewrite skipn_length. cbn [length] in *. lia.
  - change (bs "\") with ["\"%char] in *. rewrite decode_text_escape. cbn [next trest]. cbn [length] in F.
    destruct fuel as [|fuel]; [lia|]. rewrite decode_text_S. cbn [span]. rewrite app_nil_r. reflexivity.
Qed.

Lemma reads_total n : forall s, (length s <= n)%nat -> exists t rest, reads s t rest.
Proof.
  induction n as [|n IH]; intros s L.
  - destruct s; [exists [], []; constructor|cbn [length] in L; lia].
  - destruct s as [|c s]; [exists [], []; constructor|]. cbn [length] in L.
    destruct (is_sep c) eqn:SE; [exists [], (c :: s); constructor; exact SE|].
    destruct (is_bsl c) eqn:B.
    + apply beqc_eq in B. subst c. destruct s as [|e s]; [eexists _, _; apply T_lone|]. cbn [length] in L.
      destruct (is_sep e || is_bsl e) eqn:E1.
      { destruct (IH s ltac:(lia)) as (t & rest & R). exists (e :: t), rest. apply T_escape; [|exact R].
        apply orb_true_iff in E1. exact E1. }
      apply orb_false_iff in E1 as [E1 E2].
      destruct (beqc e "n" || beqc e "N") eqn:E3.
      { destruct (IH s ltac:(lia)) as (t & rest & R). exists (LF :: t), rest. apply T_newline; [|exact R].
        rewrite orb_true_iff, !beqc_eq in E3. exact E3. }
      apply orb_false_iff in E3 as [E3 E4]. apply beqc_neq in E3, E4.
      pose proof (decode_rune_width e s) as W. destruct (decode_rune (e :: s)) as [r w] eqn:D.
      destruct (IH (skipn w (e :: s))) as (t & rest & R).
      { rewrite skipn_length. cbn [length] in *. lia. }
      eexists _, _. apply T_other; eauto. rewrite D. exact R.
    + destruct (IH s ltac:(lia)) as (t & rest & R). exists (c :: t), rest. constructor; auto.
Qed.

Lemma reads_rest s t rest : reads s t rest -> match rest with [] => True | c :: _ => is_sep c = true end.
Proof. induction 1; auto. Qed.

Lemma high_plain c : 128 <= code c -> is_sep c = false /\ is_bsl c = false.
Proof.
  intros H. pose proof (byte_forall (fun c => implb (128 <=? code c) (negb (is_sep c) && negb (is_bsl c))) ltac:(vm_compute; reflexivity) c) as B.
  cbv beta in B. destruct (is_sep c), (is_bsl c); cbn in B; auto; lia.
Qed.

Lemma open_sep_high a s : Forall (fun b => 128 <= code b) a -> open_sep false (a ++ s) = open_sep false s.
Proof.
  induction 1 as [|c a H _ IH]; [reflexivity|]. cbn [app open_sep]. destruct (high_plain c H) as [-> ->]. exact IH.
Qed.

Lemma open_sep_app_plain c s : is_sep c = false -> is_bsl c = false -> open_sep false (c :: s) = open_sep false s.
Proof. intros H1 H2. cbn [open_sep]. rewrite H1, H2. reflexivity. Qed.

Lemma sep_bsl e : is_sep e = true -> is_bsl e = false.
Proof.
  intros H. pose proof (byte_forall (fun c => implb (is_sep c) (negb (is_bsl c))) ltac:(vm_compute; reflexivity) e) as B.
  cbv beta in B. rewrite H in B. destruct (is_bsl e); [discriminate|reflexivity].
Qed.

(** What is left over is not empty exactly when there is an open separator. *)
Lemma reads_open s t rest : reads s t rest -> open_sep false s = negb (isnil rest).
Proof.
  induction 1.
  - reflexivity.
  - cbn [open_sep]. rewrite H. reflexivity.
  - rewrite open_sep_app_plain by assumption. exact IHreads.
  - exact IHreads.
  - exact IHreads.
  - rewrite <- IHreads. cbn [open_sep]. change (is_sep "\") with false. change (is_bsl "\") with true. cbn [orb].
    pose proof (decode_rune_width c s) as W. pose proof (decode_rune_high c s) as HI. pose proof (decode_rune_ascii c s) as LO.
    destruct (decode_rune (c :: s)) as [r w] eqn:D. cbn [snd] in *.
    destruct (Z.lt_ge_cases (code c) 128) as [L|G].
    + injection (LO L) as -> ->. reflexivity.
    + destruct (HI G) as [_ F]. rewrite <- (open_sep_high (firstn w (c :: s)) (skipn w (c :: s))) by exact F.
      rewrite firstn_skipn. symmetry. apply open_sep_app_plain; assumption.
  - reflexivity.
Qed.

Lemma text_decode_exact s :
  (open_sep false s = true -> text_decode s = Err ErrInvalidText) /\
  (open_sep false s = false -> exists t, text_decode s = Ok t /\ reads s t []).
Proof.
  destruct (reads_total (length s) s (le_n _)) as (t & rest & R).
  pose proof (reads_open s t rest R) as O. rewrite O.
  unfold text_decode, new_tok. rewrite (decode_text_reads s t rest R) by lia. cbn [bind app peek trest].
  destruct rest as [|c rest]; split; try discriminate; intros _; [|reflexivity].
  exists t. split; [reflexivity|exact R].
Qed.

Lemma text_decode_reads s t : text_decode s = Ok t <-> reads s t [].
Proof.
  split.
  - intros H. destruct (open_sep false s) eqn:E.
    + rewrite (proj1 (text_decode_exact s) E) in H. discriminate.
    + destruct (proj2 (text_decode_exact s) E) as (t' & H' & R). rewrite H in H'. apply Ok_inj in H'. subst. exact R.
  - intros R. unfold text_decode, new_tok. rewrite (decode_text_reads s t [] R) by lia. reflexivity.
Qed.

(** ** Encoding *)

Lemma reads_plain_app a s t rest : forallb plain a = true -> reads s t rest -> reads (a ++ s) (a ++ t) rest.
Proof.
  intros H R. induction a as [|c a IH]; [exact R|]. cbn [forallb] in H. apply andb_true_iff in H as [H1 H2].
  unfold plain in H1. apply andb_true_iff in H1 as [H1 H3]. apply negb_true_iff in H1, H3.
  cbn [app]. apply T_plain; auto.
Qed.

Lemma encode_rune_plain r : valid_rune r = true -> r <> 92 -> r <> 59 -> r <> 44 -> forallb plain (encode_rune r) = true.
Proof.
  intros V N1 N2 N3. destruct (Z.lt_ge_cases r 128) as [L|G].
  - assert (0 <= r) by (unfold valid_rune, in_range in V; lia). rewrite encode_rune_low by lia. cbn [forallb].
    rewrite andb_true_r.
    pose proof (byte_forall (fun c => (code c =? 92) || (code c =? 59) || (code c =? 44) || plain c) ltac:(vm_compute; reflexivity) (chr r)) as B.
    cbv beta in B. rewrite code_chr in B by lia. destruct (plain (chr r)); [reflexivity|lia].
  - pose proof (encode_rune_high r ltac:(lia)) as F. apply forallb_forall. intros c I. rewrite Forall_forall in F.
    destruct (high_plain c (F c I)) as [H1 H2]. unfold plain. rewrite H1, H2. reflexivity.
Qed.

Lemma text_rune_reads r s t rest : valid_rune r = true -> reads s t rest ->
  reads (text_rune r ++ s) (encode_rune r ++ t) rest.
Proof.
  intros V R. unfold text_rune.
  destruct (r =? 92) eqn:E1; [apply Z.eqb_eq in E1; subst; apply T_escape; auto|].
  destruct (r =? 10) eqn:E2; [apply Z.eqb_eq in E2; subst; apply T_newline; auto|].
  destruct (r =? 59) eqn:E3; [apply Z.eqb_eq in E3; subst; apply T_escape; auto|].
  destruct (r =? 44) eqn:E4; [apply Z.eqb_eq in E4; subst; apply T_escape; auto|].
  apply reads_plain_app; [|exact R]. apply encode_rune_plain; auto; lia.
Qed.

Lemma text_bytes_reads x s t rest : utf8 x -> reads s t rest -> reads (text_bytes x ++ s) (x ++ t) rest.
Proof.
  intros U R. destruct (utf8_runes x U) as [E V]. rewrite <- E at 2. unfold text_bytes. clear E U.
  revert V. generalize (runes x) as l. induction 1 as [|r rs V _ IH]; [exact R|]. cbn [map concat]. rewrite <- !app_assoc.
  apply text_rune_reads; assumption.
Qed.

Lemma text_roundtrip x : utf8 x -> text_decode (concat (text_encode x)) = Ok x.
Proof.
  intros U. unfold text_encode. cbn [concat]. apply text_decode_reads.
  pose proof (text_bytes_reads x [] [] [] U T_end) as R. rewrite !app_nil_r in *. exact R.
Qed.

(** Runes of a string below 128 are bytes of it. *)
Lemma runes_low s r : In r (runes s) -> r < 128 -> exists c, In c s /\ r = code c.
Proof.
  remember (length s) as n eqn:E. assert (L : (length s <= n)%nat) by lia. clear E. revert s L.
  induction n as [|n IH]; intros s L I B.
  - destruct s; [destruct I|cbn [length] in L; lia].
  - destruct s as [|c s]; [destruct I|]. rewrite runes_cons in I.
    pose proof (decode_rune_width c s) as W. pose proof (decode_rune_high c s) as HI. pose proof (decode_rune_ascii c s) as LO.
    destruct (decode_rune (c :: s)) as [r' w] eqn:D. destruct I as [<-|I].
    + destruct (Z.lt_ge_cases (code c) 128) as [L'|G].
      * injection (LO L') as -> _. exists c. split; [left; reflexivity|reflexivity].
      * destruct (HI G) as [R _]. lia.
    + destruct (IH (skipn w (c :: s))) as (x & Ix & Ex); auto.
      { rewrite skipn_length. cbn [length] in *. lia. }
      exists x. split; [|exact Ex]. rewrite <- (firstn_skipn w (c :: s)). apply in_or_app. right. exact Ix.
Qed.

Lemma runes_ge s : forall r, In r (runes s) -> 0 <= r.
Proof.
  intros r I. destruct (Z.lt_ge_cases r 128) as [L|G]; [|lia].
  destruct (runes_low s r I L) as (c & _ & ->). pose proof (code_range c). lia.
Qed.

Lemma text_valid_chars x c : text_valid x = None -> In c x -> value_char c = true \/ c = LF.
Proof.
  unfold text_valid. destruct (contains_any x nonsafe31) eqn:E; [discriminate|]. intros _ I.
  rewrite contains_any_false in E. specialize (E c I). apply inset_nIn in E.
  pose proof (byte_forall (fun c => inset c nonsafe31 || value_char c || beqc c LF) ltac:(vm_compute; reflexivity) c) as B.
  cbv beta in B. rewrite E in B. cbn [orb] in B. apply orb_true_iff in B as [B|B]; auto. apply beqc_eq in B. auto.
Qed.

Lemma high_value c : 128 <= code c -> value_char c = true.
Proof. unfold value_char. lia. Qed.

Lemma text_rune_safe r : 0 <= r -> r = 10 \/ 128 <= r \/ value_char (chr r) = true ->
  forallb value_char (text_rune r) = true /\ forall s, open_sep false (text_rune r ++ s) = open_sep false s.
Proof.
  intros P V. unfold text_rune.
  destruct (r =? 92) eqn:E1; [split; reflexivity|].
  destruct (r =? 10) eqn:E2; [split; reflexivity|].
  destruct (r =? 59) eqn:E3; [split; reflexivity|].
  destruct (r =? 44) eqn:E4; [split; reflexivity|].
  destruct (Z.lt_ge_cases r 128) as [L|G].
  - rewrite encode_rune_low by lia. cbn [forallb app]. destruct V as [V|[V|V]]; [lia|lia|]. rewrite V. split; [reflexivity|].
    intros s. cbn [open_sep]. pose proof (byte_forall (fun c => (code c =? 92) || (code c =? 59) || (code c =? 44) || plain c) ltac:(vm_compute; reflexivity) (chr r)) as B.
    cbv beta in B. rewrite code_chr in B by lia. rewrite E1, E3, E4 in B. cbn [orb] in B.
    unfold plain in B. destruct (is_sep (chr r)), (is_bsl (chr r)); try discriminate. reflexivity.
  - pose proof (encode_rune_high r ltac:(lia)) as F. split.
    + apply forallb_forall. intros c I. rewrite Forall_forall in F. apply high_value, F, I.
    + intros s. apply open_sep_high. exact F.
Qed.

Lemma text_bytes_safe x : text_valid x = None ->
  forallb value_char (text_bytes x) = true /\ forall s, open_sep false (text_bytes x ++ s) = open_sep false s.
Proof.
  intros V. unfold text_bytes.
  assert (R : forall r, In r (runes x) -> 0 <= r /\ (r = 10 \/ 128 <= r \/ value_char (chr r) = true)).
  { intros r I. split; [exact (runes_ge x r I)|]. destruct (Z.lt_ge_cases r 128) as [L|G]; [|auto].
    destruct (runes_low x r I L) as (c & Ic & ->). rewrite chr_code.
    destruct (text_valid_chars x c V Ic) as [H| ->]; auto. }
  induction (runes x) as [|r rs IH]; [split; reflexivity|]. cbn [map concat].
  destruct (R r (or_introl eq_refl)) as [R1 R2]. destruct (text_rune_safe r R1 R2) as [S1 S2].
  destruct IH as [I1 I2]; [intros r' I; apply R; right; exact I|]. split.
  - apply forallb_app_iff. auto.
  - intros s. rewrite <- app_assoc, S2, I2. reflexivity.
Qed.

(** ** Text lists *)

Lemma mtext_loop_reads : forall xs x fuel n acc, Forall utf8 (x :: xs) ->
  let s := concat (comma_writes text_encode true (x :: xs)) in
  (length xs < fuel)%nat -> (length s < n)%nat ->
  mtext_loop fuel n acc (Tok [] s) = Ok (acc ++ x :: xs).
Proof.
  induction xs as [|y xs IH]; intros x fuel n acc U s F N; (destruct fuel as [|fuel]; [lia|]); inversion U as [|? ? U1 U2]; subst.
  - assert (ES : s = text_bytes x) by (unfold s; cbn; rewrite app_nil_r; reflexivity). rewrite ES in *. clear s ES.
    cbn [mtext_loop]. pose proof (text_bytes_reads x [] [] [] U1 T_end) as R. rewrite !app_nil_r in R.
    rewrite (decode_text_reads _ _ _ R) by exact N. reflexivity.
  - assert (ES : s = text_bytes x ++ ","%char :: concat (comma_writes text_encode true (y :: xs))).
    { unfold s. cbn [comma_writes text_encode app concat]. reflexivity. }
    rewrite ES in *. clear s ES. set (s := concat (comma_writes text_encode true (y :: xs))) in *.
    cbn [mtext_loop].
    pose proof (text_bytes_reads x (","%char :: s) [] (","%char :: s) U1 (T_stop ","%char s eq_refl)) as R.
    rewrite app_nil_r in R. rewrite (decode_text_reads _ _ _ R) by exact N. cbn [bind app].
    cbn [peek trest]. change (beqc "," ",") with true. cbv iota. rewrite accept_hit by reflexivity. cbn [get trest].
    assert (IHy := IH y fuel n (acc ++ [x]) U2). cbv zeta in IHy. fold s in IHy.
    rewrite app_length in N. cbn [length] in F, N. rewrite IHy by lia.
    rewrite <- app_assoc. reflexivity.
Qed.

Lemma comma_length : forall (xs : list bytes) x, (length xs <= length (concat (comma_writes text_encode true (x :: xs))))%nat.
Proof.
  induction xs as [|y xs IH]; intros x; [cbn; lia|]. specialize (IH y).
  cbn [comma_writes text_encode app concat length] in *. rewrite app_length. cbn [length]. 
  cbn [bs list_ascii_of_string app length]. lia.
Qed.

Lemma mtext_roundtrip x xs : Forall utf8 (x :: xs) -> mtext_decode (concat (mtext_encode (x :: xs))) = Ok (x :: xs).
Proof.
  intros U. unfold mtext_decode, mtext_encode, new_tok. rewrite mtext_loop_reads; auto.
  pose proof (comma_length xs x). lia.
Qed.
