(** A run of Decode with any reader is one with the pieces that the reader returned. *)
From Coq Require Import List Arith ZArith Bool Lia.
From Verif Require Import Base Lib Tokeniser GoTime Params PropTable Props SecTable Sections Unfolder OnDemand AnyReader SpecAnyReader.
Import ListNotations.

Lemma prep_nil r : before [] r = r. Proof. destruct r. reflexivity. Qed.
Lemma prep_app a b r : before (a ++ b) r = before a (before b r). Proof. unfold before. cbn [r_chunks r_with r_err]. rewrite app_assoc. reflexivity. Qed.

Section Reader.
Context {R : Type} (read : io_reader R) (Hon : honest read).

Lemma gave_app s cs1 s1 cs2 oe s2 : gave read s cs1 None s1 -> gave read s1 cs2 oe s2 -> gave read s (cs1 ++ cs2) oe s2.
Proof.
  intros G. remember None as o eqn:O. induction G; intros G2; [exact G2| |discriminate O]. cbn [app]. econstructor; eauto.
Qed.
Lemma gave_err s cs e s2 : gave read s cs (Some e) s2 -> cs <> [].
Proof. intros G. inversion G; discriminate. Qed.
Lemma tail_prep s cs oe s2 r : gave read s cs oe s2 -> may_follow oe r -> may_follow None (before cs r).
Proof.
  intros G T. cbn [may_follow before r_chunks r_with]. intros E. destruct cs; [|discriminate E]. destruct oe; [exfalso; exact (gave_err _ _ _ _ G eq_refl)|]. apply T, E.
Qed.

Definition agrees {A} (err : A -> option rerr) (x : res (A * R)) (f : rdr -> res (A * rdr)) (s : R) : Prop :=
  exists cs oe s2, gave read s cs oe s2 /\ (forall r, may_follow oe r -> f (before cs r) = set_r r x) /\ (forall a s', x = Ok (a, s') -> err a = oe /\ s' = s2).

Lemma agrees_ret {A} (err : A -> option rerr) x f s : (forall r, f r = set_r r x) -> (forall a s', x = Ok (a, s') -> err a = None /\ s' = s) -> agrees err x f s.
Proof. intros F O. exists [], None, s. split; [constructor|]. split; [|exact O]. intros r _. rewrite prep_nil. apply F. Qed.
Lemma agrees_rd {A} (err : A -> option rerr) (G : bytes -> option rerr -> R -> res (A * R)) (F : bytes -> option rerr -> rdr -> res (A * rdr)) s k d e s1 : 1 <= k -> read s k = (d, e, s1) ->
  (e = None -> agrees err (G d e s1) (F d e) s1) ->
  (e <> None -> (forall r, F d e r = set_r r (G d e s1)) /\ (forall a s', G d e s1 = Ok (a, s') -> err a = e /\ s' = s1)) ->
  agrees err (G d e s1) (fun r => let '(d, e, r') := rd r k in F d e r') s.
Proof.
  intros K1 Rd N S. pose proof (Hon s k) as L. rewrite Rd in L. cbn [fst] in L. apply Nat.leb_le in L. destruct e as [e|].
  - destruct (S ltac:(discriminate)) as [S1 S2]. exists [d], (Some e), s1. split; [econstructor; eassumption|]. split; [|exact S2]. intros r ->.
    cbn [before rd r_chunks r_with r_err app]. rewrite L. apply S1.
  - destruct (N eq_refl) as (cs & oe & s2 & Gv & F1 & F2). exists (d :: cs), oe, s2. split; [econstructor; eassumption|]. split; [|exact F2]. intros r T.
    rewrite <- (F1 r T). unfold before at 1. cbn [rd r_chunks r_with r_err app]. rewrite L.
    destruct (cs ++ r_chunks r) eqn:E; [|unfold before; rewrite E; reflexivity]. pose proof (tail_prep _ _ _ _ _ Gv T) as W. cbn [may_follow before r_chunks r_with] in W. rewrite (W E). unfold before. rewrite E, (W E). reflexivity.
Qed.
Lemma agrees_bind {A B} (err : A -> option rerr) (err' : B -> option rerr) x f (K : A -> R -> res (B * R)) (K' : A -> rdr -> res (B * rdr)) s : agrees err x f s ->
  (forall a s1, x = Ok (a, s1) -> (err a = None /\ agrees err' (K a s1) (K' a) s1) \/
    ((forall r, K' a r = set_r r (K a s1)) /\ (forall b s', K a s1 = Ok (b, s') -> err' b = err a /\ s' = s1))) ->
  agrees err' (let! (a, s1) := x in K a s1) (fun r => let! (a, r1) := f r in K' a r1) s.
Proof.
  intros (cs & oe & s2 & Gv & F1 & F2) HK. destruct x as [[a s1]|e| |].
  2-4: exists cs, oe, s2; split; [exact Gv|]; split; [intros r T; rewrite (F1 r T); reflexivity|discriminate].
  destruct (F2 a s1 eq_refl) as [E1 ->]. cbn [bind]. destruct (HK a s2 eq_refl) as [(N & cs' & oe' & s3 & Gv' & F1' & F2')|[S1 S2]].
  - rewrite N in E1. subst oe. exists (cs ++ cs'), oe', s3. split; [eapply gave_app; eassumption|]. split; [|exact F2']. intros r T. rewrite prep_app.
    rewrite (F1 (before cs' r)); [|exact (tail_prep _ _ _ _ _ Gv' T)]. cbn [set_r bind]. apply F1', T.
  - exists cs, oe, s2. split; [exact Gv|]. split; [intros r T; rewrite (F1 r T); cbn [set_r bind]; apply S1|]. intros b s' Eb. destruct (S2 b s' Eb) as [-> ->]. split; [exact E1|reflexivity].
Qed.
Lemma agrees_ext {A} (err : A -> option rerr) x f g s : (forall r, f r = g r) -> agrees err x f s -> agrees err x g s.
Proof. intros E (cs & oe & s2 & G & F1 & F2). exists cs, oe, s2. split; [exact G|]. split; [|exact F2]. intros r T. rewrite <- E. apply F1, T. Qed.

Lemma fill_agrees fuel : forall out free s, agrees snd (a_fill read fuel out free s) (fill fuel out free) s.
Proof.
  induction fuel as [|f IH]; intros out free s; [apply agrees_ret; [reflexivity|discriminate]|]. cbn [a_fill fill]. destruct (free =? 0) eqn:FR.
  { apply agrees_ret; [reflexivity|]. intros a s' E. injection E as <- <-. split; reflexivity. }
  assert (1 <= free) as FR1 by (apply Nat.eqb_neq in FR; lia). destruct (read s free) as [[d e] s1] eqn:Rd.
  apply (agrees_rd snd (fun d e s1 => let! (front, p, toRead) := remove_folds (S f) [] d 0 in if length p <? toRead then Panic
      else match e with None => a_fill read f (out ++ front ++ firstn (length p - toRead) p) toRead s1 | Some _ => Ok (out ++ front ++ firstn (length p - toRead) p, e, s1) end)
    (fun d e r1 => let! (front, p, toRead) := remove_folds (S f) [] d 0 in if length p <? toRead then Panic
      else match e with None => fill f (out ++ front ++ firstn (length p - toRead) p) toRead r1 | Some _ => Ok (out ++ front ++ firstn (length p - toRead) p, e, r1) end) s free d e s1 FR1 Rd).
  - intros ->. destruct (remove_folds (S f) [] d 0) as [[[front p] k]| | |]; cbn [bind]; try (apply agrees_ret; [reflexivity|discriminate]).
    destruct (length p <? k); [apply agrees_ret; [reflexivity|discriminate]|]. apply IH.
  - intros N. destruct (remove_folds (S f) [] d 0) as [[[front p] k]| | |]; cbn [bind]; try (split; [reflexivity|discriminate]).
    destruct (length p <? k); [split; [reflexivity|discriminate]|]. destruct e; [|destruct (N eq_refl)]. split; [reflexivity|]. intros a s' E. injection E as <- <-. split; reflexivity.
Qed.

Definition unf_err (x : bytes * Z * option rerr * bytes) : option rerr := snd (fst x).
Ltac ret := split; [reflexivity|]; let E := fresh in intros ? ? E; injection E as <- <-; split; reflexivity.
Ltac ret1 := apply agrees_ret; [reflexivity|]; let E := fresh in intros ? ? E; first [discriminate E | injection E as <- <-; split; reflexivity].
Lemma call_agrees fuel : (forall buf s L, agrees unf_err (a_call read fuel buf s L) (fun r => unf_call fuel buf r L) s) /\ (forall q m buf s, agrees unf_err (a_look read fuel q m buf s) (fun r => look fuel q m buf r) s).
Proof.
  induction fuel as [|f [IHc IHl]]; [split; intros; ret1|]. split.
  - intros buf s L. cbn [a_call unf_call].
    apply (agrees_ext _ _ (fun r => let! (a, r') := fill (S f) (firstn (min L (length buf)) buf) (L - min L (length buf)) r in
      let '(q, e) := a in match e with Some _ => Ok (q, Z.of_nat (length q), e, skipn (min L (length buf)) buf, r') | None => look f q (Z.of_nat (length q)) (skipn (min L (length buf)) buf) r' end)).
    { intros r. destruct (fill _ _ _ r) as [[[q e] r']| | |]; reflexivity. }
    assert (Q : forall x : res (bytes * option rerr * R), (let! (q, e, r') := x in match e with Some _ => Ok (q, Z.of_nat (length q), e, skipn (min L (length buf)) buf, r') | None => a_look read f q (Z.of_nat (length q)) (skipn (min L (length buf)) buf) r' end)
      = let! (a, r') := x in let '(q, e) := a in match e with Some _ => Ok (q, Z.of_nat (length q), e, skipn (min L (length buf)) buf, r') | None => a_look read f q (Z.of_nat (length q)) (skipn (min L (length buf)) buf) r' end).
    { intros [[[q e] r']| | |]; reflexivity. }
    try rewrite Q. clear Q. eapply agrees_bind; [apply fill_agrees|]. intros [q [e|]] s1 _; cbn [snd]; [right; ret|left; split; [reflexivity|apply IHl]].
  - intros q m buf s. cbn [a_look look]. destruct (ends_cr q).
    + destruct (read s 2) as [[d e] s1] eqn:Rd.
      apply (agrees_rd unf_err (fun d e s1 => if length d <? 2 then Ok (q, m, e, d, s1) else if beq d [LF; SP] then match e with Some _ => Ok (q, (m - 1)%Z, e, d, s1) | None =>
          let '(d2, e2, r2) := read s1 1 in match e2 with Some _ => Ok (put q (length q - 1) d2, (m - 1 + Z.of_nat (length d2))%Z, e2, [], r2) | None => a_look read f (put q (length q - 1) d2) (m - 1 + Z.of_nat (length d2))%Z [] r2 end end else Ok (q, m, e, d, s1))
        (fun d e r1 => if length d <? 2 then Ok (q, m, e, d, r1) else if beq d [LF; SP] then match e with Some _ => Ok (q, (m - 1)%Z, e, d, r1) | None =>
          let '(d2, e2, r2) := rd r1 1 in match e2 with Some _ => Ok (put q (length q - 1) d2, (m - 1 + Z.of_nat (length d2))%Z, e2, [], r2) | None => look f (put q (length q - 1) d2) (m - 1 + Z.of_nat (length d2))%Z [] r2 end end else Ok (q, m, e, d, r1)) s 2 d e s1 ltac:(lia) Rd).
      * intros ->. destruct (length d <? 2); [ret1|]. destruct (beq d [LF; SP]); [|ret1]. destruct (read s1 1) as [[d2 e2] s2] eqn:Rd2.
        apply (agrees_rd unf_err (fun d2 e2 r2 => match e2 with Some _ => Ok (put q (length q - 1) d2, (m - 1 + Z.of_nat (length d2))%Z, e2, [], r2) | None => a_look read f (put q (length q - 1) d2) (m - 1 + Z.of_nat (length d2))%Z [] r2 end)
          (fun d2 e2 r2 => match e2 with Some _ => Ok (put q (length q - 1) d2, (m - 1 + Z.of_nat (length d2))%Z, e2, [], r2) | None => look f (put q (length q - 1) d2) (m - 1 + Z.of_nat (length d2))%Z [] r2 end) s1 1 d2 e2 s2 ltac:(lia) Rd2).
        -- intros ->. apply IHl.
        -- intros N. destruct e2; [ret|destruct (N eq_refl)].
      * intros N. destruct e as [e|]; [|destruct (N eq_refl)]. destruct (length d <? 2); [ret|]. destruct (beq d [LF; SP]); ret.
    + destruct (ends_crlf q); [|ret1]. destruct (read s 1) as [[d e] s1] eqn:Rd.
      apply (agrees_rd unf_err (fun d e s1 => if length d <? 1 then Ok (q, m, e, d, s1) else if beq d [SP] then match e with Some _ => Ok (q, (m - 2)%Z, e, d, s1) | None =>
          let! (q', n', e2, _, r2) := a_call read f d s1 2 in match e2 with Some _ => Ok (put q (length q - 2) q', (m - 2 + n')%Z, e2, [], r2) | None => a_look read f (put q (length q - 2) q') (m - 2 + n')%Z [] r2 end end else Ok (q, m, e, d, s1))
        (fun d e r1 => if length d <? 1 then Ok (q, m, e, d, r1) else if beq d [SP] then match e with Some _ => Ok (q, (m - 2)%Z, e, d, r1) | None =>
          let! (q', n', e2, _, r2) := unf_call f d r1 2 in match e2 with Some _ => Ok (put q (length q - 2) q', (m - 2 + n')%Z, e2, [], r2) | None => look f (put q (length q - 2) q') (m - 2 + n')%Z [] r2 end end else Ok (q, m, e, d, r1)) s 1 d e s1 ltac:(lia) Rd).
      * intros ->. destruct (length d <? 1); [ret1|]. destruct (beq d [SP]); [|ret1].
        apply (agrees_ext _ _ (fun r => let! (a, r2) := unf_call f d r 2 in let '(q', n', e2, _) := a in match e2 with Some _ => Ok (put q (length q - 2) q', (m - 2 + n')%Z, e2, [], r2) | None => look f (put q (length q - 2) q') (m - 2 + n')%Z [] r2 end)).
        { intros r. destruct (unf_call f d r 2) as [[[[[q' n'] e2] b'] r2]| | |]; reflexivity. }
        assert (Q : forall x : res (bytes * Z * option rerr * bytes * R), (let! (q', n', e2, _, r2) := x in match e2 with Some _ => Ok (put q (length q - 2) q', (m - 2 + n')%Z, e2, [], r2) | None => a_look read f (put q (length q - 2) q') (m - 2 + n')%Z [] r2 end)
          = let! (a, r2) := x in let '(q', n', e2, _) := a in match e2 with Some _ => Ok (put q (length q - 2) q', (m - 2 + n')%Z, e2, [], r2) | None => a_look read f (put q (length q - 2) q') (m - 2 + n')%Z [] r2 end).
        { intros [[[[[q' n'] e2] b'] r2]| | |]; reflexivity. }
        try rewrite Q. clear Q. eapply agrees_bind; [apply IHc|]. intros [[[q' n'] [e2|]] b'] s2 _; unfold unf_err at 1; cbn [fst snd]; [right; ret|left; split; [reflexivity|apply IHl]].
      * intros N. destruct e as [e|]; [|destruct (N eq_refl)]. destruct (length d <? 1); [ret|]. destruct (beq d [SP]); ret.
Qed.
Lemma read_agrees fuel buf s L : agrees (fun x : bytes * option rerr * bytes => snd (fst x)) (a_read read fuel buf s L) (fun r => unf_read fuel buf r L) s.
Proof.
  unfold a_read.
  apply (agrees_ext _ _ (fun r => let! (a, r2) := unf_call fuel buf r L in let '(q, m, e, b) := a in if (m <? 0)%Z then Panic else Ok (firstn (Z.to_nat m) q, e, b, r2))).
  { intros r. unfold unf_read, counted. destruct (unf_call fuel buf r L) as [[[[[q m] e] b] r2]| | |]; reflexivity. }
  assert (Q : forall x : res (bytes * Z * option rerr * bytes * R), (let! (q, m, e, buf, r) := x in if (m <? 0)%Z then Panic else Ok (firstn (Z.to_nat m) q, e, buf, r))
    = let! (a, r2) := x in let '(q, m, e, b) := a in if (m <? 0)%Z then Panic else Ok (firstn (Z.to_nat m) q, e, b, r2)).
  { intros [[[[[q m] e] b] r2]| | |]; reflexivity. }
  try rewrite Q. clear Q. eapply agrees_bind; [apply call_agrees|]. intros [[[q m] e] b] s1 _. right. unfold unf_err. cbn [fst snd]. destruct (m <? 0)%Z; [split; [reflexivity|discriminate]|]. ret.
Qed.
End Reader.
