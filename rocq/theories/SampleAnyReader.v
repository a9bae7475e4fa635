(** A reader that returns as much as it likes, and what follows for calendars. *)
From Coq Require Import String Ascii List Arith ZArith Bool Lia.
From Verif Require Import Base Lib SpecLines Unfolder GoTime Sections SpecTree Codec OnDemand SpecDemand SpecSource DecodeProofs SampleTree SampleReaders SampleDemand SampleSource AnyReader SpecAnyReader AnyReaderProofs AnyDecodeProofs AnyTextProofs.
Import ListNotations.

Lemma skip_add {A} n m (l : list A) : skipn n (skipn m l) = skipn (m + n) l.
Proof. revert l. induction m as [|m IH]; intros l; [reflexivity|]. destruct l; [rewrite !skipn_nil; reflexivity|]. exact (IH l). Qed.
(** One, two or three bytes, by the number of those that it has given. *)
Definition moody (t : bytes) : io_reader nat := fun s k =>
  match firstn (min k (1 + s mod 3)) (skipn s t) with [] => ([], Some REOF, s) | d => (d, None, s + length d) end.
Lemma moody_case t : honest (moody t) /\ gives_something (moody t) /\ gives_text (moody t) (fun s => skipn s t).
Proof.
  assert (X : forall s k, 1 <= k -> exists n, min k (1 + s mod 3) = S n) by (intros s k H; destruct k as [|k]; [lia|]; exists (min k (s mod 3)); reflexivity).
  assert (Y : forall s k d, firstn (min k (1 + s mod 3)) (skipn s t) = d -> length d <= k) by (intros s k d <-; rewrite firstn_length; lia).
  split; [|split].
  - intros s k. unfold moody. destruct (firstn _ _) as [|c d] eqn:E; cbn [fst length]; [lia|]. exact (Y s k _ E).
  - intros s k s' K. unfold moody. destruct (firstn _ _); discriminate.
  - intros s k K. unfold moody. destruct (X s k K) as (n & N). destruct (firstn _ _) as [|c d] eqn:E.
    + split; [reflexivity|]. rewrite N in E. destruct (skipn s t); [reflexivity|discriminate E].
    + split; [discriminate|].
      assert (F : firstn (length (c :: d)) (skipn s t) = c :: d).
      { rewrite <- E, firstn_length. destruct (Nat.min_dec (min k (1 + s mod 3)) (length (skipn s t))) as [M|M]; rewrite M; [reflexivity|].
        rewrite firstn_all, firstn_all2; [reflexivity|]. lia. }
      rewrite <- skip_add. rewrite <- (firstn_skipn (length (c :: d)) (skipn s t)) at 1. rewrite F. reflexivity.
Qed.
Section C. Context `{Env}.
Context {R : Type} (read : io_reader R) (N : honest read).

Lemma from_calendar fuel sizes s cal s' : DecodeFrom read fuel sizes s = Ok (cal, s') ->
  exists pieces e, gave read s pieces e s' /\ exists d, part d (concat pieces) /\ spells d cal.
Proof using N.
  intro H1. destruct (decode_from_pieces read fuel sizes s N) as (pieces & e & s2 & G & Q & Z).
  pose proof (Z cal s' H1) as ->. exists pieces, e. split; [exact G|].
  specialize (Q (Rdr [] (match e with Some _ => true | None => false end) (match e with Some e => e | None => REOF end))).
  assert (F : may_follow e (Rdr [] (match e with Some _ => true | None => false end) (match e with Some e => e | None => REOF end))) by (destruct e; cbn; auto).
  specialize (Q F). destruct (source_result fuel sizes (before pieces (Rdr [] (match e with Some _ => true | None => false end) (match e with Some e => e | None => REOF end))) cal) as (d & D & P).
  { unfold result. rewrite Q, H1. reflexivity. }
  exists d. split; [|exact P]. cbn in D. rewrite app_nil_r in D. exact D.
Qed.
End C.

(** The reader above gives a calendar, and Decode returns it. *)
Lemma moody_decode `{Env} sizes : (forall i, 2 <= sizes i) ->
  exists n, forall fuel, n <= fuel -> (let! (c, _) := DecodeFrom (moody whole) fuel sizes 0 in Ok c) = Ok (cut_cal "2.0").
Proof.
  intro Z. destruct (moody_case whole) as (A & B & C). destruct whole_ok as (W & V).
  destruct (decode_from_text (moody whole) _ sizes 0 A C Z W) as (n & F). exists n. intros fuel L. rewrite (F fuel L). cbn [skipn]. apply V.
Qed.
