(** Decode reading on demand: the theorems in the words of SpecDemand.v, and concrete cases. *)
From Coq Require Import String Ascii ZArith List Arith Bool Lia.
From Verif Require Import Base Lib SpecLines Unfolder UnfolderProofs ReadersProofs Tokeniser SpecContent GoTime Sections SpecTree SpecPanic SpecRules SpecEdits Codec DecodeProofs PrefixProofs ExactProofs OnDemand SpecDemand DemandProofs DemandEndProofs DemandPastProofs DemandReadProofs SpecReaders SampleReaders Sample SampleTree.
Import ListNotations.

Section R.
Context {env : Env}.
(** The calendar or the error alone *)
Definition result (fuel : nat) (sizes : nat -> nat) (r : rdr) : res sec := let! (c, _) := DecodeOD fuel sizes r in Ok c.

Theorem demand_any sizes r d e : read_all sizes r d e -> returns (fun fuel => result fuel sizes r) (decode_bytes d).
Proof. intros [F D]. eexists. intros fuel L. exact (decode_on_demand sizes r F d e D fuel L). Qed.
Theorem demand_decode fuel0 sizes chunks w x : Decode fuel0 sizes chunks w = x -> x <> NoFuel -> (x = Panic -> never_empty chunks) -> returns (fun fuel => result fuel sizes (Rdr chunks w REOF)) x.
Proof.
  intros Q N NE. unfold Decode in Q. pose proof (drain_no_panic sizes fuel0 0 [] (Rdr chunks w REOF) []) as P. pose proof (drain_no_err sizes fuel0 0 [] (Rdr chunks w REOF) []) as E.
  destruct (drain fuel0 sizes 0 [] (Rdr chunks w REOF) []) as [[d e]|y| |] eqn:D; cbn [bind] in Q.
  - subst x. apply (demand_any sizes _ d e). exists fuel0. exact D.
  - contradiction (E y). reflexivity.
  - subst x. contradiction (P (NE eq_refl)). reflexivity.
  - congruence.
Qed.
Theorem readers_no_panic fuel sizes chunks w : never_empty chunks -> Decode fuel sizes chunks w = Panic -> exists d e, read_all sizes (Rdr chunks w REOF) d e /\ decode_bytes d = Panic.
Proof.
  intros NE Q. unfold Decode in Q. pose proof (drain_no_panic sizes fuel 0 [] (Rdr chunks w REOF) [] NE) as P.
  destruct (drain fuel sizes 0 [] (Rdr chunks w REOF) []) as [[d e]| | |] eqn:D; cbn [bind] in Q; try discriminate Q; [|contradiction P; reflexivity]. exists d, e. split; [exists fuel; exact D|exact Q].
Qed.
Theorem stutters_panic a x y cs w sizes : ~ has_fold (a ++ [CR]) -> length a + 1 = sizes 0 -> [x; y] <> [LF; SP] ->
  let chunks := (a ++ [CR]) :: stutters (S (sizes 0)) ++ [x; y] :: cs in
  returns (fun fuel => Decode fuel sizes chunks w) Panic /\ returns (fun fuel => result fuel sizes (Rdr chunks w REOF)) Panic.
Proof.
  intros N L X chunks. assert (NF : find_fold (a ++ [CR]) = None) by (destruct (find_fold (a ++ [CR])) eqn:E; [contradiction N; apply has_fold_find; congruence|reflexivity]).
  pose proof (read_stutters a x y cs w REOF (sizes 0) NF X L) as U. fold chunks in U.
  split; exists (sizes 0 + 5); intros [|fuel] F; try lia.
  - unfold Decode. rewrite drain_step, U by lia. reflexivity.
  - unfold result, DecodeOD, g_decode. cbn [g_get od_phrase od_start o_end o_z o_buf o_r o_i orb]. change (negb (blocks (new_tokeniser []))) with false. cbv iota. rewrite U by lia. reflexivity.
Qed.
Theorem demand_enough sizes r t q cal : (exists a, t = a ++ CRLF) -> decode_bytes t = Ok cal -> read_so_far sizes r (t ++ q) -> returns (fun fuel => result fuel sizes r) (Ok cal).
Proof.
  intros [a ->] D G. destruct (decode_when_there sizes r (a ++ CRLF) q cal) as (n & H); auto.
  { exists (a ++ [CR]). rewrite <- app_assoc. reflexivity. }
  exists n. intros fuel L. destruct (H fuel L) as (r' & Q). unfold result. rewrite Q. reflexivity.
Qed.
Theorem demand_past fuel sizes r cal : result fuel sizes r = Ok cal -> exists d, read_so_far sizes r d /\ spells d cal.
Proof.
  intros Q. unfold result in Q. apply bind_ok in Q as ([c r'] & Q & E). apply Ok_inj in E. subst c. apply decode_from_past in Q as (d & G & D). exists d. split; [exact G|]. apply decode_bytes_exact, D.
Qed.
Theorem demand_failing sizes r b items e p q err : framed b items e -> cl_value e = bs "VCALENDAR" -> frame_text b items e = p ++ q -> q <> [] -> read_all sizes r p err ->
  exists n, forall fuel, n <= fuel -> forall cal, result fuel sizes r <> Ok cal.
Proof.
  intros F V T N A. destruct (demand_any sizes r p err A) as (n & H). exists n. intros fuel L cal. rewrite H by exact L. exact (PrefixProofs.decode_cut b items e p q cal F V T N).
Qed.
Theorem demand_next t t2 cs w e cal sizes : ~ has_fold t -> 1 <= length t <= sizes 0 -> (exists a, t = a ++ CRLF) -> decode_bytes t = Ok cal ->
  exists r, returns (fun fuel => DecodeOD fuel sizes (Rdr (t :: (bs "BEGIN:VCALENDAR" ++ CRLF ++ t2) :: cs) w e)) (Ok (cal, r)) /\
    forall d err, read_all sizes r (bs "EGIN:VCALENDAR" ++ CRLF ++ d) err -> returns (fun fuel => result fuel sizes r) (Err ErrInvalidCalendar).
Proof.
  intros NF L E D. eexists. split; [exact (next_is_lost t t2 cs w e cal sizes NF L E D)|]. intros d err A. destruct (egin_refused _ _ d err A) as (n & H). exists n. intros fuel Lf. unfold result. rewrite H by exact Lf. reflexivity.
Qed.

(** ** Cases *)
Definition whole : bytes := before_fold ++ after_fold.
(** A calendar, and then a text on which the unfolder does not return *)
Definition then_hangs : rdr := Rdr [whole; bs "X:" ++ fold3] false REOF.
Lemma whole_ok : ~ has_fold whole /\ 1 <= length whole <= 100 /\ (exists a, whole = a ++ CRLF) /\ decode_bytes whole = Ok (cut_cal "2.0").
Proof.
  split; [apply no_fold_by; reflexivity|]. split; [vm_compute; lia|]. split; [|exact (proj2 (proj2 tab_case))].
  exists (firstn (length whole - 2) whole). vm_compute. reflexivity.
Qed.
Theorem enough_case : read_so_far (fun _ => 100) then_hangs (whole ++ []) /\ (forall fuel, Decode fuel (fun _ => 100) [whole; bs "X:" ++ fold3] false = NoFuel).
Proof.
  destruct whole_ok as (NF & L & E & _).
  destruct (first_read whole "X"%char (":"%char :: fold3) [] false REOF 100 (eq_refl : find_fold whole = None) L E ltac:(discriminate) 0) as (e1 & U).
  assert (E1 : e1 = None).
  { revert U. unfold then_hangs, whole. vm_compute. intros Q. injection Q as <-. reflexivity. }
  subst e1. split.
  - apply (gives_more _ 3 0 [] then_hangs whole _ _ [] U). constructor.
  - intros fuel. unfold Decode. destruct fuel as [|[|[|fuel]]]; [vm_compute; reflexivity|vm_compute; reflexivity|vm_compute; reflexivity|].
    rewrite drain_step. change (bs "X:" ++ fold3) with ("X"%char :: ":"%char :: fold3). cbv beta. rewrite (proj1 (unf_read_look_mono 3) (S (S (S fuel))) _ _ _ _ ltac:(lia) U). cbn [bind].
    assert (H : forall f acc, drain f (fun _ => 100) 1 ["X"%char] (snd (rd (Rdr ["X"%char :: ":"%char :: fold3] false REOF) 1)) acc = NoFuel).
    { intros f acc. destruct f as [|f]; [reflexivity|]. rewrite drain_step. cbv beta.
      assert (U2 : unf_read (S f) ["X"%char] (snd (rd (Rdr ["X"%char :: ":"%char :: fold3] false REOF) 1)) 100 = NoFuel); [|rewrite U2; reflexivity]. rewrite unf_read_step. cbn [length]. rewrite (Nat.min_r 100 1) by lia. cbn [fill]. destruct (Nat.eqb_spec (100 - 1) 0); [lia|].
      change (rd (snd (rd (Rdr ["X"%char :: ":"%char :: fold3] false REOF) 1)) (100 - 1)) with (":"%char :: fold3, @None rerr, Rdr [] false REOF). cbv iota beta. rewrite remove_folds_hangs; [reflexivity| |].
      - exists [":"%char], []. reflexivity.
      - exists [":"%char], fold3. split; [reflexivity|left; reflexivity]. }
    rewrite H. reflexivity.
Qed.
Theorem stutters_case : ~ has_fold (bs "BEGIN:VCAL" ++ [CR]) /\ length (bs "BEGIN:VCAL") + 1 = 11 /\ [SP; SP] <> [LF; SP].
Proof. split; [apply no_fold_by; reflexivity|]. split; [reflexivity|discriminate]. Qed.
Theorem failing_case : framed t_begin t_items t_end /\ cl_value t_end = bs "VCALENDAR" /\ (exists q, frame_text t_begin t_items t_end = bs "BEGIN" ++ q /\ q <> []) /\
  read_all (fun _ => 100) (Rdr [bs "BEGIN"] true ROther) (bs "BEGIN") ROther.
Proof.
  split; [exact t_framed|]. split; [reflexivity|]. split.
  - exists (skipn 5 (frame_text t_begin t_items t_end)). split; [vm_compute; reflexivity|vm_compute; discriminate].
  - exists 5. vm_compute. reflexivity.
Qed.
Definition next_reader : rdr := Rdr [bs "EGIN:VCALENDAR" ++ CRLF] false REOF.
Theorem next_case : exists e, read_all (fun _ => 100) next_reader (bs "EGIN:VCALENDAR" ++ CRLF ++ []) e.
Proof. exists REOF, 5. vm_compute. reflexivity. Qed.
End R.
