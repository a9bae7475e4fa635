(** When Decode does not return, exactly, and concrete cases. *)
From Coq Require Import String Ascii ZArith List Arith Bool Lia.
From Verif Require Import Base Lib SpecLines Unfolder UnfolderProofs GoTime Sections Codec DecodeProofs TotalProofs SpecCuts CutsProofs SpecStick StickProofs OnDemand SpecDemand DemandReadProofs DemandErrProofs DemandStickProofs SampleReaders SampleDemand SampleFail.
Import ListNotations.

Section S.
Context {env : Env}.
Theorem decode_sticks sizes chunks w : (forall i, 1 <= sizes i) ->
  ((forall fuel, Decode fuel sizes chunks w = NoFuel) <-> exists j held r, comes_to sizes 0 [] (Rdr chunks w REOF) j held r /\ sticks (sizes j - length held) r).
Proof.
  intros P. split.
  - intros H. destruct (drain_settles sizes P _ 0 [] (Rdr chunks w REOF) (Nat.le_refl _)) as [St|(N & F)]; [exact St|]. exfalso.
    specialize (H N). specialize (F N (Nat.le_refl _) []). unfold Decode in H. destruct (drain N sizes 0 [] (Rdr chunks w REOF) []) as [[d e]|x| |]; cbn [bind] in H; [exact (decode_bytes_fuel d H)|discriminate H|discriminate H|exact (F eq_refl)].
  - intros (j & held & r & C & St) fuel. unfold Decode. rewrite (drain_comes sizes 0 [] _ j held r C St). reflexivity.
Qed.
Theorem demand_returns sizes chunks w : (forall i, 1 <= sizes i) -> never_empty chunks ->
  (forall j held r, comes_to sizes 0 [] (Rdr chunks w REOF) j held r -> ~ sticks (sizes j - length held) r) ->
  exists d e, read_all sizes (Rdr chunks w REOF) d e /\ returns (fun fuel => Decode fuel sizes chunks w) (decode_bytes d) /\
    returns (fun fuel => result fuel sizes (Rdr chunks w REOF)) (decode_bytes d).
Proof.
  intros P NE H. destruct (drain_settles sizes P _ 0 [] (Rdr chunks w REOF) (Nat.le_refl _)) as [(j & held & r & C & St)|(N & F)]; [contradiction (H j held r C St)|].
  specialize (F N (Nat.le_refl _) []). pose proof (drain_no_panic sizes N 0 [] (Rdr chunks w REOF) [] NE) as NP. pose proof (drain_no_err sizes N 0 [] (Rdr chunks w REOF) []) as NER.
  destruct (drain N sizes 0 [] (Rdr chunks w REOF) []) as [[d e]|x| |] eqn:D; [|contradiction (NER x eq_refl)|contradiction NP; reflexivity|contradiction F; reflexivity].
  exists d, e. split; [exists N; exact D|]. split.
  - exists N. intros fuel L. apply (Decode_drained _ _ _ _ d e). exact (drain_mono _ _ _ _ _ _ _ _ L D).
  - apply (demand_any sizes _ d e). exists N. exact D.
Qed.

(** A fold across the ends of two reads that is removed; then a read that has a fold and ends like one. *)
Definition cut_then_stuck : list bytes := [bs "X:" ++ [CR]; [LF; SP]; bs "Y"; fold3 ++ bs "Z" ++ fold3].
Theorem sticks_case : comes_to (fun _ => 100) 0 [] (Rdr cut_then_stuck false REOF) 1 [] (Rdr [fold3 ++ bs "Z" ++ fold3] false REOF) /\
  sticks (100 - @length ascii []) (Rdr [fold3 ++ bs "Z" ++ fold3] false REOF).
Proof.
  split.
  - apply (Comes_next _ 10 _ _ _ (bs "X:Y") [] (Rdr [fold3 ++ bs "Z" ++ fold3] false REOF)); [vm_compute; reflexivity|]. constructor.
  - apply (Sticks_now _ _ (fold3 ++ bs "Z" ++ fold3) None (Rdr [] false REOF)); [apply Nat.ltb_lt; reflexivity|vm_compute; reflexivity|]. split; [exists [], (bs "Z" ++ fold3); reflexivity|].
    exists (fold3 ++ bs "Z"), fold3. split; [vm_compute; reflexivity|]. left. reflexivity.
Qed.
(** Room that the removal of a fold made is filled with a piece that has a fold and ends like one. *)
Definition four_folds : bytes := fold3 ++ fold3 ++ bs "XYZV" ++ fold3 ++ fold3.
Theorem refill_case : comes_to (fun _ => 10) 0 [] (Rdr [four_folds] false REOF) 0 [] (Rdr [four_folds] false REOF) /\ sticks 10 (Rdr [four_folds] false REOF).
Proof.
  split; [constructor|]. apply (Sticks_later _ _ (fold3 ++ fold3 ++ bs "XYZV") (Rdr [fold3 ++ fold3] false REOF)); [lia|vm_compute; reflexivity|].
  apply (Sticks_now _ _ (fold3 ++ fold3) None (Rdr [] false REOF)); [vm_compute; repeat constructor|vm_compute; reflexivity|]. split; [exists [], fold3; reflexivity|].
  exists fold3, fold3. split; [reflexivity|]. left. reflexivity.
Qed.
(** The first part of it alone does not keep Decode from returning. *)
Theorem not_sticks_case : (forall j held r, comes_to (fun _ => 100) 0 [] (Rdr (firstn 3 cut_then_stuck) false REOF) j held r -> ~ sticks (100 - length held) r) /\ never_empty (firstn 3 cut_then_stuck).
Proof.
  split; [|repeat constructor; discriminate].
  assert (D : drain 20 (fun _ => 100) 0 [] (Rdr (firstn 3 cut_then_stuck) false REOF) [] = Ok (bs "X:Y", REOF)) by (vm_compute; reflexivity).
  intros j held r C St. rewrite (drain_comes _ _ _ _ _ _ _ C St) in D. discriminate D.
Qed.

(** ** Reading on demand *)
Theorem demand_settled sizes r d j held r' fuel : comes_with sizes 0 [] r d j held r' -> sticks (sizes j - length held) r' -> result fuel sizes r <> NoFuel ->
  forall x, decode_bytes (d ++ x) = result fuel sizes r.
Proof. intros C SK N x. destruct (decode_before sizes r d j held r' x fuel C SK) as [Q|Q]; [contradiction (N Q)|]. symmetry. exact Q. Qed.
Theorem demand_sticks sizes r d j held r' x y : comes_with sizes 0 [] r d j held r' -> sticks (sizes j - length held) r' -> decode_bytes (d ++ x) <> decode_bytes (d ++ y) ->
  forall fuel, result fuel sizes r = NoFuel.
Proof.
  intros C SK N fuel. destruct (decode_before sizes r d j held r' x fuel C SK) as [Q|Q]; [exact Q|]. destruct (decode_before sizes r d j held r' y fuel C SK) as [Q2|Q2]; [exact Q2|].
  contradiction N. congruence.
Qed.
Theorem demand_err sizes r a q e : decode_bytes (a ++ CRLF) = Err e -> e <> ErrUnexpectedEOF -> read_so_far sizes r (a ++ CRLF ++ q) -> returns (fun fuel => result fuel sizes r) (Err e).
Proof.
  intros D NE G. rewrite app_assoc in G. destruct (decode_err_there sizes r (a ++ CRLF) q e) as (n & H); auto; [exists (a ++ [CR]); rewrite <- app_assoc; reflexivity|].
  exists n. intros fuel F. unfold result. rewrite (H fuel F). reflexivity.
Qed.
(** The first line of a calendar, then a piece that has a fold and ends like one *)
Definition begins_then_hangs : rdr := Rdr [bs "BEGIN:VCALENDAR" ++ CRLF ++ bs "A"; bs "B:" ++ fold3 ++ fold3] false REOF.
Theorem demand_sticks_case : comes_with (fun _ => 100) 0 [] begins_then_hangs (bs "BEGIN:VCALENDAR" ++ CRLF ++ bs "A") 1 [] (Rdr [bs "B:" ++ fold3 ++ fold3] false REOF) /\
  sticks (100 - @length ascii []) (Rdr [bs "B:" ++ fold3 ++ fold3] false REOF) /\
  decode_bytes ((bs "BEGIN:VCALENDAR" ++ CRLF ++ bs "A") ++ []) <> decode_bytes ((bs "BEGIN:VCALENDAR" ++ CRLF ++ bs "A") ++ bs ":" ++ CRLF).
Proof.
  split; [|split].
  - rewrite <- (app_nil_r (bs "BEGIN:VCALENDAR" ++ CRLF ++ bs "A")). apply (Comes_more _ 10 _ _ _ (bs "BEGIN:VCALENDAR" ++ CRLF ++ bs "A") [] (Rdr [bs "B:" ++ fold3 ++ fold3] false REOF)); [vm_compute; reflexivity|]. constructor.
  - apply (Sticks_now _ _ (bs "B:" ++ fold3 ++ fold3) None (Rdr [] false REOF)); [apply Nat.ltb_lt; reflexivity|vm_compute; reflexivity|]. split; [exists (bs "B:"), fold3; reflexivity|].
    exists (bs "B:" ++ fold3), fold3. split; [vm_compute; reflexivity|]. left. reflexivity.
  - replace (decode_bytes ((bs "BEGIN:VCALENDAR" ++ CRLF ++ bs "A") ++ [])) with (@Err sec ErrInvalidContentLineName) by (vm_compute; reflexivity).
    replace (decode_bytes ((bs "BEGIN:VCALENDAR" ++ CRLF ++ bs "A") ++ bs ":" ++ CRLF)) with (@Err sec ErrUnexpectedEOF) by (vm_compute; reflexivity). discriminate.
Qed.
(** A fault, then such a piece *)
Definition fault_then_hangs : rdr := Rdr [two_faults ++ bs "A"; bs "B:" ++ fold3 ++ fold3] false REOF.
Theorem demand_err_case : read_so_far (fun _ => 100) fault_then_hangs (two_faults ++ bs "A") /\ decode_bytes two_faults = Err ErrInvalidDuration /\ (exists a, two_faults = a ++ CRLF) /\
  forall fuel, Decode fuel (fun _ => 100) [two_faults ++ bs "A"; bs "B:" ++ fold3 ++ fold3] false = NoFuel.
Proof.
  assert (C : comes_with (fun _ => 100) 0 [] fault_then_hangs ((two_faults ++ bs "A") ++ []) 1 [] (Rdr [bs "B:" ++ fold3 ++ fold3] false REOF)).
  { apply (Comes_more _ 10 _ _ _ (two_faults ++ bs "A") [] (Rdr [bs "B:" ++ fold3 ++ fold3] false REOF)); [vm_compute; reflexivity|]. constructor. }
  split; [|split; [exact (proj1 fault_case)|split; [exact (proj1 (proj2 (proj2 fault_case)))|]]].
  - rewrite <- (app_nil_r (two_faults ++ bs "A")). apply (gives_more _ 10 _ _ _ (two_faults ++ bs "A") [] (Rdr [bs "B:" ++ fold3 ++ fold3] false REOF)); [vm_compute; reflexivity|]. constructor.
  - intros fuel. unfold Decode. rewrite (drain_comes _ _ _ _ _ _ _ (comes_with_to _ _ _ _ _ _ _ _ C)); [reflexivity|]. exact (proj1 (proj2 demand_sticks_case)).
Qed.
End S.
