(** Properties C07, C10 and C48 for folded text in any number of reads, as long as no fold lies across the end of a
    read. [reads] says which reads the unfolder makes, [decode_bytes] is Decode on what the unfolder gives. *)
From Coq Require Import String Ascii List Arith Bool.
From Verif Require Import Base SpecLines Unfolder Folder Tokeniser GoTime PropTable SecTable Sections Codec SpecRules SpecEdits SpecProps SpecCal DecodeProofs SpecCuts CutsProofs SampleReaders SampleCuts SampleCal.
Import ListNotations.

(** A reader's data and the sizes of the buffers determine the reads, and the reads give all the data. *)
Theorem C07_reads_known_partial sizes chunks : (forall i, 2 <= sizes i) -> exists ds, reads sizes 0 [] (Rdr chunks false REOF) ds /\ concat ds = concat chunks /\
  forall ds2, reads sizes 0 [] (Rdr chunks false REOF) ds2 -> ds2 = ds.
Proof. exact (reads_known sizes chunks). Qed.
Print Assumptions C07_reads_known_partial.
(** C07: all folds are removed, if none lies across the end of a read and no read with a fold ends like one. *)
Theorem C07_folds_within_reads_partial {env : Env} sizes chunks ds : (forall i, 2 <= sizes i) -> reads sizes 0 [] (Rdr chunks false REOF) ds ->
  no_cut ds -> Forall (fun d => ~ stuck d) ds ->
  exists n, forall fuel, n <= fuel -> Decode fuel sizes chunks false = decode_bytes (unfold (concat chunks)).
Proof. exact (decode_clean sizes chunks ds). Qed.
Print Assumptions C07_folds_within_reads_partial.
Example C07_folds_within_reads_apply {env : Env} : (forall i, 2 <= small_buffer i) /\
  reads small_buffer 0 [] (Rdr [before_fold ++ fold3 ++ after_fold] false REOF) its_reads /\ no_cut its_reads /\
  Forall (fun d => ~ stuck d) its_reads /\ has_fold (before_fold ++ fold3 ++ after_fold) /\ small_buffer 0 < length (before_fold ++ fold3 ++ after_fold) /\
  decode_bytes (unfold (before_fold ++ fold3 ++ after_fold)) = Ok (cut_cal "2.0").
Proof. exact clean_case. Qed.

(** C10: without folds across the ends of reads, a single read that has a fold and ends like one is what keeps
    Decode from returning. *)
Theorem C10_any_read_refuted {env : Env} sizes chunks ds : (forall i, 2 <= sizes i) -> reads sizes 0 [] (Rdr chunks false REOF) ds -> no_cut ds ->
  Exists stuck ds -> forall fuel, Decode fuel sizes chunks false = NoFuel.
Proof. exact (decode_unclean sizes chunks ds). Qed.
Print Assumptions C10_any_read_refuted.
Example C10_any_read_applies : (forall i, 2 <= buffer_end i) /\ reads buffer_end 0 [] (Rdr [two_folds] false REOF) its_end_reads /\ no_cut its_end_reads /\ Exists stuck its_end_reads.
Proof. exact unclean_case. Qed.

(** C48: what Encode writes is read back from such reads too. *)
Theorem C48_many_reads_partial {env : Env} cal :
  sec_id cal = SCalendar -> cal_good cal -> rules_met cal -> (forall p, ~ has_prop cal PrLastModified p) -> sec_valid cal = None ->
  exists out, Encode ok_writer [] cal = EncDone None out /\
    forall chunks sizes ds, concat chunks = concat out -> (forall i, 2 <= sizes i) -> reads sizes 0 [] (Rdr chunks false REOF) ds -> no_cut ds ->
    Forall (fun d => ~ stuck d) ds -> exists n, forall fuel, n <= fuel -> Decode fuel sizes chunks false = Ok cal.
Proof. exact (round_trip_many cal). Qed.
Print Assumptions C48_many_reads_partial.
Example C48_many_reads_apply {env : Env} : sec_id cal_plain = SCalendar /\ cal_good cal_plain /\ rules_met cal_plain /\ (forall p, ~ has_prop cal_plain PrLastModified p) /\ sec_valid cal_plain = None.
Proof. exact plain_case. Qed.
