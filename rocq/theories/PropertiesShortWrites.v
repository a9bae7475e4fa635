(** Property C118: a writer that takes less than it is given. [EncodeTo] is Encode with the counts that io.Writer returns;
    [recording] notes each call, with the count and the error that it returned. *)
From Coq Require Import String Ascii List ZArith Bool.
From Verif Require Import Base GoTime Types Params Props SecTable Sections Folder Codec ShortWrites SpecShortWrites ShortWritesProofs SampleCal SampleShortWrites.
Import ListNotations.
Local Open Scope Z_scope.

(** C118 is false: a writer that reports no error can report any count; Encode returns nil although nothing was taken. *)
Theorem C118_success_means_taken_refuted {env : Env} {W E : Type} (w : W) cal out n : Encode ok_writer [] cal = EncDone None out ->
  EncodeTo (fun (w : W) (q : bytes) => (w, n, @None E)) w cal = EncDone None w.
Proof. exact (encode_takes_nothing w cal out n). Qed.
Print Assumptions C118_success_means_taken_refuted.
(** C118, for writers that keep to the contract of io.Writer: if Encode returns nil, each call took all it was given, and
    together they are the text of the calendar. *)
Theorem C118_success_means_taken_partial {env : Env} {W E} (wr : io_writer W E) w cal w' log : honest wr -> EncodeTo (recording wr) (w, []) cal = EncDone None (w', log) ->
  Forall (fun c => let '(q, n, e) := c in n = Z.of_nat (length q) /\ e = None) log /\ Encode ok_writer [] cal = EncDone None (map (fun c => fst (fst c)) log).
Proof. exact (encode_took wr w cal w' log). Qed.
Print Assumptions C118_success_means_taken_partial.
(** C118: the counts change nothing, so that all that is shown of [Encode] holds of [EncodeTo]. *)
Theorem C118_counts_ignored {env : Env} {W E} (wr : io_writer W E) w cal : EncodeTo wr w cal = Encode (uncounted wr) w cal.
Proof. exact (encode_uncounted wr w cal). Qed.
Print Assumptions C118_counts_ignored.
(** C118: the writer between the encoders and the caller's writer keeps to the contract, if that does; the folds that it adds
    are not counted. *)
Theorem C118_folding_writer_honest {W E} (wr : io_writer W E) st q st' n e : honest wr -> count_write wr st q = (st', (n, e)) ->
  0 <= n <= Z.of_nat (length q) /\ (n < Z.of_nat (length q) -> e <> None).
Proof. exact (write_honest wr st q st' n e). Qed.
Print Assumptions C118_folding_writer_honest.
Example C118_refuted_applies {env : Env} : exists out, @Encode env _ Empty_set ok_writer [] cal_plain = EncDone None out.
Proof. exact plain_written. Qed.
Example C118_applies {env : Env} : honest takes_all /\ (exists w log, EncodeTo (recording takes_all) ([], []) cal_plain = EncDone None (w, log)) /\
  honest takes_some /\ exists w log, EncodeTo (recording takes_some) (0%nat, []) cal_plain = EncDone (Some tt) (w, log).
Proof. exact (conj all_honest (conj all_case (conj some_honest some_case))). Qed.
