(** Property C102: what Decode parses comes from the reader. [part d s]: [d] is [s] with some bytes left out.
    [read_so_far sizes r d]: calls of the unfolder's Read have given [d]. *)
From Coq Require Import String Ascii List Arith Bool.
From Verif Require Import Base SpecLines Unfolder GoTime Sections SpecTree Codec OnDemand SpecDemand SpecSource Sample SampleTree SampleReaders DecodeProofs DecodeProofs SampleDemand SampleSource.
Import ListNotations.

(** C102: whatever the reader does, and whatever the sizes of the buffers, no byte is made up, moved or repeated. *)
Theorem C102_nothing_made_up sizes r d : read_so_far sizes r d -> part d (concat (r_chunks r)).
Proof. exact (source_read sizes r d). Qed.
Print Assumptions C102_nothing_made_up.
(** So every calendar is spelt by bytes of the reader, ... *)
Theorem C102_calendars {env : Env} fuel sizes r cal : result fuel sizes r = Ok cal -> exists d, part d (concat (r_chunks r)) /\ spells d cal.
Proof. exact (source_result fuel sizes r cal). Qed.
Print Assumptions C102_calendars.
Theorem C102_calendars_whole {env : Env} fuel sizes chunks w cal : Decode fuel sizes chunks w = Ok cal -> exists d, part d (concat chunks) /\ decode_bytes d = Ok cal.
Proof. exact (source_decode fuel sizes chunks w cal). Qed.
Print Assumptions C102_calendars_whole.
(** ... but not by all of them but for the folds: if a buffer ends in a fold that ends its line, the first two bytes
    after the next carriage return are lost. *)
Theorem C102_nothing_lost_refuted {env : Env} a x y t sizes : (forall i, 2 <= sizes i) -> length a + 2 = sizes 0 -> ~ has_fold (a ++ CRLF) -> ~ has_fold (a ++ [SP; CR] ++ t) ->
  [x; y] <> [LF; SP] -> t <> [] -> exists n, forall fuel, n <= fuel -> Decode fuel sizes [a ++ fold3 ++ CR :: x :: y :: t] false = decode_bytes (a ++ [SP; CR] ++ t).
Proof. exact (split_before_end a x y t sizes). Qed.
Print Assumptions C102_nothing_lost_refuted.
(** A calendar that is read with a buffer of 100 bytes, and refused with one of 30 *)
Example C102_applies {env : Env} : (forall i, 2 <= first_buffer i) /\ length before_end + 2 = first_buffer 0 /\ ~ has_fold (before_end ++ CRLF) /\ ~ has_fold (before_end ++ [SP; CR] ++ after_end) /\
  [LF; "P"%char] <> [LF; SP] /\ after_end <> [] /\
  decode_bytes (unfold (before_end ++ fold3 ++ CR :: LF :: "P"%char :: after_end)) = Ok (cut_cal "2.0") /\
  (forall cal, decode_bytes (before_end ++ [SP; CR] ++ after_end) <> Ok cal) /\
  (exists n, forall fuel, n <= fuel -> Decode fuel (fun _ => 100) [before_end ++ fold3 ++ CR :: LF :: "P"%char :: after_end] false = Ok (cut_cal "2.0")).
Proof. exact end_case. Qed.
