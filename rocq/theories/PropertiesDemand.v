(** Properties C82 to C85, and C11 again: Decode as it reads from a reader. [DecodeOD] is Decode taking bytes from
    the unfolder only when it needs them; [result] is its calendar or error; [Decode] reads everything first.
    [returns p x]: with enough fuel, [p] gives [x]. *)
From Coq Require Import String Ascii List Arith Bool.
From Verif Require Import Base SpecLines Unfolder SpecContent GoTime Sections SpecTree SpecRules SpecEdits Codec DecodeProofs OnDemand SpecDemand DemandReadProofs Sample SampleTree SampleReaders SampleDemand.
Import ListNotations.

(** C82: whether Decode reads everything first or on demand makes no difference to what it returns, ... *)
Theorem C82_on_demand {env : Env} fuel0 sizes chunks w x : Decode fuel0 sizes chunks w = x -> x <> NoFuel -> (x = Panic -> never_empty chunks) ->
  returns (fun fuel => result fuel sizes (Rdr chunks w REOF)) x.
Proof. exact (demand_decode fuel0 sizes chunks w x). Qed.
Print Assumptions C82_on_demand.
(** ... nor does the error with which reading ends. *)
Theorem C82_any_reader {env : Env} sizes r d e : read_all sizes r d e -> returns (fun fuel => result fuel sizes r) (decode_bytes d).
Proof. exact (demand_any sizes r d e). Qed.
Print Assumptions C82_any_reader.
Example C82_applies {env : Env} : read_all (fun _ => 100) (Rdr [bs "BEGIN"] true ROther) (bs "BEGIN") ROther /\ decode_bytes whole = Ok (cut_cal "2.0").
Proof. exact (conj (proj2 (proj2 (proj2 failing_case))) (proj2 (proj2 (proj2 whole_ok)))). Qed.

(** C11: if Decode panics, it is because of the text: no reader makes the unfolder panic that always returns a byte or
    an error, ... *)
Theorem C11_readers_never_panic {env : Env} fuel sizes chunks w : never_empty chunks -> Decode fuel sizes chunks w = Panic ->
  exists d e, read_all sizes (Rdr chunks w REOF) d e /\ decode_bytes d = Panic.
Proof. exact (readers_no_panic fuel sizes chunks w). Qed.
Print Assumptions C11_readers_never_panic.
(** ... but one that returns neither inside of folds, more often than the buffer has bytes, does so, whatever the text. *)
Theorem C11_empty_reads_refuted {env : Env} a x y cs w sizes : ~ has_fold (a ++ [CR]) -> length a + 1 = sizes 0 -> [x; y] <> [LF; SP] ->
  let chunks := (a ++ [CR]) :: stutters (S (sizes 0)) ++ [x; y] :: cs in
  returns (fun fuel => Decode fuel sizes chunks w) Panic /\ returns (fun fuel => result fuel sizes (Rdr chunks w REOF)) Panic.
Proof. exact (stutters_panic a x y cs w sizes). Qed.
Print Assumptions C11_empty_reads_refuted.
Example C11_empty_reads_apply : ~ has_fold (bs "BEGIN:VCAL" ++ [CR]) /\ length (bs "BEGIN:VCAL") + 1 = 11 /\ [SP; SP] <> [LF; SP].
Proof. exact stutters_case. Qed.

(** C83: a calendar is returned as soon as it is there, ... *)
Theorem C83_when_there {env : Env} sizes r t q cal : (exists a, t = a ++ CRLF) -> decode_bytes t = Ok cal -> read_so_far sizes r (t ++ q) ->
  returns (fun fuel => result fuel sizes r) (Ok cal).
Proof. exact (demand_enough sizes r t q cal). Qed.
Print Assumptions C83_when_there.
(** ... and only when it is there. *)
Theorem C83_from_what_was_read {env : Env} fuel sizes r cal : result fuel sizes r = Ok cal -> exists d, read_so_far sizes r d /\ spells d cal.
Proof. exact (demand_past fuel sizes r cal). Qed.
Print Assumptions C83_from_what_was_read.
(** A reader that gives a calendar and then a text on which the unfolder does not return *)
Example C83_applies {env : Env} : read_so_far (fun _ => 100) then_hangs (whole ++ []) /\ (exists a, whole = a ++ CRLF) /\ decode_bytes whole = Ok (cut_cal "2.0") /\
  (forall fuel, Decode fuel (fun _ => 100) [whole; bs "X:" ++ fold3] false = NoFuel).
Proof. exact (conj (proj1 enough_case) (conj (proj1 (proj2 (proj2 whole_ok))) (conj (proj2 (proj2 (proj2 whole_ok))) (proj2 enough_case)))). Qed.

(** C84: Decode asks for a byte after the last line of the calendar, and takes it, even if the reader has given
    exactly the calendar, ... *)
Theorem C84_looks_ahead_refuted {env : Env} t x c cs w e cal sizes : ~ has_fold t -> 1 <= length t <= sizes 0 -> (exists a, t = a ++ CRLF) -> x <> SP ->
  decode_bytes t = Ok cal ->
  returns (fun fuel => DecodeOD fuel sizes (Rdr (t :: (x :: c) :: cs) w e)) (Ok (cal, snd (rd (Rdr ((x :: c) :: cs) w e) 1))).
Proof. exact (decode_looks_ahead t x c cs w e cal sizes). Qed.
Print Assumptions C84_looks_ahead_refuted.
(** ... so that a second calendar from the same reader is refused. *)
Theorem C84_next_calendar_refuted {env : Env} t t2 cs w e cal sizes : ~ has_fold t -> 1 <= length t <= sizes 0 -> (exists a, t = a ++ CRLF) -> decode_bytes t = Ok cal ->
  exists r, returns (fun fuel => DecodeOD fuel sizes (Rdr (t :: (bs "BEGIN:VCALENDAR" ++ CRLF ++ t2) :: cs) w e)) (Ok (cal, r)) /\
    forall d err, read_all sizes r (bs "EGIN:VCALENDAR" ++ CRLF ++ d) err -> returns (fun fuel => result fuel sizes r) (Err ErrInvalidCalendar).
Proof. exact (demand_next t t2 cs w e cal sizes). Qed.
Print Assumptions C84_next_calendar_refuted.
Example C84_applies {env : Env} : ~ has_fold whole /\ 1 <= length whole <= 100 /\ (exists a, whole = a ++ CRLF) /\ decode_bytes whole = Ok (cut_cal "2.0") /\
  exists e, read_all (fun _ => 100) next_reader (bs "EGIN:VCALENDAR" ++ CRLF ++ []) e.
Proof. exact (conj (proj1 whole_ok) (conj (proj1 (proj2 whole_ok)) (conj (proj1 (proj2 (proj2 whole_ok))) (conj (proj2 (proj2 (proj2 whole_ok))) next_case)))). Qed.

(** C85: a reader that fails before it has given the whole calendar never gives a calendar. *)
Theorem C85_failing_readers {env : Env} sizes r b items e p q err : framed b items e -> cl_value e = bs "VCALENDAR" -> frame_text b items e = p ++ q -> q <> [] ->
  read_all sizes r p err -> exists n, forall fuel, n <= fuel -> forall cal, result fuel sizes r <> Ok cal.
Proof. exact (demand_failing sizes r b items e p q err). Qed.
Print Assumptions C85_failing_readers.
Example C85_applies {env : Env} : framed t_begin t_items t_end /\ cl_value t_end = bs "VCALENDAR" /\ (exists q, frame_text t_begin t_items t_end = bs "BEGIN" ++ q /\ q <> []) /\
  read_all (fun _ => 100) (Rdr [bs "BEGIN"] true ROther) (bs "BEGIN") ROther.
Proof. exact failing_case. Qed.
