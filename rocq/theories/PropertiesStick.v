(** Property C10, exactly, and C88 when Decode reads on demand: which readers keep Decode from returning. [comes_to] says what the calls of the unfolder's
    Read that returned have left; [sticks n r] says that a call with [n] bytes of room reads a piece that has a fold and
    ends like one. [Decode] reads everything first, [result] is what Decode returns when it reads on demand. *)
From Coq Require Import String Ascii List Arith Bool.
From Verif Require Import Base SpecLines Unfolder GoTime Sections Codec SpecCuts SpecStick OnDemand SpecDemand DemandReadProofs SampleDemand SampleFail SampleStick.
Import ListNotations.

(** For every reader, with folds anywhere: reading everything does not end if and only if, after some calls, there is a
    piece with a fold that ends like one. *)
Theorem C10_sticks_refuted {env : Env} sizes chunks w : (forall i, 1 <= sizes i) ->
  ((forall fuel, Decode fuel sizes chunks w = NoFuel) <-> exists j held r, comes_to sizes 0 [] (Rdr chunks w REOF) j held r /\ sticks (sizes j - length held) r).
Proof. exact (decode_sticks sizes chunks w). Qed.
Print Assumptions C10_sticks_refuted.
Example C10_sticks_applies : comes_to (fun _ => 100) 0 [] (Rdr cut_then_stuck false REOF) 1 [] (Rdr [fold3 ++ bs "Z" ++ fold3] false REOF) /\
  sticks (100 - @length ascii []) (Rdr [fold3 ++ bs "Z" ++ fold3] false REOF).
Proof. exact sticks_case. Qed.
Example C10_sticks_later_applies : comes_to (fun _ => 10) 0 [] (Rdr [four_folds] false REOF) 0 [] (Rdr [four_folds] false REOF) /\ sticks 10 (Rdr [four_folds] false REOF).
Proof. exact refill_case. Qed.

(** From every other reader that always gives a byte or an error, Decode returns, however it reads. *)
Theorem C10_returns_partial {env : Env} sizes chunks w : (forall i, 1 <= sizes i) -> never_empty chunks ->
  (forall j held r, comes_to sizes 0 [] (Rdr chunks w REOF) j held r -> ~ sticks (sizes j - length held) r) ->
  exists d e, read_all sizes (Rdr chunks w REOF) d e /\ returns (fun fuel => Decode fuel sizes chunks w) (decode_bytes d) /\
    returns (fun fuel => result fuel sizes (Rdr chunks w REOF)) (decode_bytes d).
Proof. exact (demand_returns sizes chunks w). Qed.
Print Assumptions C10_returns_partial.
Example C10_returns_apply : (forall j held r, comes_to (fun _ => 100) 0 [] (Rdr (firstn 3 cut_then_stuck) false REOF) j held r -> ~ sticks (100 - length held) r) /\
  never_empty (firstn 3 cut_then_stuck).
Proof. exact not_sticks_case. Qed.

(** When Decode reads on demand, a reader that keeps the unfolder from returning does no harm only if what it gave
    before settles the result: ... *)
Theorem C10_settled_partial {env : Env} sizes r d j held r' fuel : comes_with sizes 0 [] r d j held r' -> sticks (sizes j - length held) r' -> result fuel sizes r <> NoFuel ->
  forall x, decode_bytes (d ++ x) = result fuel sizes r.
Proof. exact (demand_settled sizes r d j held r' fuel). Qed.
Print Assumptions C10_settled_partial.
(** ... if two continuations differ, Decode does not return. *)
Theorem C10_on_demand_refuted {env : Env} sizes r d j held r' x y : comes_with sizes 0 [] r d j held r' -> sticks (sizes j - length held) r' -> decode_bytes (d ++ x) <> decode_bytes (d ++ y) ->
  forall fuel, result fuel sizes r = NoFuel.
Proof. exact (demand_sticks sizes r d j held r' x y). Qed.
Print Assumptions C10_on_demand_refuted.
Example C10_on_demand_applies {env : Env} : comes_with (fun _ => 100) 0 [] begins_then_hangs (bs "BEGIN:VCALENDAR" ++ CRLF ++ bs "A") 1 [] (Rdr [bs "B:" ++ fold3 ++ fold3] false REOF) /\
  sticks (100 - @length ascii []) (Rdr [bs "B:" ++ fold3 ++ fold3] false REOF) /\
  decode_bytes ((bs "BEGIN:VCALENDAR" ++ CRLF ++ bs "A") ++ []) <> decode_bytes ((bs "BEGIN:VCALENDAR" ++ CRLF ++ bs "A") ++ bs ":" ++ CRLF).
Proof. exact demand_sticks_case. Qed.

(** C88: an error that whole lines lead to is returned as soon as these lines are there, whatever the reader does
    afterwards. *)
Theorem C88_when_there {env : Env} sizes r a q e : decode_bytes (a ++ CRLF) = Err e -> e <> ErrUnexpectedEOF -> read_so_far sizes r (a ++ CRLF ++ q) ->
  returns (fun fuel => result fuel sizes r) (Err e).
Proof. exact (demand_err sizes r a q e). Qed.
Print Assumptions C88_when_there.
(** A reader that gives a fault and then a text on which the unfolder does not return *)
Example C88_when_there_applies {env : Env} : read_so_far (fun _ => 100) fault_then_hangs (two_faults ++ bs "A") /\ decode_bytes two_faults = Err ErrInvalidDuration /\ (exists a, two_faults = a ++ CRLF) /\
  forall fuel, Decode fuel (fun _ => 100) [two_faults ++ bs "A"; bs "B:" ++ fold3 ++ fold3] false = NoFuel.
Proof. exact demand_err_case. Qed.
