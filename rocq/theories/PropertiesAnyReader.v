(** Property C122: Decode with any io.Reader, as a function with a state of its own (AnyReader.v). *)
From Coq Require Import String Ascii ZArith Bool List Arith.
From Verif Require Import Base SpecLines Unfolder GoTime Sections SpecTree Codec OnDemand SpecDemand SpecSource SampleTree SampleReaders DecodeProofs SampleDemand AnyReader SpecAnyReader AnyReaderProofs AnyDecodeProofs AnyTextProofs SampleAnyReader.
Import ListNotations.

(** Whatever the reader does, there are the pieces that it gave to Decode, and Decode does with it what it does with a reader that has those pieces
    one after the other, whatever else there is behind them. The state in which the reader is left is the one after those pieces. *)
Theorem C122_only_pieces {env : Env} {R} (read : io_reader R) fuel sizes s : honest read -> exists pieces e s', gave read s pieces e s' /\
  (forall rest, may_follow e rest -> DecodeOD fuel sizes (before pieces rest) = set_r rest (DecodeFrom read fuel sizes s)) /\
  (forall cal s1, DecodeFrom read fuel sizes s = Ok (cal, s1) -> s1 = s').
Proof. exact (decode_from_pieces read fuel sizes s). Qed.
Print Assumptions C122_only_pieces.

(** If the reader never returns without a byte or an error, it is called once for each byte that it gives, at most, and once more. *)
Theorem C122_calls {R} (read : io_reader R) s pieces e s' : gives_something read -> gave read s pieces e s' -> length pieces <= length (concat pieces) + 1.
Proof. exact (gave_count read s pieces e s'). Qed.
Print Assumptions C122_calls.

(** A calendar that Decode returns is written in what the reader gave. *)
Theorem C122_calendars {env : Env} {R} (read : io_reader R) fuel sizes s cal s' : honest read -> DecodeFrom read fuel sizes s = Ok (cal, s') ->
  exists pieces e, gave read s pieces e s' /\ exists d, part d (concat pieces) /\ spells d cal.
Proof. exact (fun N => from_calendar read N fuel sizes s cal s'). Qed.
Print Assumptions C122_calendars.

(** If the reader gives a text without folds, in whichever pieces it decides on, Decode ends, and does what it does with that text at once. *)
Theorem C122_fold_free {env : Env} {R} (read : io_reader R) left sizes s : honest read -> gives_text read left -> (forall i, 2 <= sizes i) -> ~ has_fold (left s) ->
  exists n, forall fuel, n <= fuel -> (let! (c, _) := DecodeFrom read fuel sizes s in Ok c) = decode_bytes (left s).
Proof. exact (decode_from_text read left sizes s). Qed.
Print Assumptions C122_fold_free.

(** A reader that decides by what it has given already. *)
Example C122_applies t : honest (moody t) /\ gives_something (moody t) /\ gives_text (moody t) (fun s => skipn s t).
Proof. exact (moody_case t). Qed.
Example C122_applies_calendar {env : Env} sizes : (forall i, 2 <= sizes i) ->
  exists n, forall fuel, n <= fuel -> (let! (c, _) := DecodeFrom (moody whole) fuel sizes 0 in Ok c) = Ok (cut_cal "2.0").
Proof. exact (moody_decode sizes). Qed.
