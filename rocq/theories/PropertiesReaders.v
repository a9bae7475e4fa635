(** Properties C07, C10 and C53 again, for kinds of readers instead of single inputs, and C80 and C81, which
    are about how lines begin and end. [decode_bytes] is Decode on what is left when the unfolder is done. *)
From Coq Require Import String Ascii List Arith Bool.
From Verif Require Import Base SpecLines Unfolder Tokeniser SpecContent GoTime Sections Codec DecodeProofs SpecReaders StartProofs SampleReaders.
Import ListNotations.

(** C07: a reader that gives one byte at a time gets no fold removed, ... *)
Theorem C07_byte_readers_refuted {env : Env} s sizes : (forall i, 2 <= sizes i) -> ~ double_cr s ->
  exists n, forall fuel, n <= fuel -> Decode fuel sizes (byte_by_byte s) false = decode_bytes s.
Proof. exact (decode_byte_by_byte s sizes). Qed.
Print Assumptions C07_byte_readers_refuted.
(** ... so that no calendar with a fold in it is read. *)
Theorem C07_folds_in_byte_readers_refuted {env : Env} a b sizes : (forall i, 2 <= sizes i) -> ~ double_cr (a ++ fold3 ++ b) ->
  (forall cal, decode_bytes a <> Ok cal) ->
  exists n, forall fuel, n <= fuel -> forall cal, Decode fuel sizes (byte_by_byte (a ++ fold3 ++ b)) false <> Ok cal.
Proof. exact (folds_byte_by_byte a b sizes). Qed.
Print Assumptions C07_folds_in_byte_readers_refuted.
Example C07_byte_readers_apply {env : Env} : ~ double_cr (before_fold ++ fold3 ++ after_fold) /\ (forall cal, decode_bytes before_fold <> Ok cal) /\
  decode_bytes (unfold (before_fold ++ fold3 ++ after_fold)) = Ok (cut_cal "2.0").
Proof. exact bytes_case. Qed.

(** With a reader that gives one line at a time, each fold leaves its space behind in the value. *)
Theorem C07_line_readers_refuted {env : Env} ls sizes : ls <> [] -> Forall line_like ls -> (forall i l, In l ls -> length l + 2 <= sizes i) ->
  exists n, forall fuel, n <= fuel -> Decode fuel sizes (line_by_line ls) false = decode_bytes (joined ls).
Proof. exact (decode_line_by_line ls sizes). Qed.
Print Assumptions C07_line_readers_refuted.
Example C07_line_readers_apply {env : Env} : short_lines <> [] /\ Forall line_like short_lines /\ (forall i l, In l short_lines -> length l + 2 <= (fun _ => 100) (i : nat)) /\
  decode_bytes (joined short_lines) = Ok (cut_cal "2 .0") /\ decode_bytes (unfold (concat (line_by_line short_lines))) = Ok (cut_cal "2.0").
Proof. exact lines_case. Qed.

(** So does a fold whose line end is the end of the buffer, if the reader has all the data at once. *)
Theorem C07_buffers_refuted {env : Env} a b sizes : (forall i, 2 <= sizes i) -> length a + 2 = sizes 0 -> ~ has_fold (a ++ CRLF) -> ~ has_fold (a ++ SP :: b) ->
  2 <= length b -> hd CR b <> CR -> exists n, forall fuel, n <= fuel -> Decode fuel sizes [a ++ fold3 ++ b] false = decode_bytes (a ++ SP :: b).
Proof. exact (decode_split a b sizes). Qed.
Print Assumptions C07_buffers_refuted.
Example C07_buffers_apply {env : Env} : (forall i, 2 <= small_first i) /\ length before_fold + 2 = small_first 0 /\ ~ has_fold (before_fold ++ CRLF) /\ ~ has_fold (before_fold ++ SP :: after_fold) /\
  2 <= length after_fold /\ hd CR after_fold <> CR /\ decode_bytes (before_fold ++ SP :: after_fold) = Ok (cut_cal "2 .0") /\
  decode_bytes (unfold (before_fold ++ fold3 ++ after_fold)) = Ok (cut_cal "2.0").
Proof. exact split_case. Qed.

(** C10: whatever follows, Decode does not return if what the first read gives has a fold and ends in
    CR LF SP, LF SP CR or SP CR LF. *)
Theorem C10_first_read_refuted {env : Env} c cs w sizes : has_fold (firstn (sizes 0) c) -> bad_tail (firstn (sizes 0) c) ->
  forall fuel, Decode fuel sizes (c :: cs) w = NoFuel.
Proof. exact (decode_first_hangs c cs w sizes). Qed.
Print Assumptions C10_first_read_refuted.
Example C10_first_read_applies : has_fold (firstn (buffer_end 0) two_folds) /\ bad_tail (firstn (buffer_end 0) two_folds) /\ buffer_end 0 < length two_folds.
Proof. exact first_case. Qed.

(** C53: a last byte that comes with io.EOF, after a read that ended in CR or CR LF, is always lost. *)
Theorem C53_last_byte_refuted {env : Env} s x sizes : ~ has_fold s -> 1 <= length s <= sizes 0 ->
  (exists a, s = a ++ [CR]) \/ (exists a, s = a ++ CRLF /\ x <> SP) ->
  exists n, forall fuel, n <= fuel -> Decode fuel sizes [s; [x]] true = decode_bytes s.
Proof. exact (decode_lost s x sizes). Qed.
Print Assumptions C53_last_byte_refuted.
Example C53_last_byte_applies {env : Env} : ~ has_fold all_but_lf /\ 1 <= length all_but_lf <= 100 /\ (exists a, all_but_lf = a ++ [CR]) /\
  decode_bytes (all_but_lf ++ [LF]) = Ok (cut_cal "2.0") /\ (forall cal, decode_bytes all_but_lf <> Ok cal).
Proof. exact lost_case. Qed.

(** C80 is false: no calendar in which a line is folded with a tab, as RFC 5545 allows, is read. *)
Theorem C80_tab_folds_refuted {env : Env} chunks sizes a b : (forall i, 2 <= sizes i) -> ~ has_fold (concat chunks) ->
  concat chunks = a ++ CRLF ++ TAB :: b -> (forall cal, decode_bytes a <> Ok cal) ->
  exists n, forall fuel, n <= fuel -> forall cal, Decode fuel sizes chunks false <> Ok cal.
Proof. exact (decode_tab chunks sizes a b). Qed.
Print Assumptions C80_tab_folds_refuted.
Example C80_applies {env : Env} : ~ has_fold (concat [before_fold ++ CRLF ++ TAB :: after_fold]) /\ (forall cal, decode_bytes before_fold <> Ok cal) /\
  decode_bytes (before_fold ++ after_fold) = Ok (cut_cal "2.0").
Proof. exact tab_case. Qed.

(** C81: where a line does not begin with a character of a name, the calendar is over. *)
Theorem C81_lines_begin_with_names {env : Env} a c b cal : name_char c = false ->
  (decode_bytes (a ++ CRLF ++ c :: b) = Ok cal <-> decode_bytes a = Ok cal).
Proof. exact (decode_line_start a c b cal). Qed.
Print Assumptions C81_lines_begin_with_names.
(** So it is before a line feed that has no carriage return. *)
Theorem C81_bare_line_feeds {env : Env} a b cal : (forall x, a <> x ++ [CR]) -> decode_bytes (a ++ LF :: b) = Ok cal -> decode_bytes a = Ok cal.
Proof. exact (decode_bare_lf a b cal). Qed.
Print Assumptions C81_bare_line_feeds.
Example C81_applies {env : Env} : name_char CR = false /\ name_char SP = false /\ name_char byte_order_mark = false /\
  decode_bytes (before_fold ++ after_fold) = Ok (cut_cal "2.0") /\
  decode_bytes ((before_fold ++ after_fold) ++ CRLF ++ bs " and more") = Ok (cut_cal "2.0") /\
  (forall x, bs "BEGIN:VCALENDAR" <> x ++ [CR]) /\ (forall cal, decode_bytes (bs "BEGIN:VCALENDAR") <> Ok cal).
Proof. exact start_case. Qed.
