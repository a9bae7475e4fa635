(** Property C123: how often Decode handles a line. [src_work c p fuel s] (Work.v): what Decode does on [s], where it costs [c d] to be
    handed a line with the tokens [d], and [p d] to read it as a property; [cut_into s ls en]: [ls] are the lines of [s]
    (SpecFail.v); [over f ls]: the sum of [f l] for the lines of [ls]. *)
From Coq Require Import String Ascii ZArith Bool List.
From Verif Require Import Base Tokeniser SpecContent GoTime Types Params Props SecTable Sections SpecTree SpecFail Codec SampleTree SampleStack Work SpecWork WorkProofs SampleWork.
Import ListNotations.

(** C123: whatever it costs, each line is handed out twice and read as a property once, at most ... *)
Theorem C123_twice {env : Env} c p fuel s ls en : cut_into s ls en ->
  src_work c p fuel (SrcTok (new_tokeniser s)) <= over (fun l => 2 * c (cline_tokens l) + p (cline_tokens l)) ls.
Proof. exact (work_twice c p fuel s ls en). Qed.
Print Assumptions C123_twice.
(** ... once, where there is no alarm ... *)
Theorem C123_once {env : Env} c p fuel s ls en : cut_into s ls en -> Forall (fun l => ~ begins_alarm l) ls ->
  src_work c p fuel (SrcTok (new_tokeniser s)) <= over (fun l => c (cline_tokens l) + p (cline_tokens l)) ls.
Proof. exact (work_once c p fuel s ls en). Qed.
Print Assumptions C123_once.
(** ... and so there are no more than three times as many tokens and bytes to look at as there are bytes in the text. *)
Theorem C123_size {env : Env} s : decode_work token_size token_size s <= 3 * (length s + 1).
Proof. exact (work_size s). Qed.
Print Assumptions C123_size.
Theorem C123_lines {env : Env} fuel s ls en : cut_into s ls en -> src_work (fun _ => 1) (fun _ => 0) fuel (SrcTok (new_tokeniser s)) <= 2 * length ls /\
  src_work (fun _ => 0) (fun _ => 1) fuel (SrcTok (new_tokeniser s)) <= length ls.
Proof. exact (work_lines fuel s ls en). Qed.
Print Assumptions C123_lines.
(** Nothing is left out of this account: when Decode returns a calendar, each line up to its end has been handed out. *)
Theorem C123_least {env : Env} c p s cal ls en : cut_into s ls en -> decode_bytes s = Ok cal -> exists a e b, ls = a ++ e :: b /\ upper (cl_name e) = bs "END" /\ cl_value e = bs "VCALENDAR" /\
  over (fun l => c (cline_tokens l)) (a ++ [e]) <= decode_work c p s.
Proof. exact (work_least c p s cal ls en). Qed.
Print Assumptions C123_least.
(** A calendar of 28 lines, three of them in an alarm. *)
Example C123_applies {env : Env} : cut_into (lines_text s_lines) s_lines AtEnd /\ length s_lines = 28 /\
  decode_work (fun _ => 1) (fun _ => 0) (lines_text s_lines) = 31 /\ decode_work (fun _ => 0) (fun _ => 1) (lines_text s_lines) = 10.
Proof. exact work_case. Qed.
Example C123_applies_once {env : Env} : cut_into (lines_text w_lines) w_lines AtEnd /\ Forall (fun l => ~ begins_alarm l) w_lines /\
  decode_work (fun _ => 1) (fun _ => 0) (lines_text w_lines) = 4 /\ decode_work (fun _ => 0) (fun _ => 1) (lines_text w_lines) = 2.
Proof. exact work_plain. Qed.
