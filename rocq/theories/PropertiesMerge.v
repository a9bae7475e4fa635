(** Property C105: the components of a calendar are read by themselves. [own_lines items]: the lines of the calendar's own,
    without its components; [components items]: the components; [merged x y]: the version and product of [x], and the
    components of [x] and then of [y], kind by kind; [readable s]: Decode returns a calendar. *)
From Coq Require Import String Ascii ZArith Bool List.
From Verif Require Import Base SpecContent GoTime Sections SpecTree SpecRules SpecLines Codec SpecMerge MergeProofs SampleTree SampleMerge.
Import ListNotations.

(** C105: a calendar is read exactly if its two halves are, each with the lines of the calendar itself, and holds what they hold. *)
Theorem C105_halves {env : Env} b xs ys e tail cal : framed b (xs ++ ys) e -> rest_ok tail -> decode_bytes (frame_text b (xs ++ ys) e ++ tail) = Ok cal <->
  exists c1 c2, decode_bytes (frame_text b (xs ++ own_lines ys) e ++ tail) = Ok c1 /\ decode_bytes (frame_text b (own_lines xs ++ ys) e ++ tail) = Ok c2 /\ cal = merged c1 c2.
Proof. exact (decode_halves b xs ys e tail cal). Qed.
Print Assumptions C105_halves.
(** It is read exactly if each of its components is, alone with these lines. *)
Theorem C105_each {env : Env} b items e tail : framed b items e -> rest_ok tail -> readable (frame_text b items e ++ tail) <->
  readable (frame_text b (own_lines items) e ++ tail) /\ Forall (fun c => readable (frame_text b (own_lines items ++ [c]) e ++ tail)) (components items).
Proof. exact (decode_each b items e tail). Qed.
Print Assumptions C105_each.
(** The components of another calendar can be put into it, whatever the other's version and product. *)
Theorem C105_merge {env : Env} b xs e b' ys e' tail tail' c1 c2 : framed b xs e -> framed b' ys e' -> rest_ok tail -> rest_ok tail' ->
  decode_bytes (frame_text b xs e ++ tail) = Ok c1 -> decode_bytes (frame_text b' ys e' ++ tail') = Ok c2 ->
  decode_bytes (frame_text b (xs ++ components ys) e ++ tail) = Ok (merged c1 c2).
Proof. exact (decode_merge b xs e b' ys e' tail tail' c1 c2). Qed.
Print Assumptions C105_merge.
(** A component can be taken out: the others stay as they were. *)
Theorem C105_without {env : Env} b pre c post e tail cal : framed b (pre ++ c :: post) e -> rest_ok tail -> is_line c = false ->
  decode_bytes (frame_text b (pre ++ c :: post) e ++ tail) = Ok cal <->
  exists c1 x c2, decode_bytes (frame_text b (pre ++ own_lines post) e ++ tail) = Ok c1 /\ decode_bytes (frame_text b (own_lines pre ++ c :: own_lines post) e ++ tail) = Ok x /\
    decode_bytes (frame_text b (own_lines pre ++ post) e ++ tail) = Ok c2 /\ cal = merged (merged c1 x) c2 /\ decode_bytes (frame_text b (pre ++ post) e ++ tail) = Ok (merged c1 c2).
Proof. exact (decode_without b pre c post e tail cal). Qed.
Print Assumptions C105_without.
Example C105_applies {env : Env} : framed t_begin t_items t_end /\ framed t_begin m_items t_end /\ rest_ok CRLF /\
  exists c1 c2, decode_bytes (text_of_items t_items) = Ok c1 /\ decode_bytes (text_of_items m_items) = Ok c2 /\
    counts c1 = [1; 1; 1; 0; 0; 0; 1] /\ counts c2 = [1; 1; 1; 1; 0; 0; 0] /\ counts (merged c1 c2) = [1; 1; 2; 1; 0; 0; 1].
Proof. exact merge_case. Qed.
Example C105_one_bad {env : Env} : framed t_begin m_bad t_end /\ readable (text_of_items (own_lines m_bad)) /\ ~ readable (text_of_items m_bad) /\
  map (fun c => is_ok (decode_bytes (text_of_items (own_lines m_bad ++ [c])))) (components m_bad) = [true; true; false].
Proof. exact merge_bad. Qed.
