(** Properties C47, C109 and C110: what the words of their statements mean, apart from the model. [same_but_case s t]: [s] and [t] differ
    in the case of the letters of the alphabet only; [char_of r p]: [p] is the character with the number [r] in RFC 3629; [ranges s rs]: the characters of
    [s], with U+FFFD for each octet with which none begins; [in_text p]: a character in a text of RFC 5545 (SpecLetters.v). *)
From Coq Require Import String Ascii ZArith Bool List.
From Verif Require Import Base Utf8 GoTime Types Params SpecEdits SpecLetters LetterProofs SampleLetters.
Import ListNotations.
Local Open Scope Z_scope.

(** C47: names that differ in the case of letters are alike, whatever else is in them; no other names in ASCII are. *)
Theorem C47_letters {env : Env} s t : (same_but_case s t -> like s t) /\ (is_ascii s -> is_ascii t -> like s t -> same_but_case s t).
Proof. exact (conj (letters_like s t) (like_letters s t)). Qed.
Print Assumptions C47_letters.
(** What names are compared with is the name in capitals. *)
Theorem C47_capitals {env : Env} s : is_ascii s -> same_but_case s (upper s) /\ Forall (fun c => forall d, ~ In (c, d) letters) (upper s).
Proof. exact (upper_letters s). Qed.
Print Assumptions C47_capitals.
Example C47_letters_applies {env : Env} : same_but_case (bs "Dtstart") (bs "dTSTART") /\ like (bs "Dtstart") (bs "dTSTART") /\ ~ same_but_case (bs "DTSTART") (bs "DTSTAMP") /\ ~ same_but_case (bs "a{") (bs "A[").
Proof. exact letters_case. Qed.

(** C109: what is called UTF-8 is what RFC 3629 calls so. *)
Theorem C109_is_utf8 s : utf8 s <-> exists rs ps, Forall2 char_of rs ps /\ s = concat ps.
Proof. exact (utf8_chars s). Qed.
Print Assumptions C109_is_utf8.

(** C110: a text is written as its characters, with U+FFFD for each octet with which no character begins, and with a backslash where one belongs. *)
Theorem C110_what_is_written {env : Env} t : exists rs ps, ranges t rs /\ Forall2 char_of rs ps /\ value_encode (VText t) = [concat (map in_text ps)].
Proof. exact (text_written t). Qed.
Print Assumptions C110_what_is_written.
(** These characters are the only ones. *)
Theorem C110_characters s rs : ranges s rs <-> runes s = rs.
Proof. exact (ranges_iff s rs). Qed.
Print Assumptions C110_characters.
Example C110_octets_apply {env : Env} : ranges e_and_bad [233; 65533; 65533; 65533; 65533] /\
  value_encode (VText e_and_bad) = [[chr 195; chr 169] ++ concat (repeat [chr 239; chr 191; chr 189] 4)].
Proof. exact ranges_case. Qed.
