(** What letters and characters are, apart from the model: the alphabet, and UTF-8 as RFC 3629 has it. *)
From Coq Require Import String Ascii ZArith Bool List.
From Verif Require Import Base.
Import ListNotations.
Local Open Scope Z_scope.

(** Each small letter with its capital. *)
Definition letters : list (byte * byte) := combine (bs "abcdefghijklmnopqrstuvwxyz") (bs "ABCDEFGHIJKLMNOPQRSTUVWXYZ").
Definition same_letter (a b : byte) : Prop := a = b \/ In (a, b) letters \/ In (b, a) letters.
(** Two texts that differ in the case of letters only. *)
Definition same_but_case (s t : bytes) : Prop := Forall2 same_letter s t.
Definition is_ascii (s : bytes) : Prop := Forall (fun c => code c < 128) s.

(** RFC 3629, section 4: the octets of a character and its number. *)
Definition tail_octet (b : byte) : Prop := 128 <= code b <= 191.
Inductive char_of : Z -> bytes -> Prop :=
| Ch_1 a : code a <= 127 -> char_of (code a) [a]
| Ch_2 a b : 194 <= code a <= 223 -> tail_octet b -> char_of ((code a - 192) * 64 + (code b - 128)) [a; b]
| Ch_3 a b c : 224 <= code a <= 239 -> tail_octet b -> tail_octet c -> (code a = 224 -> 160 <= code b) -> (code a = 237 -> code b <= 159) ->
    char_of ((code a - 224) * 4096 + (code b - 128) * 64 + (code c - 128)) [a; b; c]
| Ch_4 a b c d : 240 <= code a <= 244 -> tail_octet b -> tail_octet c -> tail_octet d -> (code a = 240 -> 144 <= code b) -> (code a = 244 -> code b <= 143) ->
    char_of ((code a - 240) * 262144 + (code b - 128) * 4096 + (code c - 128) * 64 + (code d - 128)) [a; b; c; d].
(** Go's range over a text: its characters, with U+FFFD for each octet with which no character begins. *)
Inductive ranges : bytes -> list Z -> Prop :=
| Ra_end : ranges [] []
| Ra_char r p s rs : char_of r p -> ranges s rs -> ranges (p ++ s) (r :: rs)
| Ra_bad a s rs : (forall r p q, a :: s = p ++ q -> ~ char_of r p) -> ranges s rs -> ranges (a :: s) (65533 :: rs).
(** RFC 5545, section 3.3.11: a character in a text. *)
Definition in_text (p : bytes) : bytes :=
  if beq p (bs "\") then bs "\\" else if beq p (bs ";") then bs "\;" else if beq p (bs ",") then bs "\," else if beq p [LF] then bs "\n" else p.
