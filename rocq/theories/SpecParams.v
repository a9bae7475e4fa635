(** Specification of parameter texts (RFC 6868) and of the parameters that survive being written. *)
From Coq Require Import String Ascii ZArith Bool List.
From Verif Require Import Base SpecContent GoTime Types Params.
Import ListNotations.
Local Open Scope Z_scope.

(** The characters that have to be escaped. *)
Definition special68 (c : byte) : Prop := c = LF \/ c = "^"%char \/ c = DQ.
(** RFC 6868: how a text is written, ... *)
Fixpoint rfc_escape (t : bytes) : bytes :=
  match t with
  | [] => []
  | c :: t' => (if beqc c LF then bs "^n" else if beqc c "^" then bs "^^" else if beqc c DQ then bs "^'" else [c]) ++ rfc_escape t'
  end.
(** ... and what a written text means; a caret before any other character is kept. *)
Inductive rfc_reads : bytes -> bytes -> Prop :=
| R_end : rfc_reads [] []
| R_plain c s t : c <> "^"%char -> rfc_reads s t -> rfc_reads (c :: s) (c :: t)
| R_lf s t : rfc_reads s t -> rfc_reads ("^"%char :: "n"%char :: s) (LF :: t)
| R_caret s t : rfc_reads s t -> rfc_reads ("^"%char :: "^"%char :: s) ("^"%char :: t)
| R_quote s t : rfc_reads s t -> rfc_reads ("^"%char :: "'"%char :: s) (DQ :: t)
| R_other c s t : ~ In c ["n"; "^"; "'"]%char -> rfc_reads (c :: s) t -> rfc_reads ("^"%char :: c :: s) ("^"%char :: t)
| R_lone : rfc_reads ["^"%char] ["^"%char].
(** What the code makes of it instead: the character is put before the escape, which is kept; before
    a caret with any other character (of one to four bytes) two carets are put. *)
Inductive code_reads : bytes -> bytes -> Prop :=
| K_end : code_reads [] []
| K_plain c s t : c <> "^"%char -> code_reads s t -> code_reads (c :: s) (c :: t)
| K_lf s t : code_reads s t -> code_reads ("^"%char :: "n"%char :: s) (LF :: bs "^n" ++ t)
| K_caret s t : code_reads s t -> code_reads ("^"%char :: "^"%char :: s) (bs "^" ++ bs "^^" ++ t)
| K_quote s t : code_reads s t -> code_reads ("^"%char :: "'"%char :: s) (DQ :: bs "^'" ++ t)
| K_other c s u t : ~ In c ["n"; "^"; "'"]%char -> (length u <= 3)%nat -> code_reads s t ->
    code_reads ("^"%char :: c :: u ++ s) (bs "^^" ++ "^"%char :: c :: u ++ t)
| K_lone : code_reads ["^"%char] ["^"%char].
(** A caret with something after it. *)
Definition has_escape (s : bytes) : Prop := exists a c b, s = a ++ "^"%char :: c :: b.

Section Good.
Context {env : Env}.

(** A text that is written as it is: no control character but TAB, no caret and no double quote. *)
Definition text_good (s : bytes) : Prop := forallb value_char s = true /\ forall c, In c s -> ~ special68 c.

(** The values of a parameter that are written so that they are read back. URI and address parameters
    have none (see C37); an empty text and a false RSVP are not written at all. *)
Definition param_good (k : pkind) (v : pval) : Prop :=
  match k, v with
  | PKText _, PVText s => s <> [] /\ text_good s
  | PKTexts, PVTexts l => l <> [] /\ Forall text_good l
  | PKEnum true ws, PVEnum n => 0 <= n <= Z.of_nat (length ws)
  | PKEnum false ws, PVEnum n => 0 <= n < Z.of_nat (length ws)
  | PKUnit _, PVUnit => True
  | PKRegex, PVText s => regex_match s = true /\ text_good s
  | PKBool, PVBool b => b = true
  | _, _ => False
  end.
End Good.
