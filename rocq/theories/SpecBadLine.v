(** Lines that are not content lines, and the error for each: what is wrong first. Independent of the tokeniser;
    the classes of characters are those of SpecContent.v. *)
From Coq Require Import String Ascii ZArith Bool List.
From Verif Require Import Base SpecContent.
Import ListNotations.

(** The text is at its end or goes on with a character that is not in the class and none of [but]. *)
Inductive stops (class : ascii -> bool) (but : bytes) : bytes -> Prop :=
| Stop_end : stops class but []
| Stop_char c r : class c = false -> ~ In c but -> stops class but (c :: r).

(** A parameter value, read after the equals sign or a comma *)
Inductive bad_value : bytes -> gerr -> Prop :=
| BV_open v r : forallb quoted_char v = true -> stops quoted_char [DQ] r ->
    bad_value (DQ :: v ++ r) ErrInvalidContentLineQuotedParamValue
| BV_quoted v r : forallb quoted_char v = true -> stops (fun _ => false) (bs ",;:") r ->
    bad_value (DQ :: v ++ DQ :: r) ErrInvalidContentLineParamValue
| BV_plain v r : forallb safe_char v = true -> stops safe_char (bs ",;:") r -> (forall r', v ++ r <> DQ :: r') ->
    bad_value (v ++ r) ErrInvalidContentLineParamValue.

(** What follows the name of a line, or one of its parameter values *)
Inductive bad_rest : bytes -> gerr -> Prop :=
(** a value, and then neither CR LF nor the end of the text *)
| BR_value v c r : forallb value_char v = true -> value_char c = false -> (forall r', c :: r <> CRLF ++ r') ->
    bad_rest (bs ":" ++ v ++ c :: r) ErrInvalidContentLineValue
(** a parameter without an equals sign after its name *)
| BR_name p r : forallb name_char p = true -> stops name_char (bs "=") r ->
    bad_rest (bs ";" ++ p ++ r) ErrInvalidContentLineParamName
| BR_first p r e : forallb name_char p = true -> bad_value r e -> bad_rest (bs ";" ++ p ++ bs "=" ++ r) e
| BR_next r e : bad_value r e -> bad_rest (bs "," ++ r) e
(** a good value, and then something bad *)
| BR_param p v r e : forallb name_char p = true -> pvalue_wf v = true -> bad_rest r e ->
    bad_rest (bs ";" ++ p ++ bs "=" ++ pvalue_render v ++ r) e
| BR_more v r e : pvalue_wf v = true -> bad_rest r e -> bad_rest (bs "," ++ pvalue_render v ++ r) e.

Inductive bad_line : bytes -> gerr -> Prop :=
| BL_start c r : name_char c = false -> bad_line (c :: r) ErrInvalidContentLine
| BL_name n r : n <> [] -> forallb name_char n = true -> stops name_char (bs ";:") r ->
    bad_line (n ++ r) ErrInvalidContentLineName
| BL_rest n r e : n <> [] -> forallb name_char n = true -> (forall r', r <> bs "," ++ r') -> bad_rest r e ->
    bad_line (n ++ r) e.
