(** Specification of content lines (RFC 5545 section 3.1), independent of the tokeniser. *)
From Coq Require Import String Ascii ZArith Bool List.
From Verif Require Import Base Strtok Tokeniser.
Import ListNotations.
Local Open Scope Z_scope.

(** Letters, digits and the hyphen. *)
Definition name_char (c : byte) : bool :=
  ((65 <=? code c) && (code c <=? 90)) || ((97 <=? code c) && (code c <=? 122)) ||
  ((48 <=? code c) && (code c <=? 57)) || (code c =? 45).
(** Anything but control characters; TAB is allowed. *)
Definition value_char (c : byte) : bool := negb (code c =? 127) && ((32 <=? code c) || (code c =? 9)).
(** ... and no double quote. *)
Definition quoted_char (c : byte) : bool := value_char c && negb (code c =? 34).
(** ... and no semicolon, colon or comma. *)
Definition safe_char (c : byte) : bool :=
  quoted_char c && negb (code c =? 59) && negb (code c =? 58) && negb (code c =? 44).

(** A parameter value, with or without double quotes. *)
Inductive pvalue := Quoted (v : bytes) | Plain (v : bytes).
Definition pvalue_text (v : pvalue) : bytes := match v with Quoted v | Plain v => v end.

(** A parameter: its name, its first value and its other values. *)
Record cparam := CParam { cp_name : bytes; cp_first : pvalue; cp_more : list pvalue }.
Record cline := CLine { cl_name : bytes; cl_params : list cparam; cl_value : bytes }.

Definition pvalue_wf (v : pvalue) : bool :=
  match v with Quoted v => forallb quoted_char v | Plain v => forallb safe_char v end.
Definition cparam_wf (p : cparam) : bool :=
  forallb name_char (cp_name p) && pvalue_wf (cp_first p) && forallb pvalue_wf (cp_more p).
Definition cline_wf (l : cline) : bool :=
  match cl_name l with [] => false | _ => true end && forallb name_char (cl_name l) &&
  forallb cparam_wf (cl_params l) && forallb value_char (cl_value l).

Definition pvalue_render (v : pvalue) : bytes :=
  match v with Quoted v => [DQ] ++ v ++ [DQ] | Plain v => v end.
Definition more_render (l : list pvalue) : bytes := concat (map (fun v => bs "," ++ pvalue_render v) l).
Definition cparam_render (p : cparam) : bytes :=
  bs ";" ++ cp_name p ++ bs "=" ++ pvalue_render (cp_first p) ++ more_render (cp_more p).
(** The line without the CR LF that ends it. *)
Definition cline_render (l : cline) : bytes :=
  cl_name l ++ concat (map cparam_render (cl_params l)) ++ bs ":" ++ cl_value l.

(** The tokens of a line. *)
Definition pvalue_token (v : pvalue) : token :=
  match v with Quoted v => Token tokenParamQuotedValue v | Plain v => Token tokenParamValue v end.
Definition cparam_tokens (p : cparam) : list token :=
  Token tokenParamName (cp_name p) :: pvalue_token (cp_first p) :: map pvalue_token (cp_more p).
Definition params_tokens (l : list cparam) : list token := flat_map cparam_tokens l.
Definition cline_tokens (l : cline) : list token :=
  [Token tokenName (cl_name l)] ++ params_tokens (cl_params l) ++ [Token tokenValue (cl_value l)].

(** A line is ended by CR LF or by the end of the input; the tokeniser that is left to read the rest. *)
Inductive line_end : bytes -> tkz -> Prop :=
| LE_crlf r : line_end (CR :: LF :: r) (Tkz SName (Tok [] r))
| LE_eof : line_end [] (Tkz SDone (Tok [] [])).

(** A tokeniser at the start of a line with [s] to be read. *)
Inductive ready : tkz -> bytes -> Prop :=
| R_name s : ready (Tkz SName (Tok [] s)) s
| R_done : ready (Tkz SDone (Tok [] [])) [].
