(** Which errors say what is wrong, written out by hand. *)
From Coq Require Import List.
From Verif Require Import Base Types Params PropTable.
Import ListNotations.

(** The errors of a value of each type. [ErrStd] is an error of Go's time, url, strconv or base64 package. *)
Definition value_errors (k : vkind) : list gerr :=
  match k with
  | KBinary => [ErrInvalidEncoding; ErrStd]
  | KBoolean => [ErrInvalidBoolean]
  | KCalendarAddress | KURI | KDate | KDateTime | KTime | KFloat | KInteger => [ErrStd]
  | KTFloat => [ErrInvalidTFloat; ErrStd]
  | KDuration => [ErrInvalidDuration; ErrStd]
  | KPeriod => [ErrInvalidPeriod; ErrInvalidDuration; ErrStd]
  | KRecur => [ErrInvalidRecur]
  | KText | KMText => [ErrInvalidText]
  | KUTCOffset => [ErrInvalidOffset]
  end.
(** The errors of the parameters. *)
Definition param_errors : list gerr := [ErrInvalidParam; ErrDuplicateParam; ErrInvalidValue; ErrInvalidBoolean; ErrStd].

(** The errors of a property: those of the types that its value may have, and those of parameters. *)
Definition prop_errors (k : propkind) : list gerr :=
  match k with
  | MStruct _ vs => param_errors ++ flat_map (fun v => value_errors (snd v)) vs
  | MEnum _ => [ErrInvalidValue]
  | MNew k => value_errors k
  end.

(** The errors about the structure of the text: none of them is about a value. *)
Definition structure_errors : list gerr :=
  [ErrUnexpectedEOF; ErrInvalidCalendar; ErrInvalidContentLine; ErrInvalidContentLineName; ErrInvalidContentLineParamName;
   ErrInvalidContentLineQuotedParamValue; ErrInvalidContentLineParamValue; ErrInvalidContentLineValue;
   ErrInvalidEnd; ErrMissingRequired; ErrRequirementNotMet; ErrMultiple; ErrInvalidStructure; ErrMissingAlarmAction].
Definition line_errors : list gerr :=
  [ErrInvalidContentLine; ErrInvalidContentLineName; ErrInvalidContentLineParamName;
   ErrInvalidContentLineQuotedParamValue; ErrInvalidContentLineParamValue; ErrInvalidContentLineValue].
