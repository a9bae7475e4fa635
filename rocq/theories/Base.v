(** Bytes, outcomes and errors shared by the whole model. *)
From Coq Require Import String Ascii ZArith NArith Bool List.
Import ListNotations.

(** A Go [byte] is an [ascii] (eight bits); a Go [string] or [[]byte] is a list of bytes. *)
Notation byte := ascii (only parsing).
Notation bytes := (list ascii) (only parsing).

(** Literal helper: the bytes of a Coq string literal. *)
Definition bs (s : string) : bytes := list_ascii_of_string s.
Arguments bs _%string_scope.

(** Numeric value of a byte and back. *)
Definition code (c : byte) : Z := Z.of_N (N_of_ascii c).
Definition chr (z : Z) : byte := ascii_of_N (Z.to_N z).

Definition CR : byte := chr 13.
Definition LF : byte := chr 10.
Definition SP : byte := chr 32.
Definition TAB : byte := chr 9.
Definition DQ : byte := chr 34.
Definition CRLF : bytes := [CR; LF].

Definition beqc := Ascii.eqb.

Fixpoint beq (a b : bytes) : bool :=
  match a, b with
  | [], [] => true
  | x :: a', y :: b' => beqc x y && beq a' b'
  | _, _ => false
  end.

(** Membership of a byte in a literal character set. *)
Definition inset (c : byte) (set : bytes) : bool := existsb (beqc c) set.

(** Longest prefix of bytes satisfying [p], and the rest. *)
Fixpoint span (p : byte -> bool) (l : bytes) : bytes * bytes :=
  match l with
  | [] => ([], [])
  | c :: l' => if p c then let '(a, b) := span p l' in (c :: a, b) else ([], l)
  end.

Definition is_digit (c : byte) : bool := (48 <=? code c)%Z && (code c <=? 57)%Z.

(** The sentinel errors of the package ([errors.Is] view: wrapping by [fmt.Errorf] is transparent).
    tokeniser.go:174-181, types.go:1578-1603, params.go:1243-1246, properties.go (ErrDuplicateParam),
    sections.go:4201-4205, sections_alarm.go:137-141, decoder.go.
    [ErrMultiple] is [fmt.Errorf(errMultiple, ...)], which wraps nothing.
    [ErrStd] stands for any error made by the Go standard library. *)
Inductive gerr :=
| ErrUnexpectedEOF | ErrInvalidCalendar
| ErrInvalidContentLine | ErrInvalidContentLineName | ErrInvalidContentLineParamName
| ErrInvalidContentLineQuotedParamValue | ErrInvalidContentLineParamValue | ErrInvalidContentLineValue
| ErrInvalidEncoding | ErrInvalidPeriod | ErrInvalidDuration | ErrInvalidText | ErrInvalidBoolean
| ErrInvalidOffset | ErrInvalidRecur | ErrInvalidTime | ErrInvalidFloat | ErrInvalidTFloat
| ErrInvalidPeriodStart | ErrInvalidPeriodDuration | ErrInvalidPeriodEnd
| ErrInvalidRecurFrequency | ErrInvalidRecurBySecond | ErrInvalidRecurByMinute | ErrInvalidRecurByHour
| ErrInvalidRecurByDay | ErrInvalidRecurByMonthDay | ErrInvalidRecurByYearDay | ErrInvalidRecurByWeekNum
| ErrInvalidRecurByMonth | ErrInvalidRecurBySetPos | ErrInvalidRecurWeekStart
| ErrInvalidParam | ErrInvalidValue | ErrDuplicateParam
| ErrInvalidEnd | ErrMissingRequired | ErrRequirementNotMet | ErrMultiple
| ErrInvalidStructure | ErrMissingAlarmAction | ErrInvalidAlarm
| ErrStd.

(** Outcome of a Go call: a value, an error, a run-time panic, or fuel exhaustion of the model
    (excluded by theorems, or shown to persist for every amount of fuel: non-termination). *)
Inductive res (A : Type) :=
| Ok (a : A)
| Err (e : gerr)
| Panic
| NoFuel.
Arguments Ok {A} _.
Arguments Err {A} _.
Arguments Panic {A}.
Arguments NoFuel {A}.

Definition bind {A B} (r : res A) (f : A -> res B) : res B :=
  match r with
  | Ok a => f a
  | Err e => Err e
  | Panic => Panic
  | NoFuel => NoFuel
  end.

Notation "'let!' p ':=' r 'in' k" := (bind r (fun p => k))
  (at level 200, p pattern, r at level 100, k at level 200).

Definition of_option {A} (e : gerr) (o : option A) : res A :=
  match o with Some a => Ok a | None => Err e end.

Definition is_ok {A} (r : res A) : bool := match r with Ok _ => true | _ => false end.

(** [strings.ContainsAny] for an ASCII character set. *)
Definition contains_any (s set : bytes) : bool := existsb (fun c => inset c set) s.
