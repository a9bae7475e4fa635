(** Models of the Go standard library string helpers that the package calls
    (strings, strconv), and of [itoa] (types.go:321-336). *)
From Coq Require Import String Ascii ZArith Bool List.
From Verif Require Import Base Utf8.
Import ListNotations.
Local Open Scope Z_scope.

(** ** strings *)

Definition up_ascii (c : byte) : byte :=
  if in_range 97 122 (code c) then chr (code c - 32) else c.

(** [strings.ToUpper]. ASCII strings are mapped bytewise; otherwise every rune is mapped with
    [unicode.ToUpper], of which only the ASCII part is written here: [up] is the mapping for runes
    from 128 up. Invalid UTF-8 bytes become U+FFFD, as in [strings.Map]. *)
Definition up_rune_full (up : Z -> Z) (r : Z) : Z :=
  if r <? 128 then (if in_range 97 122 r then r - 32 else r) else up r.

Definition to_upper (up : Z -> Z) (s : bytes) : bytes :=
  if forallb (fun c => code c <? 128) s then map up_ascii s
  else concat (map (fun r => encode_rune (up_rune_full up r)) (runes s)).

(** [strings.Split(s, sep)] for a one-byte separator: always at least one element. *)
Fixpoint split (sep : byte) (s : bytes) : list bytes :=
  match s with
  | [] => [[]]
  | c :: s' =>
    if beqc c sep then [] :: split sep s'
    else match split sep s' with
         | [] => [[c]]
         | w :: ws => (c :: w) :: ws
         end
  end.

(** [strings.IndexByte] / [strings.SplitN(s, sep, 2)]: the text before and after the first
    separator, or [None] when there is none. *)
Fixpoint cut (sep : byte) (s : bytes) : option (bytes * bytes) :=
  match s with
  | [] => None
  | c :: s' =>
    if beqc c sep then Some ([], s')
    else match cut sep s' with
         | Some (a, b) => Some (c :: a, b)
         | None => None
         end
  end.

(** [strings.Join]. *)
Fixpoint join (sep : bytes) (l : list bytes) : bytes :=
  match l with
  | [] => []
  | [w] => w
  | w :: ws => w ++ sep ++ join sep ws
  end.

(** ** strconv *)

Fixpoint digits_val (acc : Z) (s : bytes) : Z :=
  match s with
  | [] => acc
  | c :: s' => digits_val (acc * 10 + (code c - 48)) s'
  end.

(** [strconv.ParseUint(s, 10, bits)]: one or more decimal digits, value below 2^bits. *)
Definition parse_uint (bits : Z) (s : bytes) : option Z :=
  match s with
  | [] => None
  | _ => if forallb is_digit s
         then let v := digits_val 0 s in if v <? 2 ^ bits then Some v else None
         else None
  end.

(** [strconv.ParseInt(s, 10, bits)]: optional sign, then as [ParseUint], in the signed range. *)
Definition parse_int (bits : Z) (s : bytes) : option Z :=
  match s with
  | [] => None
  | c :: s' =>
    let neg := beqc c "-" in
    let mag := if neg || beqc c "+" then s' else s in
    match parse_uint 64 mag with
    | None => None
    | Some v =>
      if neg then (if v <=? 2 ^ (bits - 1) then Some (- v) else None)
      else (if v <? 2 ^ (bits - 1) then Some v else None)
    end
  end.

Definition digit_chr (d : Z) : byte := chr (48 + d).

(** Decimal digits of [n], most significant first, prepended to [acc]. *)
Fixpoint dec_digits (fuel : nat) (n : Z) (acc : bytes) : bytes :=
  match fuel with
  | O => acc
  | S f =>
    let acc' := digit_chr (n mod 10) :: acc in
    if n / 10 =? 0 then acc' else dec_digits f (n / 10) acc'
  end.

(** [strconv.FormatUint(n, 10)]; the fuel (bit length) exceeds the number of digits. *)
Definition fmt_uint (n : Z) : bytes := dec_digits (S (Z.to_nat (Z.log2 n))) n [].

(** [strconv.FormatInt(n, 10)]. *)
Definition fmt_int (n : Z) : bytes :=
  if n <? 0 then "-"%char :: fmt_uint (- n) else fmt_uint n.

(** types.go:321-336 [itoa]: fills a 20-byte array from the end; the fuel is the array size. *)
Fixpoint itoa_loop (pos : nat) (n : Z) (acc : bytes) : bytes :=
  match pos with
  | O => acc
  | S p => if 0 <? n then itoa_loop p (n / 10) (digit_chr (n mod 10) :: acc) else acc
  end.
Definition itoa (n : Z) : bytes :=
  if n =? 0 then [digit_chr 0] else itoa_loop 20 n [].

(** [strconv.ParseBool]. *)
Definition parse_bool (s : bytes) : option bool :=
  if existsb (beq s) [bs "1"; bs "t"; bs "T"; bs "true"; bs "TRUE"; bs "True"] then Some true
  else if existsb (beq s) [bs "0"; bs "f"; bs "F"; bs "false"; bs "FALSE"; bs "False"] then Some false
  else None.
