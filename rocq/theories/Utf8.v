(** Model of Go's unicode/utf8 DecodeRune and EncodeRune (Go standard library). *)
From Coq Require Import List ZArith Bool.
From Verif Require Import Base.
Import ListNotations.
Local Open Scope Z_scope.

Definition RuneError : Z := 65533.

Definition in_range (lo hi x : Z) : bool := (lo <=? x) && (x <=? hi).

(** unicode/utf8 [DecodeRune]: rune and its width in bytes. The table [first]/[acceptRanges] of the
    Go implementation is written out as byte ranges. Empty input gives (RuneError, 0); an invalid
    encoding gives (RuneError, 1). *)
Definition decode_rune (l : bytes) : Z * nat :=
  match l with
  | [] => (RuneError, 0%nat)
  | c0 :: l1 =>
    let b0 := code c0 in
    if b0 <? 128 then (b0, 1%nat)
    else if in_range 194 223 b0 then
      match l1 with
      | c1 :: _ =>
        let b1 := code c1 in
        if in_range 128 191 b1 then ((b0 - 192) * 64 + (b1 - 128), 2%nat) else (RuneError, 1%nat)
      | _ => (RuneError, 1%nat)
      end
    else if in_range 224 239 b0 then
      match l1 with
      | c1 :: c2 :: _ =>
        let b1 := code c1 in let b2 := code c2 in
        let lo := if b0 =? 224 then 160 else 128 in
        let hi := if b0 =? 237 then 159 else 191 in
        if in_range lo hi b1 && in_range 128 191 b2
        then ((b0 - 224) * 4096 + (b1 - 128) * 64 + (b2 - 128), 3%nat)
        else (RuneError, 1%nat)
      | _ => (RuneError, 1%nat)
      end
    else if in_range 240 244 b0 then
      match l1 with
      | c1 :: c2 :: c3 :: _ =>
        let b1 := code c1 in let b2 := code c2 in let b3 := code c3 in
        let lo := if b0 =? 240 then 144 else 128 in
        let hi := if b0 =? 244 then 143 else 191 in
        if in_range lo hi b1 && in_range 128 191 b2 && in_range 128 191 b3
        then ((b0 - 240) * 262144 + (b1 - 128) * 4096 + (b2 - 128) * 64 + (b3 - 128), 4%nat)
        else (RuneError, 1%nat)
      | _ => (RuneError, 1%nat)
      end
    else (RuneError, 1%nat)
  end.

Definition valid_rune (r : Z) : bool :=
  in_range 0 55295 r || in_range 57344 1114111 r.

(** unicode/utf8 [EncodeRune]; surrogates and out-of-range values encode RuneError. *)
Definition encode_rune (r : Z) : bytes :=
  let r := if valid_rune r then r else RuneError in
  if r <? 128 then [chr r]
  else if r <? 2048 then [chr (192 + r / 64); chr (128 + r mod 64)]
  else if r <? 65536 then [chr (224 + r / 4096); chr (128 + (r / 64) mod 64); chr (128 + r mod 64)]
  else [chr (240 + r / 262144); chr (128 + (r / 4096) mod 64); chr (128 + (r / 64) mod 64); chr (128 + r mod 64)].

(** [for _, c := range s]: the runes of a string. *)
Fixpoint runes_fuel (fuel : nat) (l : bytes) : list Z :=
  match fuel with
  | O => []
  | S f =>
    match l with
    | [] => []
    | _ => let '(r, w) := decode_rune l in r :: runes_fuel f (skipn w l)
    end
  end.
Definition runes (l : bytes) : list Z := runes_fuel (length l) l.

(** Valid UTF-8, as a specification: a concatenation of encodings of Unicode scalar values. *)
Definition utf8 (s : bytes) : Prop :=
  exists rs, Forall (fun r => valid_rune r = true) rs /\ s = concat (map encode_rune rs).
