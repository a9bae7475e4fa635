(** Characters and bytes. *)
From Coq Require Import String Ascii ZArith Bool List.
From Verif Require Import Base Strtok Tokeniser.
Import ListNotations.
Local Open Scope Z_scope.

Definition all_ascii (set : bytes) : Prop := Forall (fun c => code c < 128) set.

(** A character and a byte that no comparison with an ASCII character tells apart. *)
Definition looks (r : option Z) (c : option byte) : Prop :=
  match r, c with
  | Some r, Some c => r = code c \/ 128 <= r /\ 128 <= code c
  | None, None => True
  | _, _ => False
  end.

(** The sets of characters that the package passes to the library: tokeniser.go:38-150 ... *)
Definition sets_used : list bytes :=
  [ianaToken; bs ";"; bs "=,"; [DQ]; nonsafe33; nonsafeChars; bs ":"; nonsafe32; [CR]; [LF];
   (* ... types.go:219-319, 1251-1286, 1325-1371, 1468-1526 ... *)
   bs "T"; digits_set; bs "W"; bs "D"; bs "H"; bs "M"; bs "S"; bs "-"; bs "+"; bs "P"; bs "\,;"; bs "\"; bs ",";
   (* ... and params.go:1184-1236 *)
   bs "^"; [LF] ++ bs "^" ++ [DQ]].
