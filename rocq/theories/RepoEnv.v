(** What the tests of the code need of the standard library, and what each kind of test says of the model.
    Addresses are their texts; New York is five hours behind UTC (since 1883: the dates of the tests are in
    winter), local time is two hours ahead, and finite numbers are texts that start with a digit. *)
From Coq Require Import String Ascii ZArith Bool List.
From Verif Require Import Base Utf8 GoStrings GoTime Types Folder Unfolder Tokeniser.
Import ListNotations.
Local Open Scope Z_scope.

Global Instance repo_env : Env := {|
  url := bytes;
  url_parse := fun s => Some s;
  url_string := fun u => u;
  zone := bytes;
  zone_name := fun z => z;
  zone_lookup := fun _ t => if t <? -2717650800 then (-17762, - 2 ^ 63, -2717650800) else (-18000, -2717650800, 2 ^ 63 - 1);
  load_zone := fun n => if beq n (bs "America/New_York") then Some n else None;
  local_lookup := fun _ => (7200, - 2 ^ 63, 2 ^ 63 - 1);
  fin := bytes;
  fin_parse := fun s => match s with c :: _ => if is_digit c then Some s else None | [] => None end;
  fin_format := fun f => f;
  up_rune := fun r => r
|}.
Definition new_york : loc := LZone (bs "America/New_York" : zone) 0.

(** types_test.go: parameters, text, value, and the text that is written for the value. *)
Definition read_written (k : vkind) (c : pmap * bytes * value * bytes) : Prop :=
  let '(m, s, v, out) := c in value_decode k m s = Ok v /\ value_valid v = None /\ concat (value_encode v) = out.
Definition refused (k : vkind) (c : pmap * bytes * gerr) : Prop := let '(m, s, e) := c in value_decode k m s = Err e.

(** folder_test.go: written at once, and rune by rune. *)
Fixpoint runes (fuel : nat) (s : bytes) : list bytes :=
  match fuel, s with
  | S f, _ :: _ => let n := snd (decode_rune s) in firstn n s :: runes f (skipn n s)
  | _, _ => []
  end.
Definition folded (c : bytes * bytes) : Prop :=
  let '(s, out) := c in
  concat (snd (folder_writes ok_writer (new_folder, []) [s])) = out /\
  concat (snd (folder_writes ok_writer (new_folder, []) (runes (length s) s))) = out.

(** unfolder_test.go: read with a large buffer (io.Copy), and byte by byte. *)
Definition unfolded (c : bytes * bytes) : Prop :=
  let '(s, out) := c in
  drain 400 (fun _ => 1024%nat) 0 [] (Rdr [s] false REOF) [] = Ok (out, REOF) /\
  drain 400 (fun _ => 1%nat) 0 [] (Rdr [s] false REOF) [] = Ok (out, REOF).

(** tokeniser_test.go *)
Definition line_read (c : bytes * list token) : Prop :=
  let '(s, l) := c in match get_phrase (new_tokeniser s) with Ok (PhraseLine l', _) => Some l' | _ => None end = Some l.
Definition line_refused (c : bytes * gerr) : Prop :=
  let '(s, e) := c in match get_phrase (new_tokeniser s) with Err e' => Some e' | _ => None end = Some e.

Ltac run := match goal with |- _ = ?r => vm_cast_no_check (@eq_refl _ r) end.
