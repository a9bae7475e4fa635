(** Model of folder.go. *)
From Coq Require Import List ZArith Bool.
From Verif Require Import Base Utf8.
Import ListNotations.
Local Open Scope Z_scope.

(** folder.go:14 *)
Definition maxLineLength : Z := 75.
(** folder.go:16 *)
Definition eol : bytes := [CR; LF; SP].

(** The underlying [io.Writer]: a state machine that returns the error of each call, if any.
    Simplification: the byte count returned by [Write] is dropped; folder.go only sums it into its
    own return value, which every caller in the package ignores. *)
Section Folder.
Context {W E : Type} (wr : W -> bytes -> W * option E).

(** folder.go:8-12 (the field [w] is threaded separately) *)
Record folder := Folder { f_err : option E; f_line : Z }.

(** folder.go:28-61. [pre] is [q[:pos]], [rest] is [q[pos:]]; the counter is a [uint8].
    [fuel] bounds the number of runes. *)
Fixpoint folder_loop (fuel : nat) (line : Z) (pre rest : bytes) (w : W) : W * option E * Z :=
  match fuel with
  | O => (w, None, line)
  | S fuel' =>
    match rest with
    | [] =>
      match pre with
      | [] => (w, None, line)
      | _ => let '(w', e) := wr w pre in (w', e, line)
      end
    | _ =>
      let '(r, s) := decode_rune rest in
      let ch := firstn s rest in
      let rest' := skipn s rest in
      let line1 := (line + Z.of_nat s) mod 256 in
      if r =? 10 then folder_loop fuel' 0 (pre ++ ch) rest' w
      else if r =? 13 then folder_loop fuel' line1 (pre ++ ch) rest' w
      else if maxLineLength <? line1 then
        let '(w1, e1) := match pre with [] => (w, None) | _ => wr w pre end in
        match e1 with
        | Some _ => (w1, e1, line1)
        | None =>
          let '(w2, e2) := wr w1 eol in
          match e2 with
          | Some _ => (w2, e2, line1)
          | None => folder_loop fuel' ((Z.of_nat s + 1) mod 256) ch rest' w2
          end
        end
      else folder_loop fuel' line1 (pre ++ ch) rest' w
    end
  end.

(** folder.go:18-62 [Write] (and 64-66 [WriteString], which is the same). *)
Definition folder_write (st : folder * W) (q : bytes) : folder * W :=
  let '(f, w) := st in
  match f_err f with
  | Some _ => (f, w)
  | None =>
    let '(w', e, line) := folder_loop (S (length q)) (f_line f) [] q w in
    (Folder e line, w')
  end.

(** A sequence of [Write] calls by the encoder; their results are ignored by every caller. *)
Definition folder_writes (st : folder * W) (qs : list bytes) : folder * W :=
  fold_left folder_write qs st.

(** encoder.go:20 *)
Definition new_folder : folder := Folder None 0.

End Folder.
Arguments Folder {E} _ _.
Arguments f_err {E} _.
Arguments f_line {E} _.
Arguments new_folder {E}.

(** Any writer, with a record of the calls it got and what each returned. *)
Definition logging {W E} (wr : W -> bytes -> W * option E) (w : W * list (bytes * option E)) (q : bytes)
  : (W * list (bytes * option E)) * option E :=
  let '(w', e) := wr (fst w) q in ((w', snd w ++ [(q, e)]), e).

(** The writer that always succeeds, recording the calls. *)
Definition ok_writer (w : list bytes) (q : bytes) : list bytes * option Empty_set := (w ++ [q], None).
