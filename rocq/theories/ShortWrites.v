(** Model of folder.go and encoder.go with the byte counts that io.Writer returns, which Folder.v leaves out. *)
From Coq Require Import List ZArith Bool.
From Verif Require Import Base Utf8 Folder GoTime Params Props SecTable Sections Codec.
Import ListNotations.
Local Open Scope Z_scope.

Section Counts.
Context {env : Env} {W E : Type}.
(** An [io.Writer]: each call returns a count and an error, if any. *)
Definition io_writer : Type := W -> bytes -> W * Z * option E.
Context (wr : io_writer).

(** folder.go:28-61. As [folder_loop], with the sum [n] of the counts of the calls that write from [q]. *)
Fixpoint count_loop (fuel : nat) (line : Z) (pre rest : bytes) (n : Z) (w : W) : W * Z * option E * Z :=
  match fuel with
  | O => (w, n, None, line)
  | S fuel' =>
    match rest with
    | [] =>
      match pre with
      | [] => (w, n, None, line)
      | _ => let '(w', m, e) := wr w pre in (w', n + m, e, line)
      end
    | _ =>
      let '(r, s) := decode_rune rest in
      let ch := firstn s rest in
      let rest' := skipn s rest in
      let line1 := (line + Z.of_nat s) mod 256 in
      if r =? 10 then count_loop fuel' 0 (pre ++ ch) rest' n w
      else if r =? 13 then count_loop fuel' line1 (pre ++ ch) rest' n w
      else if maxLineLength <? line1 then
        let '(w1, m, e1) := match pre with [] => (w, 0, None) | _ => wr w pre end in
        match e1 with
        | Some _ => (w1, n + m, e1, line1)
        | None =>
          let '(w2, _, e2) := wr w1 eol in
          match e2 with
          | Some _ => (w2, n + m, e2, line1)
          | None => count_loop fuel' ((Z.of_nat s + 1) mod 256) ch rest' (n + m) w2
          end
        end
      else count_loop fuel' line1 (pre ++ ch) rest' n w
    end
  end.

(** folder.go:18-62 [Write]: the new state, and the count and the error that it returns. *)
Definition count_write (st : folder * W) (q : bytes) : folder * W * (Z * option E) :=
  let '(f, w) := st in
  match f_err f with
  | Some e => (f, w, (0, Some e))
  | None =>
    let '(w', n, e, line) := count_loop (S (length q)) (f_line f) [] q 0 w in
    (Folder e line, w', (n, e))
  end.

(** The encoders ignore the results (params.go, properties.go, sections.go; types.go:42-47 hands them to encoding/base64, which
    ignores the count and makes no further call after an error, when [Write] would do nothing). *)
Fixpoint count_trace (st : folder * W) (tr : list wev) : enc_result :=
  match tr with
  | [] => EncDone (f_err (fst st)) (snd st)
  | Wr b :: tr' => count_trace (fst (count_write st b)) tr'
  | Hang :: _ => EncHang (snd st)
  end.

(** encoder.go:15-25 *)
Definition EncodeTo (w : W) (cal : sec) : enc_result :=
  match sec_valid cal with
  | Some e => EncInvalid e w
  | None => count_trace (new_folder, w) (sec_encode cal)
  end.
End Counts.
Arguments io_writer : clear implicits.

(** Any writer, with a record of the calls it got, and what each returned. *)
Definition recording {W E} (wr : io_writer W E) (w : W * list (bytes * Z * option E)) (q : bytes) : (W * list (bytes * Z * option E)) * Z * option E :=
  let '(w', n, e) := wr (fst w) q in ((w', snd w ++ [(q, n, e)]), n, e).
