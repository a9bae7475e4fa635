(** Model of decoder.go and encoder.go. *)
From Coq Require Import String Ascii ZArith Bool List.
From Verif Require Import Base Utf8 GoStrings Strtok Tokeniser GoTime Types Params ParamTable PropTable Props SecTable Sections Folder Unfolder.
Import ListNotations.

Section Codec.
Context {env : Env}.

(** decoder.go:16-38 on the bytes that come out of the unfolder. *)
Definition decode_src (fuel : nat) (s : src) : res sec :=
  let! (ph, s) := get_ph s in
  match ph with
  | PhraseDone => Err ErrUnexpectedEOF
  | PhraseLine data =>
    let! (name, _, value) := parts data in
    if beq (upper name) (bs "BEGIN") && beq (upper value) (bs "VCALENDAR") then
      let! (c, _) := dec_sec fuel SCalendar (no_fields SCalendar) s in Ok c
    else Err ErrInvalidCalendar
  end.

(** Every line is at least one byte; a theorem shows that this fuel is always enough. *)
Definition decode_bytes (s : bytes) : res sec :=
  decode_src (S (S (length s))) (SrcTok (new_tokeniser s)).

(** decoder.go:16-38. The reader gives [chunks] and then io.EOF, with the last chunk if [w].
    Simplification: the unfolder is drained before parsing starts, by a consumer with request
    sizes [sizes]. The Go code reads on demand; OnDemand.v models that, and C82 says that the
    result is the same. *)
Definition Decode (fuel : nat) (sizes : nat -> nat) (chunks : list bytes) (w : bool) : res sec :=
  let! (d, _) := drain fuel sizes 0 [] (Rdr chunks w REOF) [] in
  decode_bytes d.

(** encoder.go:15-26 *)
Section Encode.
Context {W E : Type} (wr : W -> bytes -> W * option E).

Inductive enc_result :=
| EncInvalid (e : gerr) (w : W)         (* refused by [valid] *)
| EncHang (w : W)                       (* never returns *)
| EncDone (e : option E) (w : W).       (* returns the folder's error *)

(** The encoders ignore the results of [Write]; a computation that hangs does so even when the
    folder has already failed. *)
Fixpoint run_trace (st : folder * W) (tr : list wev) : enc_result :=
  match tr with
  | [] => EncDone (f_err (fst st)) (snd st)
  | Wr b :: tr' => run_trace (folder_write wr st b) tr'
  | Hang :: _ => EncHang (snd st)
  end.

Definition Encode (w : W) (cal : sec) : enc_result :=
  match sec_valid cal with
  | Some e => EncInvalid e w
  | None => run_trace (new_folder, w) (sec_encode cal)
  end.

End Encode.

End Codec.
Arguments EncInvalid {W E} _ _.
Arguments EncHang {W E} _.
Arguments EncDone {W E} _ _.
