(** Decode (decoder.go:16-38) with any io.Reader. Unfolder.v and OnDemand.v have the reader as the pieces that it will return; here it
    is a function with a state of its own, which may look at the buffers it is given and decide each time what to return. *)
From Coq Require Import List Arith ZArith Bool.
From Verif Require Import Base Tokeniser GoTime Params SecTable Props Sections Unfolder OnDemand.
Import ListNotations.

Section AnyReader.
Context {env : Env} {R : Type}.

(** An [io.Reader]: from its state and the length of the buffer, the bytes, the error if any, and the new state. *)
Definition io_reader : Type := R -> nat -> bytes * option rerr * R.
Context (read : io_reader).

(** unfolder.go:29-45 *)
Fixpoint a_fill (fuel : nat) (out : bytes) (free : nat) (r : R) : res (bytes * option rerr * R) :=
  match fuel with
  | O => NoFuel
  | S f =>
    if free =? 0 then Ok (out, None, r)
    else
      let '(d, e, r') := read r free in
      let! (front, p, toRead) := remove_folds (S f) [] d 0 in
      if length p <? toRead then Panic
      else
        let out' := out ++ front ++ firstn (length p - toRead) p in
        match e with
        | None => a_fill f out' toRead r'
        | Some _ => Ok (out', e, r')
        end
  end.

(** unfolder.go:14-83 *)
Fixpoint a_call (fuel : nat) (buf : bytes) (r : R) (L : nat) : res (bytes * Z * option rerr * bytes * R) :=
  match fuel with
  | O => NoFuel
  | S f =>
    let n := min L (length buf) in
    let! (q, e, r') := a_fill (S f) (firstn n buf) (L - n) r in
    match e with
    | Some _ => Ok (q, Z.of_nat (length q), e, skipn n buf, r')
    | None => a_look f q (Z.of_nat (length q)) (skipn n buf) r'
    end
  end
with a_look (fuel : nat) (q : bytes) (m : Z) (buf : bytes) (r : R) : res (bytes * Z * option rerr * bytes * R) :=
  match fuel with
  | O => NoFuel
  | S f =>
    let lq := length q in
    if ends_cr q then
      let '(d, e, r1) := read r 2 in
      if length d <? 2 then Ok (q, m, e, d, r1)
      else if beq d [LF; SP] then
        match e with
        | Some _ => Ok (q, m - 1, e, d, r1)%Z
        | None =>
          let '(d2, e2, r2) := read r1 1 in
          let q2 := put q (lq - 1) d2 in
          let m2 := (m - 1 + Z.of_nat (length d2))%Z in
          match e2 with
          | Some _ => Ok (q2, m2, e2, [], r2)
          | None => a_look f q2 m2 [] r2
          end
        end
      else Ok (q, m, e, d, r1)
    else if ends_crlf q then
      let '(d, e, r1) := read r 1 in
      if length d <? 1 then Ok (q, m, e, d, r1)
      else if beq d [SP] then
        match e with
        | Some _ => Ok (q, m - 2, e, d, r1)%Z
        | None =>
          let! (q', n', e2, _, r2) := a_call f d r1 2 in
          let q2 := put q (lq - 2) q' in
          let m2 := (m - 2 + n')%Z in
          match e2 with
          | Some _ => Ok (q2, m2, e2, [], r2)
          | None => a_look f q2 m2 [] r2
          end
        end
      else Ok (q, m, e, d, r1)
    else Ok (q, m, None, buf, r)
  end.
(** As [unf_read] *)
Definition a_read (fuel : nat) (buf : bytes) (r : R) (L : nat) : res (bytes * option rerr * bytes * R) :=
  let! (q, m, e, buf, r) := a_call fuel buf r L in
  if (m <? 0)%Z then Panic else Ok (firstn (Z.to_nat m) q, e, buf, r).

(** As [ostate], [od_phrase] and [DecodeOD] *)
Record astate := AState { a_z : tkz; a_i : nat; a_buf : bytes; a_r : R; a_end : bool }.
Fixpoint a_phrase (fuel : nat) (sizes : nat -> nat) (o : astate) : res (phrase * astate) :=
  match fuel with
  | O => NoFuel
  | S f =>
    if a_end o || negb (blocks (a_z o)) then
      let! (p, z) := get_phrase (a_z o) in Ok (p, AState z (a_i o) (a_buf o) (a_r o) (a_end o))
    else
      let! (d, e, buf, r) := a_read fuel (a_buf o) (a_r o) (sizes (a_i o)) in
      a_phrase f sizes (AState (feed (a_z o) d) (S (a_i o)) buf r (is_some e))
  end.
(** decoder.go:16-38: the calendar, and the state in which the reader is left *)
Definition DecodeFrom (fuel : nat) (sizes : nat -> nat) (r : R) : res (sec * R) :=
  let! (c, s) := g_decode (a_phrase fuel sizes) fuel (GTok (AState (new_tokeniser []) 0 [] r false)) in
  match s with GTok o => Ok (c, a_r o) | GList _ => Panic end.

End AnyReader.
Arguments io_reader : clear implicits.
Arguments astate : clear implicits.
