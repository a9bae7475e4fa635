(** Model of unfolder.go. *)
From Coq Require Import List Arith ZArith Bool.
From Verif Require Import Base.
Import ListNotations.

(** The underlying [io.Reader]: the pieces it will return, one per [Read] call (cut further when the
    caller's buffer is smaller), then its final error; [r_with] says that the error comes together
    with the last piece instead of with a later empty read. Every finite run of every reader is
    of this form: AnyReader.v has any reader, and C122 is the proof. *)
Inductive rerr := REOF | ROther.
Record rdr := Rdr { r_chunks : list bytes; r_with : bool; r_err : rerr }.

Definition rd (r : rdr) (k : nat) : bytes * option rerr * rdr :=
  match r_chunks r with
  | [] => ([], Some (r_err r), r)
  | c :: cs =>
    if length c <=? k
    then (c, match cs with [] => if r_with r then Some (r_err r) else None | _ => None end,
          Rdr cs (r_with r) (r_err r))
    else (firstn k c, None, Rdr (skipn k c :: cs) (r_with r) (r_err r))
  end.

(** [bytes.Index(p, eol[:])]: position of the first CR LF SP. *)
Fixpoint find_fold (p : bytes) : option nat :=
  match p with
  | [] => None
  | a :: p' =>
    match p' with
    | b :: c :: _ =>
      if beqc a CR && beqc b LF && beqc c SP then Some 0
      else match find_fold p' with Some n => Some (S n) | None => None end
    | _ => None
    end
  end.

(** unfolder.go:34-42. [front] is the part of the read data already passed by [p = p[pos:]].
    [copy(p[pos:], p[pos+3:])] moves the bytes after the fold three places down and leaves the last
    three bytes of [p] as they were. *)
Fixpoint remove_folds (fuel : nat) (front p : bytes) (toRead : nat) : res (bytes * bytes * nat) :=
  match fuel with
  | O => NoFuel
  | S f =>
    match find_fold p with
    | None => Ok (front, p, toRead)
    | Some pos =>
      let p1 := firstn pos p ++ skipn (pos + 3) p ++ skipn (length p - 3) p in
      remove_folds f (front ++ firstn pos p1) (skipn pos p1) (toRead + 3)
    end
  end.

(** unfolder.go:29-45. [out] is what is already in the caller's buffer ([q[:m]]), [free] is [len(p)]. *)
Fixpoint fill (fuel : nat) (out : bytes) (free : nat) (r : rdr) : res (bytes * option rerr * rdr) :=
  match fuel with
  | O => NoFuel
  | S f =>
    if free =? 0 then Ok (out, None, r)
    else
      let '(d, e, r') := rd r free in
      let! (front, p, toRead) := remove_folds (S f) [] d 0 in
      if length p <? toRead then Panic    (* p[len(p)-toRead:] *)
      else
        let out' := out ++ front ++ firstn (length p - toRead) p in
        match e with
        | None => fill f out' toRead r'
        | Some _ => Ok (out', e, r')
        end
  end.

Definition ends_cr (q : bytes) : bool :=
  match rev q with c :: _ => beqc c CR | _ => false end.
Definition ends_crlf (q : bytes) : bool :=
  match rev q with c :: d :: _ => beqc c LF && beqc d CR | _ => false end.

(** Overwrite the bytes of [q] from position [i] on with [d] (used with i + len d <= len q). *)
Definition put (q : bytes) (i : nat) (d : bytes) : bytes :=
  firstn i q ++ d ++ skipn (i + length d) q.

(** unfolder.go:14-83 [Read] with a buffer of [L] bytes; [buf] is [u.buf[:u.bufLen]]. The result is what is in
    the caller's buffer ([q]), the byte count [m] that is returned, the error, [u.buf[:u.bufLen]] and the reader.
    [look] is the loop of lines 47-81: [q] keeps its length. [m] is [length q] unless the reader returns no bytes
    and no error; each time that it does so inside a fold makes [m] smaller, even negative. *)
Fixpoint unf_call (fuel : nat) (buf : bytes) (r : rdr) (L : nat)
  : res (bytes * Z * option rerr * bytes * rdr) :=
  match fuel with
  | O => NoFuel
  | S f =>
    let n := min L (length buf) in
    let! (q, e, r') := fill (S f) (firstn n buf) (L - n) r in
    match e with
    | Some _ => Ok (q, Z.of_nat (length q), e, skipn n buf, r')
    | None => look f q (Z.of_nat (length q)) (skipn n buf) r'
    end
  end
with look (fuel : nat) (q : bytes) (m : Z) (buf : bytes) (r : rdr)
  : res (bytes * Z * option rerr * bytes * rdr) :=
  match fuel with
  | O => NoFuel
  | S f =>
    let lq := length q in
    if ends_cr q then
      let '(d, e, r1) := rd r 2 in
      if length d <? 2 then Ok (q, m, e, d, r1)
      else if beq d [LF; SP] then
        match e with
        | Some _ => Ok (q, m - 1, e, d, r1)%Z
        | None =>
          let '(d2, e2, r2) := rd r1 1 in
          let q2 := put q (lq - 1) d2 in
          let m2 := (m - 1 + Z.of_nat (length d2))%Z in
          match e2 with
          | Some _ => Ok (q2, m2, e2, [], r2)
          | None => look f q2 m2 [] r2
          end
        end
      else Ok (q, m, e, d, r1)
    else if ends_crlf q then
      let '(d, e, r1) := rd r 1 in
      if length d <? 1 then Ok (q, m, e, d, r1)
      else if beq d [SP] then
        match e with
        | Some _ => Ok (q, m - 2, e, d, r1)%Z
        | None =>
          let! (q', n', e2, _, r2) := unf_call f d r1 2 in
          let q2 := put q (lq - 2) q' in
          let m2 := (m - 2 + n')%Z in
          match e2 with
          | Some _ => Ok (q2, m2, e2, [], r2)
          | None => look f q2 m2 [] r2
          end
        end
      else Ok (q, m, e, d, r1)
    else Ok (q, m, None, buf, r)
  end.

(** What a caller of [Read] gets: the first [m] bytes of its buffer. A negative count is no slice bound, and is
    taken for a panic of the caller. *)
Definition counted (x : res (bytes * Z * option rerr * bytes * rdr)) : res (bytes * option rerr * bytes * rdr) :=
  let! (q, m, e, buf, r) := x in
  if (m <? 0)%Z then Panic else Ok (firstn (Z.to_nat m) q, e, buf, r).
Definition unf_read (fuel : nat) (buf : bytes) (r : rdr) (L : nat) : res (bytes * option rerr * bytes * rdr) :=
  counted (unf_call fuel buf r L).

(** A consumer that calls [Read] with request sizes [sizes 0], [sizes 1], ... until it gets an
    error, and collects what it got. *)
Fixpoint drain (fuel : nat) (sizes : nat -> nat) (i : nat) (buf : bytes) (r : rdr) (acc : bytes)
  : res (bytes * rerr) :=
  match fuel with
  | O => NoFuel
  | S f =>
    let! (d, e, buf', r') := unf_read fuel buf r (sizes i) in
    match e with
    | Some e => Ok (acc ++ d, e)
    | None => drain f sizes (S i) buf' r' (acc ++ d)
    end
  end.

(** RFC 5545 3.1 unfolding of a byte string: every CR LF SP is removed. *)
Fixpoint unfold (p : bytes) : bytes :=
  match p with
  | [] => []
  | a :: p' =>
    match p' with
    | b :: c :: p'' => if beqc a CR && beqc b LF && beqc c SP then unfold p'' else a :: unfold p'
    | _ => a :: unfold p'
    end
  end.
