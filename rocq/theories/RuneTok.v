(** Model of the string side of vimagination.zapto.org/parser (v1.0.3), rune by rune, as the library reads. Strtok.v reads
    byte by byte instead; C107 says that this makes no difference. *)
From Coq Require Import String Ascii ZArith Bool List.
From Verif Require Import Base Utf8 GoStrings Strtok Tokeniser GoTime Types Params Sections OnDemand.
Import ListNotations.
Local Open Scope Z_scope.

(** [strings.ContainsRune(set, r)] *)
Definition rune_in (r : Z) (set : bytes) : bool := existsb (Z.eqb r) (runes set).

(** Tokeniser.Peek: [None] for -1 at the end of input *)
Definition r_peek (t : tok) : option Z :=
  match trest t with [] => None | l => Some (fst (decode_rune l)) end.

(** The tokeniser after one more rune *)
Definition r_step (t : tok) : tok :=
  let w := snd (decode_rune (trest t)) in Tok (tbuf t ++ firstn w (trest t)) (skipn w (trest t)).

(** Tokeniser.Accept *)
Definition r_accept (set : bytes) (t : tok) : bool * tok :=
  match r_peek t with
  | Some r => if rune_in r set then (true, r_step t) else (false, t)
  | None => (false, t)
  end.

(** Tokeniser.AcceptRun ([want] true) and Tokeniser.ExceptRun ([want] false). Each round reads a byte at least. *)
Fixpoint r_run (fuel : nat) (want : bool) (set : bytes) (t : tok) : option Z * tok :=
  match fuel with
  | O => (r_peek t, t)
  | S f =>
    match r_peek t with
    | Some r => if Bool.eqb (rune_in r set) want then r_run f want set (r_step t) else (Some r, t)
    | None => (None, t)
    end
  end.
Definition r_accept_run (set : bytes) (t : tok) : option Z * tok := r_run (length (trest t)) true set t.
Definition r_except_run (set : bytes) (t : tok) : option Z * tok := r_run (length (trest t)) false set t.

(** ** tokeniser.go with these functions *)

(** tokeniser.go:38-67 *)
Definition r_parseName (t : tok) : token * tstate * tok :=
  let '(nxt, t) := r_accept_run ianaToken t in
  let '(name, t) := get t in
  match name with
  | [] =>
    match nxt with
    | None => (Token TokenDone [], SDone, t)
    | Some _ => (Token TokenError [], SError ErrInvalidContentLine, t)
    end
  | _ =>
    match nxt with
    | Some c =>
      if (c =? 59) then (Token tokenName name, SParamName, t)
      else if (c =? 58) then (Token tokenName name, SValue, t)
      else (Token TokenError [], SError ErrInvalidContentLineName, t)
    | None => (Token TokenError [], SError ErrInvalidContentLineName, t)
    end
  end.

(** tokeniser.go:69-80 *)
Definition r_parseParamName (t : tok) : token * tstate * tok :=
  let '(_, t) := r_accept (bs ";") t in
  let '(_, t) := get t in
  let '(nxt, t) := r_accept_run ianaToken t in
  match nxt with
  | Some c =>
    if (c =? 61) then let '(d, t) := get t in (Token tokenParamName d, SParamValue, t)
    else (Token TokenError [], SError ErrInvalidContentLineParamName, t)
  | None => (Token TokenError [], SError ErrInvalidContentLineParamName, t)
  end.

(** tokeniser.go:108-119 *)
Definition r_afterParamValue (tk : token) (t : tok) : token * tstate * tok :=
  match r_peek t with
  | Some c =>
    if (c =? 44) then (tk, SParamValue, t)
    else if (c =? 59) then (tk, SParamName, t)
    else if (c =? 58) then (tk, SValue, t)
    else (Token TokenError [], SError ErrInvalidContentLineParamValue, t)
  | None => (Token TokenError [], SError ErrInvalidContentLineParamValue, t)
  end.

(** tokeniser.go:82-120 *)
Definition r_parseParamValue (t : tok) : token * tstate * tok :=
  let '(_, t) := r_accept (bs "=,") t in
  let '(_, t) := get t in
  let '(q, t) := r_accept [DQ] t in
  if q then
    let '(_, t) := get t in
    let '(nxt, t) := r_except_run nonsafe33 t in
    match nxt with
    | Some c =>
      if (c =? 34) then
        let '(d, t) := get t in
        let '(_, t) := r_accept [DQ] t in
        r_afterParamValue (Token tokenParamQuotedValue d) t
      else (Token TokenError [], SError ErrInvalidContentLineQuotedParamValue, t)
    | None => (Token TokenError [], SError ErrInvalidContentLineQuotedParamValue, t)
    end
  else
    let '(_, t) := r_except_run nonsafeChars t in
    let '(d, t) := get t in
    r_afterParamValue (Token tokenParamValue d) t.

(** tokeniser.go:122-147 *)
Definition r_parseValue (t : tok) : token * tstate * tok :=
  let '(_, t) := r_accept (bs ":") t in
  let '(_, t) := get t in
  let '(nxt, t) := r_except_run nonsafe32 t in
  match nxt with
  | None => let '(d, t) := get t in (Token tokenValue d, SDone, t)
  | Some c =>
    if (c =? 13) then
      let '(d, t) := get t in
      let '(_, t) := r_accept [CR] t in
      let '(ok, t) := r_accept [LF] t in
      if ok then let '(_, t) := get t in (Token tokenValue d, SName, t)
      else (Token TokenError [], SError ErrInvalidContentLineValue, t)
    else (Token TokenError [], SError ErrInvalidContentLineValue, t)
  end.

Definition r_next_token (z : tkz) : token * tkz :=
  let '(tk, s, t) :=
    match z_state z with
    | SName => r_parseName (z_tok z)
    | SParamName => r_parseParamName (z_tok z)
    | SParamValue => r_parseParamValue (z_tok z)
    | SValue => r_parseValue (z_tok z)
    | SDone => (Token TokenDone [], SDone, z_tok z)
    | SError e => (Token TokenError [], SError e, z_tok z)
    end in
  (tk, Tkz s t).

(** tokeniser.go:158-164 *)
Fixpoint r_phrase_rest (fuel : nat) (inval : bool) (acc : list token) (z : tkz) : res (phrase * tkz) :=
  match fuel with
  | O => NoFuel
  | S f =>
    let '(tk, z) := r_next_token z in
    match t_type tk with
    | tokenParamName =>
      (* line 158 accepts the name; line 159 needs a value next *)
      let '(tv, z) := r_next_token z in
      match t_type tv with
      | tokenParamValue | tokenParamQuotedValue => r_phrase_rest f true (acc ++ [tk; tv]) z
      | _ => Err (state_err z)
      end
    | tokenParamValue | tokenParamQuotedValue =>
      if inval then r_phrase_rest f true (acc ++ [tk]) z else Err (state_err z)
    | tokenValue => Ok (PhraseLine (acc ++ [tk]), z)
    | _ => Err (state_err z)
    end
  end.

(** tokeniser.go:149-171 *)
Definition r_get_phrase_fuel (fuel : nat) (z : tkz) : res (phrase * tkz) :=
  let '(tk, z) := r_next_token z in
  match t_type tk with
  | tokenName => r_phrase_rest fuel false [tk] z
  | TokenDone => Ok (PhraseDone, z)
  | _ => Err (state_err z)
  end.

Definition r_get_phrase (z : tkz) : res (phrase * tkz) :=
  r_get_phrase_fuel (S (S (length (trest (z_tok z))))) z.

(** ** types.go and params.go with these functions *)
Section Values.
Context {env : Env}.

(** types.go:240-318 *)
Fixpoint r_duration_loop (fuel : nat) (d : duration) (level : Z) (t : tok) : res duration :=
  match fuel with
  | O => NoFuel
  | S f =>
    match r_peek t with
    | None => if level =? 0 then Err ErrInvalidDuration else Ok d
    | Some _ =>
      let '(isT, t) := r_accept (bs "T") t in
      let level := if isT then 1 else level in
      let '(_, t) := get t in
      let '(mode, t) := r_accept_run digits_set t in
      let '(ds, t) := get t in
      match parse_uint 64 ds with
      | None => Err ErrStd
      | Some num =>
        match mode with
        | None => Err ErrInvalidDuration
        | Some c =>
          if (c =? 87) then
            if 0 <? level then Err ErrInvalidDuration
            else
              let '(_, t) := r_accept (bs "W") t in
              match r_peek t with
              | Some _ => Err ErrInvalidDuration
              | None => Ok (Duration (d_neg d) num (d_days d) (d_hours d) (d_minutes d) (d_seconds d))
              end
          else if (c =? 68) then
            if 0 <? level then Err ErrInvalidDuration
            else
              let '(_, t) := r_accept (bs "D") t in
              r_duration_loop f (Duration (d_neg d) (d_weeks d) num (d_hours d) (d_minutes d) (d_seconds d)) 1 t
          else if (c =? 72) then
            if 1 <? level then Err ErrInvalidDuration
            else
              let '(_, t) := r_accept (bs "H") t in
              r_duration_loop f (Duration (d_neg d) (d_weeks d) (d_days d) num (d_minutes d) (d_seconds d)) 2 t
          else if (c =? 77) then
            if 2 <? level then Err ErrInvalidDuration
            else
              let '(_, t) := r_accept (bs "M") t in
              r_duration_loop f (Duration (d_neg d) (d_weeks d) (d_days d) (d_hours d) num (d_seconds d)) 3 t
          else if (c =? 83) then
            if 3 <? level then Err ErrInvalidDuration
            else
              let '(_, t) := r_accept (bs "S") t in
              match r_peek t with
              | Some _ => Err ErrInvalidDuration
              | None =>
                r_duration_loop f (Duration (d_neg d) (d_weeks d) (d_days d) (d_hours d) (d_minutes d) num) level t
              end
          else Err ErrInvalidDuration
        end
      end
    end
  end.

(** types.go:225-319 *)
Definition r_duration_decode (data : bytes) : res duration :=
  let t := new_tok data in
  let '(neg, t) := r_accept (bs "-") t in
  let '(_, t) := if neg then (true, t) else r_accept (bs "+") t in
  let '(p, t) := r_accept (bs "P") t in
  if p then
    r_duration_loop (S (length data)) (Duration neg 0 0 0 0 0) 0 t
  else Err ErrInvalidDuration.

(** types.go:1251-1286 *)
Fixpoint r_decode_text (fuel : nat) (d : bytes) (t : tok) : res (bytes * tok) :=
  match fuel with
  | O => NoFuel
  | S f =>
    let '(c, t) := r_except_run (bs "\,;") t in
    let '(s, t) := get t in
    let d := d ++ s in
    match c with
    | Some c =>
      if (c =? 92) then
        let '(_, t) := r_accept (bs "\") t in
        let '(c, t) := next t in
        let d := d ++
          match c with
          | Some r =>
            if r =? 92 then bs "\"
            else if r =? 59 then bs ";"
            else if r =? 44 then bs ","
            else if (r =? 78) || (r =? 110) then [LF]
            else bs "\" ++ encode_rune r
          | None => bs "\" ++ encode_rune (-1)
          end in
        let '(_, t) := get t in
        r_decode_text f d t
      else Ok (d, t)
    | None => Ok (d, t)
    end
  end.

(** types.go:1240-1249 *)
Definition r_text_decode (data : bytes) : res bytes :=
  let! (d, t) := r_decode_text (S (length data)) [] (new_tok data) in
  match r_peek t with
  | None => Ok d
  | Some _ => Err ErrInvalidText
  end.

(** types.go:1325-1371 *)
Fixpoint r_mtext_loop (fuel : nat) (n : nat) (acc : list bytes) (t : tok) : res (list bytes) :=
  match fuel with
  | O => NoFuel
  | S f =>
    let! (d, t) := r_decode_text n [] t in
    let acc := acc ++ [d] in
    match r_peek t with
    | None => Ok acc
    | Some c =>
      if (c =? 44) then
        let '(_, t) := r_accept (bs ",") t in
        let '(_, t) := get t in
        r_mtext_loop f n acc t
      else Err ErrInvalidText
    end
  end.

Definition r_mtext_decode (data : bytes) : res (list bytes) :=
  r_mtext_loop (S (length data)) (S (length data)) [] (new_tok data).

(** types.go:1471-1526 *)
Definition r_utcoffset_decode (data : bytes) : res Z :=
  let t := new_tok data in
  let '(neg, t) := r_accept (bs "-") t in
  let '(_, t) := if neg then (true, t) else r_accept (bs "+") t in
  let '(_, t) := get t in
  let two (t : tok) :=
    let '(a, t) := r_accept digits_set t in
    if a then r_accept digits_set t else (false, t) in
  let '(okh, t) := two t in
  if negb okh then Err ErrInvalidOffset else
  let '(hs, t) := get t in
  let h := digits_val 0 hs in
  let '(okm, t) := two t in
  if negb okm then Err ErrInvalidOffset else
  let '(ms, t) := get t in
  let m := digits_val 0 ms in
  if 60 <=? m then Err ErrInvalidOffset else
  let '(a, t) := r_accept digits_set t in
  let! s :=
    if a then
      let '(b, t) := r_accept digits_set t in
      if negb b || (match r_peek t with None => false | Some _ => true end) then Err ErrInvalidOffset
      else
        let '(ss, t) := get t in
        let s := digits_val 0 ss in
        if 60 <=? s then Err ErrInvalidOffset else Ok s
    else
      match r_peek t with
      | None => Ok 0
      | Some _ => Err ErrInvalidOffset
      end in
  let u := 3600 * h + 60 * m + s in
  if neg then (if u =? 0 then Err ErrInvalidOffset else Ok (- u)) else Ok u.

(** params.go:1184-1215 *)
Fixpoint r_decode6868_loop (fuel : nat) (d : bytes) (t : tok) : bytes :=
  match fuel with
  | O => d
  | S f =>
    let '(c, t) := r_except_run (bs "^") t in
    let '(s, t) := get t in
    let d := d ++ s in
    match c with
    | None => d
    | Some _ =>
      let '(_, t) := r_accept (bs "^") t in
      let '(c, t) := next t in
      match c with
      | None => d ++ bs "^"
      | Some r =>
        if r =? 110 then r_decode6868_loop f (d ++ [LF]) t
        else if r =? 39 then r_decode6868_loop f (d ++ [DQ]) t
        else if r =? 94 then r_decode6868_loop f (d ++ bs "^") t
        else r_decode6868_loop f (d ++ bs "^" ++ encode_rune 94) t
      end
    end
  end.

Definition r_decode6868 (s : bytes) : bytes := r_decode6868_loop (S (length s)) [] (new_tok s).

(** params.go:1217-1236 *)
Fixpoint r_encode6868_loop (fuel : nat) (d : bytes) (t : tok) : option bytes :=
  match fuel with
  | O => None
  | S f =>
    let '(c, t) := r_except_run ([LF] ++ bs "^" ++ [DQ]) t in
    let '(s, t) := get t in
    let d := d ++ s in
    match c with
    | None => Some d
    | Some c =>
      if (c =? 10) then r_encode6868_loop f (d ++ bs "^n") t
      else if (c =? 94) then r_encode6868_loop f (d ++ bs "^^") t
      else r_encode6868_loop f (d ++ bs "^'") t
    end
  end.

Definition r_encode6868 (s : bytes) : option bytes := r_encode6868_loop (S (length s)) [] (new_tok s).

(** Decode on a text that is there, with phrases read character by character *)
Definition r_decode_bytes (s : bytes) : res sec :=
  let! (c, _) := g_decode r_get_phrase (S (S (length s))) (GTok (new_tokeniser s)) in Ok c.
End Values.
