(** Model of types.go: the sixteen value types.

    [X_decode] models the method [decode] of X, [X_encode] the sequence of [Write] calls of [X.encode],
    [X_valid] models [X.valid] ([None] is a nil error). Integers of Go types are unbounded [Z] here;
    [wt_value] states their machine ranges. *)
From Coq Require Import String Ascii ZArith Bool List.
From Verif Require Import Base Utf8 GoStrings Strtok Tokeniser GoTime.
Import ListNotations.
Local Open Scope Z_scope.

Section Types.
Context {env : Env}.

(** A Go [map[string]string] of parameters: latest binding first. *)
Definition pmap := list (bytes * bytes).
Fixpoint pmap_get (m : pmap) (k : bytes) : option bytes :=
  match m with
  | [] => None
  | (k', v) :: m' => if beq k k' then Some v else pmap_get m' k
  end.

(** ** Binary, types.go:19-51 *)

Definition b64_alphabet : bytes :=
  bs "ABCDEFGHIJKLMNOPQRSTUVWXYZabcdefghijklmnopqrstuvwxyz0123456789+/".
Definition b64_chr (v : Z) : byte := nth (Z.to_nat v) b64_alphabet (chr 0).

(** base64.StdEncoding.Encode *)
Fixpoint b64_enc (l : bytes) : bytes :=
  match l with
  | a :: b :: c :: l' =>
    let v := code a * 65536 + code b * 256 + code c in
    b64_chr (v / 262144) :: b64_chr (v / 4096 mod 64) :: b64_chr (v / 64 mod 64) :: b64_chr (v mod 64)
      :: b64_enc l'
  | [a; b] =>
    let v := code a * 65536 + code b * 256 in
    [b64_chr (v / 262144); b64_chr (v / 4096 mod 64); b64_chr (v / 64 mod 64); "="%char]
  | [a] =>
    let v := code a * 65536 in
    [b64_chr (v / 262144); b64_chr (v / 4096 mod 64); "="%char; "="%char]
  | [] => []
  end.

Definition b64_val (c : byte) : option Z :=
  let x := code c in
  if in_range 65 90 x then Some (x - 65)
  else if in_range 97 122 x then Some (x - 71)
  else if in_range 48 57 x then Some (x + 4)
  else if x =? 43 then Some 62
  else if x =? 47 then Some 63
  else None.

(** base64.StdEncoding decoding of text without line breaks: full quanta, padding required,
    trailing bits of the last quantum not checked, nothing after padding. *)
Fixpoint b64_dec (l : bytes) : option bytes :=
  match l with
  | [] => Some []
  | a :: b :: c :: d :: l' =>
    match b64_val a, b64_val b with
    | Some va, Some vb =>
      if beqc c "=" then
        if beqc d "=" then match l' with [] => Some [chr (va * 4 + vb / 16)] | _ => None end
        else None
      else
        match b64_val c with
        | None => None
        | Some vc =>
          if beqc d "=" then
            match l' with
            | [] => Some [chr (va * 4 + vb / 16); chr (vb mod 16 * 16 + vc / 4)]
            | _ => None
            end
          else
            match b64_val d, b64_dec l' with
            | Some vd, Some r =>
              Some (chr (va * 4 + vb / 16) :: chr (vb mod 16 * 16 + vc / 4) :: chr (vc mod 4 * 64 + vd) :: r)
            | _, _ => None
            end
        end
    | _, _ => None
    end
  | _ => None
  end.

(** base64.StdEncoding.DecodeString: CR and LF are skipped wherever they are. *)
Definition b64_decode_string (s : bytes) : option bytes :=
  b64_dec (filter (fun c => negb (beqc c CR || beqc c LF)) s).

(** types.go:22-35 *)
Definition binary_decode (m : pmap) (data : bytes) : res bytes :=
  match pmap_get m (bs "ENCODING") with
  | Some e =>
    if beq e (bs "BASE64") then of_option ErrStd (b64_decode_string data) else Err ErrInvalidEncoding
  | None => Err ErrInvalidEncoding
  end.

(** types.go:42-47: base64.NewEncoder writes at most 768 input bytes (a multiple of three) per
    [Write], and the last one or two on [Close]. *)
Fixpoint binary_writes (fuel : nat) (l : bytes) : list bytes :=
  match fuel with
  | O => []
  | S f =>
    let n := length l in
    if Nat.ltb n 3 then match l with [] => [] | _ => [b64_enc l] end
    else
      let nn := Nat.min 768 (n - Nat.modulo n 3) in
      b64_enc (firstn nn l) :: binary_writes f (skipn nn l)
  end.
Definition binary_encode (b : bytes) : list bytes := binary_writes (S (length b)) b.

(** ** Boolean, types.go:53-87 *)
Definition boolean_decode (data : bytes) : res bool := of_option ErrInvalidBoolean (parse_bool data).
Definition boolean_encode (b : bool) : list bytes := [if b then bs "TRUE" else bs "FALSE"].

(** ** CalendarAddress, types.go:89-116, and URI, types.go:1439-1466 *)
Definition url_decode (data : bytes) : res url := of_option ErrStd (url_parse data).
Definition url_encode (u : url) : list bytes := [url_string u].

(** ** Date, types.go:118-151 *)
Definition date_decode (data : bytes) : res time := of_option ErrStd (parse_date data).
Definition date_encode (t : time) : list bytes := [format_date t].
Definition time_valid (t : time) : option gerr := if is_zero t then Some ErrInvalidTime else None.

(** ** DateTime, types.go:153-217. [id] names the location pointer made by [time.LoadLocation]. *)
Definition ends_with (c : byte) (s : bytes) : bool :=
  match rev s with a :: _ => beqc a c | [] => false end.

Definition datetime_decode (id : nat) (m : pmap) (data : bytes) : res time :=
  match pmap_get m (bs "TZID") with
  | Some tz =>
    match load_location id tz with
    | None => Err ErrStd
    | Some l => of_option ErrStd (parse_datetime false data l)
    end
  | None =>
    if ends_with "Z"%char data then of_option ErrStd (parse_datetime true data LUTC)
    else of_option ErrStd (parse_datetime false data LLocal)
  end.

Definition datetime_encode (t : time) : list bytes :=
  [match t_loc t with
   | LUTC => format_datetime t ++ bs "Z"
   | _ => format_datetime t
   end].

(** types.go:1568-1575 [writeTimezone] *)
Definition write_timezone (t : time) : list bytes :=
  match t_loc t with
  | LZone z _ => [bs ";TZID="; zone_name z]
  | _ => []
  end.

(** ** Duration, types.go:219-396 *)
Record duration := Duration {
  d_neg : bool; d_weeks : Z; d_days : Z; d_hours : Z; d_minutes : Z; d_seconds : Z }.
Definition zero_duration : duration := Duration false 0 0 0 0 0.

(** types.go:240-318; [level] as in the Go code. Each round reads at least its unit letter. *)
Fixpoint duration_loop (fuel : nat) (d : duration) (level : Z) (t : tok) : res duration :=
  match fuel with
  | O => NoFuel
  | S f =>
    match peek t with
    | None => if level =? 0 then Err ErrInvalidDuration else Ok d
    | Some _ =>
      let '(isT, t) := accept (bs "T") t in
      let level := if isT then 1 else level in
      let '(_, t) := get t in
      let '(mode, t) := accept_run digits_set t in
      let '(ds, t) := get t in
      match parse_uint 64 ds with
      | None => Err ErrStd
      | Some num =>
        match mode with
        | None => Err ErrInvalidDuration
        | Some c =>
          if beqc c "W" then
            if 0 <? level then Err ErrInvalidDuration
            else
              let '(_, t) := accept (bs "W") t in
              match peek t with
              | Some _ => Err ErrInvalidDuration
              | None => Ok (Duration (d_neg d) num (d_days d) (d_hours d) (d_minutes d) (d_seconds d))
              end
          else if beqc c "D" then
            if 0 <? level then Err ErrInvalidDuration
            else
              let '(_, t) := accept (bs "D") t in
              duration_loop f (Duration (d_neg d) (d_weeks d) num (d_hours d) (d_minutes d) (d_seconds d)) 1 t
          else if beqc c "H" then
            if 1 <? level then Err ErrInvalidDuration
            else
              let '(_, t) := accept (bs "H") t in
              duration_loop f (Duration (d_neg d) (d_weeks d) (d_days d) num (d_minutes d) (d_seconds d)) 2 t
          else if beqc c "M" then
            if 2 <? level then Err ErrInvalidDuration
            else
              let '(_, t) := accept (bs "M") t in
              duration_loop f (Duration (d_neg d) (d_weeks d) (d_days d) (d_hours d) num (d_seconds d)) 3 t
          else if beqc c "S" then
            if 3 <? level then Err ErrInvalidDuration
            else
              let '(_, t) := accept (bs "S") t in
              match peek t with
              | Some _ => Err ErrInvalidDuration
              | None =>
                duration_loop f (Duration (d_neg d) (d_weeks d) (d_days d) (d_hours d) (d_minutes d) num) level t
              end
          else Err ErrInvalidDuration
        end
      end
    end
  end.

(** types.go:225-319 *)
Definition duration_decode (data : bytes) : res duration :=
  let t := new_tok data in
  let '(neg, t) := accept (bs "-") t in
  let '(_, t) := if neg then (true, t) else accept (bs "+") t in
  let '(p, t) := accept (bs "P") t in
  if p then
    duration_loop (S (length data)) (Duration neg 0 0 0 0 0) 0 t
  else Err ErrInvalidDuration.

(** types.go:343-392 *)
Definition duration_encode (d : duration) : list bytes :=
  let sign := if d_neg d then bs "-" else [] in
  let weeks := itoa (d_weeks d) ++ bs "W" in
  let days := itoa (d_days d) ++ bs "D" in
  let hours := itoa (d_hours d) ++ bs "H" in
  let minutes := itoa (d_minutes d) ++ bs "M" in
  let seconds := itoa (d_seconds d) ++ bs "S" in
  let nz x := negb (x =? 0) in
  [sign ++ bs "P" ++
   if nz (d_weeks d) then weeks
   else
     (if nz (d_days d) then days else []) ++
     (if (d_days d =? 0) || (nz (d_hours d) || nz (d_minutes d) || nz (d_seconds d)) then
        bs "T" ++
        (if nz (d_hours d) then
           hours ++
           (if nz (d_minutes d) || nz (d_seconds d) then
              minutes ++ (if nz (d_seconds d) then seconds else [])
            else [])
         else if nz (d_minutes d) then
           minutes ++ (if nz (d_seconds d) then seconds else [])
         else seconds)
      else [])].

(** ** Float, types.go:398-429, and TFloat, types.go:431-477 *)
Inductive float := FNaN | FInf (neg : bool) | FFin (f : fin).

Definition lower_ascii (c : byte) : byte := if in_range 65 90 (code c) then chr (code c + 32) else c.

(** strconv's [special]: inf, infinity (with optional sign) and nan, in any case. *)
Definition float_special (s : bytes) : option float :=
  let l := map lower_ascii s in
  if beq l (bs "nan") then Some FNaN
  else if existsb (beq l) [bs "inf"; bs "+inf"; bs "infinity"; bs "+infinity"] then Some (FInf false)
  else if existsb (beq l) [bs "-inf"; bs "-infinity"] then Some (FInf true)
  else None.

(** strconv.ParseFloat(s, 64) *)
Definition parse_float (s : bytes) : option float :=
  match float_special s with
  | Some f => Some f
  | None => match fin_parse s with Some f => Some (FFin f) | None => None end
  end.

(** strconv.FormatFloat(f, 'f', -1, 64) *)
Definition format_float (f : float) : bytes :=
  match f with
  | FNaN => bs "NaN"
  | FInf false => bs "+Inf"
  | FInf true => bs "-Inf"
  | FFin x => fin_format x
  end.

Definition float_decode (data : bytes) : res float := of_option ErrStd (parse_float data).
Definition float_encode (f : float) : list bytes := [format_float f].
(** types.go:421-429 (the test is the wrong way round in the Go code: finite values are refused) *)
Definition float_valid (f : float) : option gerr :=
  match f with FNaN | FInf _ => None | FFin _ => Some ErrInvalidFloat end.

(** types.go:434-450 *)
Definition tfloat_decode (data : bytes) : res (float * float) :=
  match cut ";"%char data with
  | None => Err ErrInvalidTFloat
  | Some (a, b) =>
    let! fa := of_option ErrStd (parse_float a) in
    let! fb := of_option ErrStd (parse_float b) in
    Ok (fa, fb)
  end.
Definition tfloat_encode (t : float * float) : list bytes :=
  [format_float (fst t); bs ";"; format_float (snd t)].
(** types.go:463-477 *)
Definition tfloat_valid (t : float * float) : option gerr :=
  match float_valid (fst t) with Some e => Some e | None => float_valid (snd t) end.

(** ** Integer, types.go:479-504 *)
Definition integer_decode (data : bytes) : res Z := of_option ErrStd (parse_int 32 data).
Definition integer_encode (i : Z) : list bytes := [fmt_int i].

(** ** Period, types.go:506-562 *)
Record period := Period { p_start : time; p_end : time; p_dur : duration }.

(** types.go:515-531. Start and End load their location separately (ids 0 and 1). *)
Definition period_decode (m : pmap) (data : bytes) : res period :=
  match cut "/"%char data with
  | None => Err ErrInvalidPeriod
  | Some (a, b) =>
    match b with
    | [] => Err ErrInvalidPeriod
    | c :: _ =>
      let! st := datetime_decode 0 m a in
      if beqc c "P" || beqc c "+" then
        let! d := duration_decode b in Ok (Period st zero_time d)
      else
        let! en := datetime_decode 1 m b in Ok (Period st en zero_duration)
    end
  end.

(** types.go:539-548 *)
Definition period_encode (p : period) : list bytes :=
  datetime_encode (p_start p) ++ [bs "/"] ++
  (if is_zero (p_end p) then duration_encode (p_dur p) else datetime_encode (p_end p)).

(** types.go:550-562 *)
Definition period_valid (p : period) : option gerr :=
  if is_zero (p_start p) then Some ErrInvalidPeriodStart
  else if is_zero (p_end p) then
    if d_neg (p_dur p) then Some ErrInvalidPeriodDuration else None
  else if negb (after (p_end p) (p_start p)) || negb (loc_same (t_loc (p_start p)) (t_loc (p_end p)))
  then Some ErrInvalidPeriodEnd
  else None.

(** ** Recur, types.go:564-1235 *)
Record dayrecur := DayRecur { dr_day : Z; dr_occ : Z }.
Record recur := Recur {
  r_freq : Z; r_wkst : Z; r_untiltime : bool; r_until : time; r_count : Z; r_interval : Z;
  r_bysecond : list Z; r_byminute : list Z; r_byhour : list Z; r_byday : list dayrecur;
  r_bymonthday : list Z; r_byyearday : list Z; r_byweekno : list Z; r_bymonth : list Z;
  r_bysetpos : list Z }.
Definition zero_recur : recur := Recur 0 0 false zero_time 0 0 [] [] [] [] [] [] [] [] [].

(** The position of a word in a list of words, from 0. *)
Fixpoint index_of (w : bytes) (l : list bytes) : option nat :=
  match l with
  | [] => None
  | x :: l' => if beq w x then Some O else match index_of w l' with Some n => Some (S n) | None => None end
  end.

(** types.go:565-576 and 651-668: Secondly = 0, ..., Yearly = 6 *)
Definition freq_words : list bytes :=
  [bs "SECONDLY"; bs "MINUTELY"; bs "HOURLY"; bs "DAILY"; bs "WEEKLY"; bs "MONTHLY"; bs "YEARLY"].
(** types.go:579-591: UnknownDay = 0, Sunday = 1, ..., Saturday = 7 *)
Definition day_words : list bytes :=
  [bs "SU"; bs "MO"; bs "TU"; bs "WE"; bs "TH"; bs "FR"; bs "SA"].
Definition day_of_word (w : bytes) : option Z :=
  match index_of w day_words with Some n => Some (Z.of_nat n + 1) | None => None end.
Definition word_of_day (d : Z) : bytes :=
  if in_range 1 7 d then nth (Z.to_nat (d - 1)) day_words [] else [].

Fixpoint mapM {A B} (f : A -> res B) (l : list A) : res (list B) :=
  match l with
  | [] => Ok []
  | a :: l' => let! b := f a in let! bs := mapM f l' in Ok (b :: bs)
  end.

(** types.go:777-840: one element of BYDAY. Indexing an empty [day] panics (line 804). *)
Definition parse_day (day : bytes) : res dayrecur :=
  match day with
  | [] | [_] => Err ErrInvalidRecur
  | c0 :: tl0 =>
    let neg := beqc c0 "-" in
    let day1 := if beqc c0 "+" || neg then tl0 else day in
    if neg && Nat.ltb (length day1) 2 then Err ErrInvalidRecur
    else
      match day1 with
      | [] => Panic                                       (* line 799, not reached *)
      | d0 :: day2 =>
        let! (num, isnum, day3) :=
          if is_digit d0 then
            match day2 with
            | [] => Panic                                 (* line 804: day[0] of an empty string *)
            | d1 :: day2' =>
              let '(num, day3) :=
                if is_digit d1 then ((code d0 - 48) * 10 + (code d1 - 48), day2')
                else (code d0 - 48, day2) in
              if (num =? 0) || (53 <? num) then Err ErrInvalidRecur
              else Ok ((if neg then - num else num), true, day3)
            end
          else Ok (0, false, day1) in
        let numCheck := isnum || negb neg in
        if negb numCheck || negb (Nat.eqb (length day3) 2) then Err ErrInvalidRecur
        else
          match day_of_word day3 with
          | Some d => Ok (DayRecur d num)
          | None => Err ErrInvalidRecur
          end
      end
  end.

(** One element of an unsigned or signed list, with the range test that follows the parse. *)
Definition parse_ulist (lo hi : Z) (s : bytes) : res (list Z) :=
  mapM (fun w => match parse_uint 8 w with
                 | Some v => if in_range lo hi v then Ok v else Err ErrInvalidRecur
                 | None => Err ErrInvalidRecur
                 end) (split ","%char s).
Definition parse_slist (bits hi : Z) (s : bytes) : res (list Z) :=
  mapM (fun w => match parse_int bits w with
                 | Some v => if (v =? 0) || (hi <? v) || (v <? - hi) then Err ErrInvalidRecur else Ok v
                 | None => Err ErrInvalidRecur
                 end) (split ","%char s).

Definition isnil {A} (l : list A) : bool := match l with [] => true | _ => false end.

(** types.go:649-957: one rule. A parsed list is never empty, so nil-ness is emptiness. *)
Definition recur_rule (m : pmap) (r : recur) (freq : bool) (k v : bytes) : res (recur * bool) :=
  let '(Recur fr wk ut un co iv bse bmi bho bda bmd byd bwn bmo bsp) := r in
  if beq k (bs "FREQ") then
    match index_of v freq_words with
    | Some n => Ok (Recur (Z.of_nat n) wk ut un co iv bse bmi bho bda bmd byd bwn bmo bsp, true)
    | None => Err ErrInvalidRecur
    end
  else if beq k (bs "UNTIL") then
    if 0 <? co then Err ErrInvalidRecur
    else if Nat.ltb 10 (length v) then
      match datetime_decode 0 m v with
      | Ok t => Ok (Recur fr wk true t co iv bse bmi bho bda bmd byd bwn bmo bsp, freq)
      | _ => Err ErrInvalidRecur
      end
    else
      match date_decode v with
      | Ok t => Ok (Recur fr wk false t co iv bse bmi bho bda bmd byd bwn bmo bsp, freq)
      | _ => Err ErrInvalidRecur
      end
  else if beq k (bs "COUNT") then
    if negb (is_zero un) then Err ErrInvalidRecur
    else match parse_uint 64 v with
         | Some n => Ok (Recur fr wk ut un n iv bse bmi bho bda bmd byd bwn bmo bsp, freq)
         | None => Err ErrInvalidRecur
         end
  else if beq k (bs "INTERVAL") then
    if 0 <? iv then Err ErrInvalidRecur
    else match parse_uint 64 v with
         | Some n => Ok (Recur fr wk ut un co n bse bmi bho bda bmd byd bwn bmo bsp, freq)
         | None => Err ErrInvalidRecur
         end
  else if beq k (bs "BYSECOND") then
    if negb (isnil bse) then Err ErrInvalidRecur
    else let! l := parse_ulist 0 60 v in
         Ok (Recur fr wk ut un co iv l bmi bho bda bmd byd bwn bmo bsp, freq)
  else if beq k (bs "BYMINUTE") then
    if negb (isnil bmi) then Err ErrInvalidRecur
    else let! l := parse_ulist 0 59 v in
         Ok (Recur fr wk ut un co iv bse l bho bda bmd byd bwn bmo bsp, freq)
  else if beq k (bs "BYHOUR") then
    if negb (isnil bho) then Err ErrInvalidRecur
    else let! l := parse_ulist 0 23 v in
         Ok (Recur fr wk ut un co iv bse bmi l bda bmd byd bwn bmo bsp, freq)
  else if beq k (bs "BYDAY") then
    if negb (isnil bda) then Err ErrInvalidRecur
    else let! l := mapM parse_day (split ","%char v) in
         Ok (Recur fr wk ut un co iv bse bmi bho l bmd byd bwn bmo bsp, freq)
  else if beq k (bs "BYMONTHDAY") then
    if negb (isnil bmd) then Err ErrInvalidRecur
    else let! l := parse_slist 8 31 v in
         Ok (Recur fr wk ut un co iv bse bmi bho bda l byd bwn bmo bsp, freq)
  else if beq k (bs "BYYEARDAY") then
    if negb (isnil byd) then Err ErrInvalidRecur
    else let! l := parse_slist 16 366 v in
         Ok (Recur fr wk ut un co iv bse bmi bho bda bmd l bwn bmo bsp, freq)
  else if beq k (bs "BYWEEKNO") then
    if negb (isnil bwn) then Err ErrInvalidRecur
    else let! l := parse_slist 8 53 v in
         Ok (Recur fr wk ut un co iv bse bmi bho bda bmd byd l bmo bsp, freq)
  else if beq k (bs "BYMONTH") then
    if negb (isnil bmo) then Err ErrInvalidRecur
    else let! l := parse_ulist 1 12 v in
         Ok (Recur fr wk ut un co iv bse bmi bho bda bmd byd bwn l bsp, freq)
  else if beq k (bs "BYSETPOS") then
    if negb (isnil bsp) then Err ErrInvalidRecur
    else let! l := parse_slist 16 366 v in
         Ok (Recur fr wk ut un co iv bse bmi bho bda bmd byd bwn bmo l, freq)
  else if beq k (bs "WKST") then
    if negb (wk =? 0) then Err ErrInvalidRecur
    else match day_of_word v with
         | Some d => Ok (Recur fr d ut un co iv bse bmi bho bda bmd byd bwn bmo bsp, freq)
         | None => Err ErrInvalidRecur
         end
  else Err ErrInvalidRecur.

Fixpoint recur_rules (m : pmap) (r : recur) (freq : bool) (rules : list bytes) : res (recur * bool) :=
  match rules with
  | [] => Ok (r, freq)
  | rule :: rules' =>
    match cut "="%char rule with
    | None => Err ErrInvalidRecur
    | Some (k, v) =>
      let! (r', freq') := recur_rule m r freq k v in
      recur_rules m r' freq' rules'
    end
  end.

(** types.go:639-965 *)
Definition recur_decode (m : pmap) (data : bytes) : res recur :=
  let! (r, freq) := recur_rules m zero_recur false (split ";"%char data) in
  if freq then Ok r else Err ErrInvalidRecur.

(** The writes of one ";NAME=a,b,c" list. *)
Fixpoint comma_writes {A} (f : A -> list bytes) (first : bool) (l : list A) : list bytes :=
  match l with
  | [] => []
  | a :: l' => (if first then [] else [bs ","]) ++ f a ++ comma_writes f false l'
  end.
Definition list_writes {A} (key : bytes) (f : A -> list bytes) (l : list A) : list bytes :=
  if isnil l then [] else [key] ++ comma_writes f true l.

(** types.go:1062-1077: an unknown day writes nothing. *)
Definition day_writes (d : Z) : list bytes := if in_range 1 7 d then [word_of_day d] else [].

(** types.go:973-1161 *)
Definition recur_encode (r : recur) : list bytes :=
  [bs "FREQ=" ++ (if in_range 0 6 (r_freq r) then nth (Z.to_nat (r_freq r)) freq_words [] else bs "SECONDLY")] ++
  (if negb (r_count r =? 0) then [bs ";COUNT="; fmt_uint (r_count r)]
   else if negb (is_zero (r_until r)) then
     [bs ";UNTIL="] ++ (if r_untiltime r then datetime_encode (r_until r) else date_encode (r_until r))
   else []) ++
  (if negb (r_interval r =? 0) then [bs ";INTERVAL="; fmt_uint (r_interval r)] else []) ++
  list_writes (bs ";BYSECOND=") (fun z => [fmt_uint z]) (r_bysecond r) ++
  list_writes (bs ";BYMINUTE=") (fun z => [fmt_uint z]) (r_byminute r) ++
  list_writes (bs ";BYHOUR=") (fun z => [fmt_uint z]) (r_byhour r) ++
  list_writes (bs ";BYDAY=")
    (fun d => (if dr_occ d =? 0 then [] else [fmt_int (dr_occ d)]) ++ day_writes (dr_day d)) (r_byday r) ++
  list_writes (bs ";BYMONTHDAY=") (fun z => [fmt_int z]) (r_bymonthday r) ++
  list_writes (bs ";BYYEARDAY=") (fun z => [fmt_int z]) (r_byyearday r) ++
  list_writes (bs ";BYWEEKNO=") (fun z => [fmt_int z]) (r_byweekno r) ++
  list_writes (bs ";BYMONTH=") (fun z => [fmt_uint z]) (r_bymonth r) ++
  list_writes (bs ";BYSETPOS=") (fun z => [fmt_int z]) (r_bysetpos r) ++
  (if negb (r_wkst r =? 0) then [bs ";WKST="] ++ day_writes (r_wkst r) else []).

Definition all_or {A} (p : A -> bool) (l : list A) (e : gerr) (k : option gerr) : option gerr :=
  if forallb p l then k else Some e.

(** types.go:1163-1235 *)
Definition recur_valid (r : recur) : option gerr :=
  let s hi v := negb ((v =? 0) || (hi <? v) || (v <? - hi)) in
  if negb (in_range 0 6 (r_freq r)) then Some ErrInvalidRecurFrequency else
  all_or (fun v => v <=? 60) (r_bysecond r) ErrInvalidRecurBySecond (
  all_or (fun v => v <=? 59) (r_byminute r) ErrInvalidRecurByMinute (
  all_or (fun v => v <=? 23) (r_byhour r) ErrInvalidRecurByHour (
  all_or (fun d => in_range 1 7 (dr_day d)) (r_byday r) ErrInvalidRecurByDay (
  all_or (s 31) (r_bymonthday r) ErrInvalidRecurByMonthDay (
  all_or (s 366) (r_byyearday r) ErrInvalidRecurByYearDay (
  all_or (s 53) (r_byweekno r) ErrInvalidRecurByWeekNum (
  all_or (fun v => negb ((v =? 0) || (12 <? v))) (r_bymonth r) ErrInvalidRecurByMonth (
  all_or (s 366) (r_bysetpos r) ErrInvalidRecurBySetPos (
  if negb (r_wkst r =? 0) && negb (in_range 1 7 (r_wkst r)) then Some ErrInvalidRecurWeekStart else None))))))))).

(** ** Text, types.go:1237-1323 *)

(** types.go:1251-1286. Returns the text and the tokeniser, which is left at the end of input or
    at the comma or semicolon that stopped it. *)
Fixpoint decode_text (fuel : nat) (d : bytes) (t : tok) : res (bytes * tok) :=
  match fuel with
  | O => NoFuel
  | S f =>
    let '(c, t) := except_run (bs "\,;") t in
    let '(s, t) := get t in
    let d := d ++ s in
    match c with
    | Some c =>
      if beqc c "\" then
        let '(_, t) := accept (bs "\") t in
        let '(c, t) := next t in
        let d := d ++
          match c with
          | Some r =>
            if r =? 92 then bs "\"
            else if r =? 59 then bs ";"
            else if r =? 44 then bs ","
            else if (r =? 78) || (r =? 110) then [LF]
            else bs "\" ++ encode_rune r
          | None => bs "\" ++ encode_rune (-1)
          end in
        let '(_, t) := get t in
        decode_text f d t
      else Ok (d, t)
    | None => Ok (d, t)
    end
  end.

(** types.go:1240-1249 *)
Definition text_decode (data : bytes) : res bytes :=
  let! (d, t) := decode_text (S (length data)) [] (new_tok data) in
  match peek t with
  | None => Ok d
  | Some _ => Err ErrInvalidText
  end.

(** types.go:1298-1312, one rune *)
Definition text_rune (c : Z) : bytes :=
  if c =? 92 then bs "\\"
  else if c =? 10 then bs "\n"
  else if c =? 59 then bs "\;"
  else if c =? 44 then bs "\,"
  else encode_rune c.

(** types.go:1293-1315 *)
Definition text_bytes (t : bytes) : bytes := concat (map text_rune (runes t)).
Definition text_encode (t : bytes) : list bytes := [text_bytes t].

(** types.go:1317-1323 *)
Definition text_valid (t : bytes) : option gerr :=
  if contains_any t nonsafe31 then Some ErrInvalidText else None.

(** ** MText, types.go:1325-1371 *)
Fixpoint mtext_loop (fuel : nat) (n : nat) (acc : list bytes) (t : tok) : res (list bytes) :=
  match fuel with
  | O => NoFuel
  | S f =>
    let! (d, t) := decode_text n [] t in
    let acc := acc ++ [d] in
    match peek t with
    | None => Ok acc
    | Some c =>
      if beqc c "," then
        let '(_, t) := accept (bs ",") t in
        let '(_, t) := get t in
        mtext_loop f n acc t
      else Err ErrInvalidText
    end
  end.
Definition mtext_decode (data : bytes) : res (list bytes) :=
  mtext_loop (S (length data)) (S (length data)) [] (new_tok data).

Definition mtext_encode (l : list bytes) : list bytes := comma_writes text_encode true l.

Fixpoint mtext_valid (l : list bytes) : option gerr :=
  match l with
  | [] => None
  | t :: l' => match text_valid t with Some e => Some e | None => mtext_valid l' end
  end.

(** ** Time, types.go:1373-1437 *)
Definition clock_decode (m : pmap) (data : bytes) : res time :=
  match pmap_get m (bs "TZID") with
  | Some tz =>
    match load_location 0 tz with
    | None => Err ErrStd
    | Some l => of_option ErrStd (parse_clock false data l)
    end
  | None =>
    if ends_with "Z"%char data then of_option ErrStd (parse_clock true data LUTC)
    else of_option ErrStd (parse_clock false data LLocal)
  end.
Definition clock_encode (t : time) : list bytes :=
  [match t_loc t with
   | LUTC => format_clock t ++ bs "Z"
   | _ => format_clock t
   end].

(** ** UTCOffset, types.go:1468-1566 *)

(** types.go:1471-1526. After two accepted digits [ParseInt] cannot fail. *)
Definition utcoffset_decode (data : bytes) : res Z :=
  let t := new_tok data in
  let '(neg, t) := accept (bs "-") t in
  let '(_, t) := if neg then (true, t) else accept (bs "+") t in
  let '(_, t) := get t in
  let two (t : tok) :=
    let '(a, t) := accept digits_set t in
    if a then accept digits_set t else (false, t) in
  let '(okh, t) := two t in
  if negb okh then Err ErrInvalidOffset else
  let '(hs, t) := get t in
  let h := digits_val 0 hs in
  let '(okm, t) := two t in
  if negb okm then Err ErrInvalidOffset else
  let '(ms, t) := get t in
  let m := digits_val 0 ms in
  if 60 <=? m then Err ErrInvalidOffset else
  let '(a, t) := accept digits_set t in
  let! s :=
    if a then
      let '(b, t) := accept digits_set t in
      if negb b || (match peek t with None => false | Some _ => true end) then Err ErrInvalidOffset
      else
        let '(ss, t) := get t in
        let s := digits_val 0 ss in
        if 60 <=? s then Err ErrInvalidOffset else Ok s
    else
      match peek t with
      | None => Ok 0
      | Some _ => Err ErrInvalidOffset
      end in
  let u := 3600 * h + 60 * m + s in
  if neg then (if u =? 0 then Err ErrInvalidOffset else Ok (- u)) else Ok u.

(** Two's complement 64-bit wrap, and conversion to [byte]. *)
Definition wrap64 (z : Z) : Z := (z + 2 ^ 63) mod 2 ^ 64 - 2 ^ 63.
Definition to_byte (z : Z) : Z := z mod 256.

(** types.go:1533-1562 *)
Definition utcoffset_encode (u : Z) : list bytes :=
  let sign := if u <? 0 then bs "-" else [] in
  let o := if u <? 0 then wrap64 (- u) else u in
  let s := to_byte (Z.rem o 60) in
  let o := Z.quot o 60 in
  let m := to_byte (Z.rem o 60) in
  let h := to_byte (Z.quot o 60) in
  let h := if 99 <? h then 0 else h in
  let two x := [chr (to_byte (48 + x / 10)); chr (to_byte (48 + x mod 10))] in
  [sign ++ two h ++ two m ++ (if 0 <? s then two s else [])].

(** ** The value types together *)
Inductive vkind :=
| KBinary | KBoolean | KCalendarAddress | KDate | KDateTime | KDuration | KFloat | KTFloat | KInteger
| KPeriod | KRecur | KText | KMText | KTime | KURI | KUTCOffset.

Inductive value :=
| VBinary (b : bytes) | VBoolean (b : bool) | VCalendarAddress (u : url) | VDate (t : time)
| VDateTime (t : time) | VDuration (d : duration) | VFloat (f : float) | VTFloat (f : float * float)
| VInteger (z : Z) | VPeriod (p : period) | VRecur (r : recur) | VText (t : bytes)
| VMText (l : list bytes) | VTime (t : time) | VURI (u : url) | VUTCOffset (z : Z).

Definition kind_of (v : value) : vkind :=
  match v with
  | VBinary _ => KBinary | VBoolean _ => KBoolean | VCalendarAddress _ => KCalendarAddress
  | VDate _ => KDate | VDateTime _ => KDateTime | VDuration _ => KDuration | VFloat _ => KFloat
  | VTFloat _ => KTFloat | VInteger _ => KInteger | VPeriod _ => KPeriod | VRecur _ => KRecur
  | VText _ => KText | VMText _ => KMText | VTime _ => KTime | VURI _ => KURI
  | VUTCOffset _ => KUTCOffset
  end.

Definition rmap {A B} (f : A -> B) (r : res A) : res B := let! a := r in Ok (f a).

(** The [decode] method of each value type. *)
Definition value_decode (k : vkind) (m : pmap) (data : bytes) : res value :=
  match k with
  | KBinary => rmap VBinary (binary_decode m data)
  | KBoolean => rmap VBoolean (boolean_decode data)
  | KCalendarAddress => rmap VCalendarAddress (url_decode data)
  | KDate => rmap VDate (date_decode data)
  | KDateTime => rmap VDateTime (datetime_decode 0 m data)
  | KDuration => rmap VDuration (duration_decode data)
  | KFloat => rmap VFloat (float_decode data)
  | KTFloat => rmap VTFloat (tfloat_decode data)
  | KInteger => rmap VInteger (integer_decode data)
  | KPeriod => rmap VPeriod (period_decode m data)
  | KRecur => rmap VRecur (recur_decode m data)
  | KText => rmap VText (text_decode data)
  | KMText => rmap VMText (mtext_decode data)
  | KTime => rmap VTime (clock_decode m data)
  | KURI => rmap VURI (url_decode data)
  | KUTCOffset => rmap VUTCOffset (utcoffset_decode data)
  end.

(** The [encode] method of each value type, as its [Write] calls. *)
Definition value_encode (v : value) : list bytes :=
  match v with
  | VBinary b => binary_encode b
  | VBoolean b => boolean_encode b
  | VCalendarAddress u => url_encode u
  | VDate t => date_encode t
  | VDateTime t => datetime_encode t
  | VDuration d => duration_encode d
  | VFloat f => float_encode f
  | VTFloat f => tfloat_encode f
  | VInteger z => integer_encode z
  | VPeriod p => period_encode p
  | VRecur r => recur_encode r
  | VText t => text_encode t
  | VMText l => mtext_encode l
  | VTime t => clock_encode t
  | VURI u => url_encode u
  | VUTCOffset z => utcoffset_encode z
  end.

(** The [aencode] methods: parameters the value itself adds, a colon, the value. types.go:37-40
    (Binary), 190-194 (DateTime), 533-537 (Period), 967-971 (Recur), 1410-1414 (Time); the others
    write a colon and the value. *)
Definition value_aencode (v : value) : list bytes :=
  match v with
  | VBinary _ => [bs ";ENCODING=BASE64:"]
  | VDateTime t => write_timezone t ++ [bs ":"]
  | VPeriod p => write_timezone (p_start p) ++ [bs ":"]
  | VRecur r => write_timezone (r_until r) ++ [bs ":"]
  | VTime t => write_timezone t ++ [bs ":"]
  | _ => [bs ":"]
  end ++ value_encode v.

(** The [valid] method of each value type. *)
Definition value_valid (v : value) : option gerr :=
  match v with
  | VDate t | VDateTime t | VTime t => time_valid t
  | VFloat f => float_valid f
  | VTFloat f => tfloat_valid f
  | VPeriod p => period_valid p
  | VRecur r => recur_valid r
  | VText t => text_valid t
  | VMText l => mtext_valid l
  | _ => None
  end.

End Types.
