(** Environment oracles, and a model of the parts of Go's [time] package the code uses. *)
From Coq Require Import String Ascii ZArith Bool List.
From Verif Require Import Base Utf8 GoStrings.
Import ListNotations.
Local Open Scope Z_scope.

(** What the code calls and the model does not define: [net/url], the time-zone database,
    [time.Local], finite floating-point parsing and formatting, non-ASCII [unicode.ToUpper].
    Functions only: nothing is assumed about them. *)
Class Env := {
  url : Type;
  url_parse : bytes -> option url;             (* url.Parse *)
  url_string : url -> bytes;                   (* URL.String *)
  zone : Type;                                 (* contents of a *time.Location other than UTC and Local *)
  zone_name : zone -> bytes;                   (* Location.String *)
  zone_lookup : zone -> Z -> Z * Z * Z;        (* Location.lookup: offset, start, end *)
  load_zone : bytes -> option zone;            (* time.LoadLocation for names other than the special ones *)
  local_lookup : Z -> Z * Z * Z;               (* lookup of time.Local *)
  fin : Type;                                  (* finite float64 *)
  fin_parse : bytes -> option fin;             (* strconv.ParseFloat(s, 64) on non-special words *)
  fin_format : fin -> bytes;                   (* strconv.FormatFloat(f, 'f', -1, 64) *)
  up_rune : Z -> Z                             (* unicode.ToUpper for runes from 128 up *)
}.

Section Time.
Context {env : Env}.

(** A [*time.Location]. Every [time.LoadLocation] of a database zone returns a new pointer; [id]
    tells such pointers apart where the code compares them (Period.valid). *)
Inductive loc := LUTC | LLocal | LZone (z : zone) (id : nat).

(** Pointer comparison of locations. *)
Definition loc_same (a b : loc) : bool :=
  match a, b with
  | LUTC, LUTC | LLocal, LLocal => true
  | LZone _ i, LZone _ j => Nat.eqb i j
  | _, _ => false
  end.

(** [time.Time]: seconds since 1970-01-01T00:00:00Z, nanoseconds, location. *)
Record time := Time { t_sec : Z; t_nsec : Z; t_loc : loc }.

Definition lookup (l : loc) (sec : Z) : Z * Z * Z :=
  match l with
  | LUTC => (0, - 2 ^ 63, 2 ^ 63 - 1)
  | LLocal => local_lookup sec
  | LZone z _ => zone_lookup z sec
  end.

Definition offset_at (l : loc) (sec : Z) : Z := fst (fst (lookup l sec)).

(** The zero [time.Time] is 0001-01-01T00:00:00Z. *)
Definition zero_sec : Z := -62135596800.
Definition zero_time : time := Time zero_sec 0 LUTC.
Definition is_zero (t : time) : bool := (t_sec t =? zero_sec) && (t_nsec t =? 0).

(** [Time.After] *)
Definition after (a b : time) : bool :=
  (t_sec b <? t_sec a) || ((t_sec a =? t_sec b) && (t_nsec b <? t_nsec a)).

(** ** Gregorian calendar (proleptic), as day numbers from 1970-01-01.
    Go computes the same function with its own tables. *)
Definition is_leap (y : Z) : bool := (y mod 4 =? 0) && (negb (y mod 100 =? 0) || (y mod 400 =? 0)).

Definition days_in (m y : Z) : Z :=
  if (m =? 2) then (if is_leap y then 29 else 28)
  else if (m =? 4) || (m =? 6) || (m =? 9) || (m =? 11) then 30 else 31.

Definition days_from_civil (y m d : Z) : Z :=
  let y' := if m <=? 2 then y - 1 else y in
  let era := y' / 400 in
  let yoe := y' mod 400 in
  let mp := (m + 9) mod 12 in
  let doy := (153 * mp + 2) / 5 + d - 1 in
  let doe := yoe * 365 + yoe / 4 - yoe / 100 + doy in
  era * 146097 + doe - 719468.

Definition civil_from_days (n : Z) : Z * Z * Z :=
  let z := n + 719468 in
  let era := z / 146097 in
  let doe := z mod 146097 in
  let yoe := (doe - doe / 1460 + doe / 36524 - doe / 146096) / 365 in
  let doy := doe - (365 * yoe + yoe / 4 - yoe / 100) in
  let mp := (5 * doy + 2) / 153 in
  let d := doy - (153 * mp + 2) / 5 + 1 in
  let m := if mp <? 10 then mp + 3 else mp - 9 in
  let y := yoe + era * 400 + (if m <=? 2 then 1 else 0) in
  (y, m, d).

(** [time.Date] for in-range fields: the wall clock reading is first taken as UTC, then corrected by
    the zone offset found there (Go 1.20 and later). *)
Definition go_date (y mo d h mi s ns : Z) (l : loc) : time :=
  let unix := days_from_civil y mo d * 86400 + h * 3600 + mi * 60 + s in
  let '(off, st, en) := lookup l unix in
  let unix' :=
    if off =? 0 then unix
    else
      let utc := unix - off in
      let off' := if (utc <? st) || (en <=? utc) then offset_at l utc else off in
      unix - off' in
  Time unix' ns l.

(** ** Parsing *)

(** time.getnum *)
Definition getnum (s : bytes) (fixed : bool) : option (Z * bytes) :=
  match s with
  | a :: s' =>
    if is_digit a then
      match s' with
      | b :: s'' =>
        if is_digit b then Some ((code a - 48) * 10 + (code b - 48), s'')
        else if fixed then None else Some (code a - 48, s')
      | [] => if fixed then None else Some (code a - 48, s')
      end
    else None
  | [] => None
  end.

Definition ranged (lo hi : Z) (o : option (Z * bytes)) : option (Z * bytes) :=
  match o with
  | Some (v, r) => if in_range lo hi v then Some (v, r) else None
  | None => None
  end.

Definition obind {A B} (o : option A) (f : A -> option B) : option B :=
  match o with Some a => f a | None => None end.
Notation "'let?' p ':=' r 'in' k" := (obind r (fun p => k))
  (at level 200, p pattern, r at level 100, k at level 200).

(** stdLongYear: four digits. *)
Definition parse_year (s : bytes) : option (Z * bytes) :=
  match s with
  | a :: b :: c :: d :: r =>
    if forallb is_digit [a; b; c; d] then Some (digits_val 0 [a; b; c; d], r) else None
  | _ => None
  end.

(** Layout "20060102"; the day is checked against the month at the end of time.Parse. *)
Definition parse_ymd (s : bytes) : option (Z * Z * Z * bytes) :=
  let? (y, s) := parse_year s in
  let? (m, s) := ranged 1 12 (getnum s true) in
  let? (d, s) := getnum s true in
  if in_range 1 (days_in m y) d then Some (y, m, d, s) else None.

(** Fractional seconds are accepted after the seconds even though the layout has none. *)
Definition parse_frac (s : bytes) : Z * bytes :=
  match s with
  | p :: d :: _ =>
    if (beqc p "." || beqc p ",") && is_digit d then
      let '(ds, r) := span is_digit (tl s) in
      let ds := firstn 9 ds in
      (digits_val 0 ds * 10 ^ (9 - Z.of_nat (length ds)), r)
    else (0, s)
  | _ => (0, s)
  end.

(** Layout "150405". *)
Definition parse_hms (s : bytes) : option (Z * Z * Z * Z * bytes) :=
  let? (h, s) := ranged 0 23 (getnum s false) in
  let? (m, s) := ranged 0 59 (getnum s true) in
  let? (x, s) := ranged 0 59 (getnum s true) in
  let '(ns, s) := parse_frac s in
  Some (h, m, x, ns, s).

Definition lit (c : byte) (s : bytes) : option bytes :=
  match s with a :: r => if beqc a c then Some r else None | [] => None end.

(** time.Parse("20060102", s): UTC *)
Definition parse_date (s : bytes) : option time :=
  let? (y, m, d, s) := parse_ymd s in
  match s with [] => Some (go_date y m d 0 0 0 0 LUTC) | _ => None end.

(** time.ParseInLocation("20060102T150405", s, l), with a final Z when [z] *)
Definition parse_datetime (z : bool) (s : bytes) (l : loc) : option time :=
  let? (y, m, d, s) := parse_ymd s in
  let? s := lit "T"%char s in
  let? (h, mi, x, ns, s) := parse_hms s in
  let? s := if z then lit "Z"%char s else Some s in
  match s with [] => Some (go_date y m d h mi x ns l) | _ => None end.

(** time.ParseInLocation("150405", s, l), with a final Z when [z]: year 0, January 1 *)
Definition parse_clock (z : bool) (s : bytes) (l : loc) : option time :=
  let? (h, mi, x, ns, s) := parse_hms s in
  let? s := if z then lit "Z"%char s else Some s in
  match s with [] => Some (go_date 0 1 1 h mi x ns l) | _ => None end.

(** time.LoadLocation; [id] distinguishes the pointers of separate calls. *)
Fixpoint has_dotdot (s : bytes) : bool :=
  match s with
  | a :: (b :: _) as s' => (beqc a "." && beqc b ".") || has_dotdot s'
  | _ => false
  end.
Definition load_location (id : nat) (name : bytes) : option loc :=
  if beq name [] || beq name (bs "UTC") then Some LUTC
  else if beq name (bs "Local") then Some LLocal
  else if has_dotdot name then None
  else match name with
       | c :: _ => if beqc c "/" || beqc c "\" then None
                   else match load_zone name with Some z => Some (LZone z id) | None => None end
       | [] => None
       end.

(** ** Formatting (Time.AppendFormat) *)

(** Zero-padded decimal of width [w] (time.appendInt). *)
Definition pad_uint (w : nat) (n : Z) : bytes :=
  let d := fmt_uint n in repeat (digit_chr 0) (w - length d) ++ d.
Definition pad_int (w : nat) (n : Z) : bytes :=
  if n <? 0 then "-"%char :: pad_uint w (- n) else pad_uint w n.

(** Wall clock reading: days since 1970-01-01 and second of the day. *)
Definition wall (t : time) : Z := t_sec t + offset_at (t_loc t) (t_sec t).

Definition format_date (t : time) : bytes :=
  let '(y, m, d) := civil_from_days (wall t / 86400) in
  pad_int 4 y ++ pad_int 2 m ++ pad_int 2 d.

Definition format_clock (t : time) : bytes :=
  let s := wall t mod 86400 in
  pad_int 2 (s / 3600) ++ pad_int 2 (s / 60 mod 60) ++ pad_int 2 (s mod 60).

Definition format_datetime (t : time) : bytes :=
  format_date t ++ bs "T" ++ format_clock t.

End Time.
