(** What Encode accepts. *)
From Coq Require Import String Ascii ZArith Bool List.
From Verif Require Import Base Tokeniser SpecContent GoTime Types Params ParamTable PropTable Props SecTable Sections SpecRules SpecProps SpecCal.
Import ListNotations.
Local Open Scope Z_scope.

(** No control characters; TAB and LF are allowed. *)
Definition no_control (s : bytes) : Prop := Forall (fun c => value_char c = true \/ c = LF) s.

(** A slash between two characters of media type names. The pattern of the code takes its range from
    plus to caret, so this is a wider set than the letters, digits and signs of RFC 4288. *)
Definition media_char (c : byte) : Prop := In (code c) [33; 35; 36; 38; 95] \/ 43 <= code c <= 94 \/ 97 <= code c <= 122.
Definition media_like (s : bytes) : Prop := exists a x y b, s = a ++ x :: "/"%char :: y :: b /\ media_char x /\ media_char y.

Section Valid.
Context {env : Env}.

Definition upto (hi : Z) (l : list Z) : Prop := Forall (fun v => v <= hi) l.
Definition signed_upto (hi : Z) (l : list Z) : Prop := Forall (fun v => v <> 0 /\ - hi <= v <= hi) l.
Definition recur_ok (r : recur) : Prop :=
  0 <= r_freq r <= 6 /\ (r_wkst r = 0 \/ 1 <= r_wkst r <= 7) /\
  upto 60 (r_bysecond r) /\ upto 59 (r_byminute r) /\ upto 23 (r_byhour r) /\
  Forall (fun d => 1 <= dr_day d <= 7) (r_byday r) /\
  signed_upto 31 (r_bymonthday r) /\ signed_upto 366 (r_byyearday r) /\ signed_upto 53 (r_byweekno r) /\
  Forall (fun v => v <> 0 /\ v <= 12) (r_bymonth r) /\ signed_upto 366 (r_bysetpos r).

(** The same location: UTC, local, or one pointer. *)
Definition same_place (a b : loc) : Prop :=
  match a, b with LUTC, LUTC | LLocal, LLocal => True | LZone _ i, LZone _ j => i = j | _, _ => False end.

(** Times are set; a period has a start and either a later end at the same location or a duration that
    is not negative. Of floating point numbers only those that are not finite are accepted (an error
    in the code). *)
Definition value_ok (v : value) : Prop :=
  match v with
  | VDate t | VDateTime t | VTime t => ~ year_one t
  | VFloat f => ~ finite f
  | VTFloat (a, b) => ~ finite a /\ ~ finite b
  | VPeriod p => ~ year_one (p_start p) /\
      ((year_one (p_end p) /\ d_neg (p_dur p) = false) \/
       (~ year_one (p_end p) /\ later (p_end p) (p_start p) /\ same_place (t_loc (p_start p)) (t_loc (p_end p))))
  | VRecur r => recur_ok r
  | VText t => no_control t
  | VMText l => Forall no_control l
  | _ => True
  end.

Definition param_ok (k : pkind) (v : pval) : Prop :=
  match k, v with
  | PKText _, PVText s => no_control s
  | PKTexts, PVTexts l => Forall no_control l
  | PKEnum false ws, PVEnum n => 0 <= n < Z.of_nat (length ws)
  | PKRegex, PVText s => media_like s
  | _, _ => True
  end.

(** Of alternative values exactly one is set. *)
Definition one_set {A} (l : list (option A)) : Prop :=
  exists a v b, l = a ++ Some v :: b /\ Forall (fun o => o = None) a /\ Forall (fun o => o = None) b.
Definition prop_ok (pid : propid) (p : prop) : Prop :=
  match snd (prop_spec pid), p with
  | MStruct ps vs, PStruct l vl =>
    (forall q v, In (q, Some v) (combine ps l) -> param_ok (snd (param_spec q)) v) /\
    (forall v, In (Some v) vl -> value_ok v) /\
    (1 < Z.of_nat (length vs) -> one_set vl)
  | MEnum ws, PEnum n => 0 <= n < Z.of_nat (length ws)
  | MNew _, PNew v => value_ok v
  | _, _ => True
  end.
(** Every property is acceptable, and every alarm is there. *)
Definition cal_ok (cal : sec) : Prop :=
  (forall pid p, has_prop cal pid p -> prop_ok pid p) /\
  (forall x vs, part_of x cal -> In vs (sec_fields x) -> ~ In (FVAlarm None) vs).
End Valid.
