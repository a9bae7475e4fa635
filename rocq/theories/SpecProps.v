(** The property values that survive being written. *)
From Coq Require Import String Ascii ZArith Bool List.
From Verif Require Import Base Tokeniser SpecContent Utf8 GoTime Types Params ParamTable PropTable Props SecTable Sections SpecRules SpecText SpecDuration SpecTime SpecRecur SpecParams.
Import ListNotations.
Local Open Scope Z_scope.

Section Good.
Context {env : Env}.

(** The parameters that a value itself adds to its line. *)
Definition zone_params (t : time) : list cparam :=
  match t_loc t with LZone z _ => [CParam (bs "TZID") (Plain (zone_name z)) []] | _ => [] end.
Definition own_params (v : value) : list cparam :=
  match v with
  | VBinary _ => [CParam (bs "ENCODING") (Plain (bs "BASE64")) []]
  | VDateTime t | VTime t => zone_params t
  | VPeriod p => zone_params (p_start p)
  | VRecur r => zone_params (r_until r)
  | _ => []
  end.

Definition url_good (u : url) : Prop := url_parse (url_string u) = Some u /\ forallb value_char (url_string u) = true.
Definition float_good (f : float) : Prop :=
  parse_float (format_float f) = Some f /\ forallb value_char (format_float f) = true /\ ~ In ";"%char (format_float f).

(** The conditions of C14 to C31 and C54. *)
Definition value_good (v : value) : Prop :=
  match v with
  | VBinary _ | VBoolean _ => True
  | VCalendarAddress u | VURI u => url_good u
  | VDate t => utc_in_years t /\ t_sec t mod 86400 = 0
  | VDateTime t => moment_good 0 t
  | VDuration d => dur_fits d /\ dur_plain d
  | VFloat f => float_good f
  | VTFloat (a, b) => float_good a /\ float_good b
  | VInteger z => - 2 ^ 31 <= z < 2 ^ 31
  | VPeriod p => moment_good 0 (p_start p) /\
      ((moment_good 1 (p_end p) /\ is_zero (p_end p) = false /\ zone_params (p_end p) = zone_params (p_start p) /\ p_dur p = zero_duration) \/
       (p_end p = zero_time /\ d_neg (p_dur p) = false /\ dur_fits (p_dur p) /\ dur_plain (p_dur p)))
  | VRecur r => recur_typed r /\ value_valid v = None /\ until_good r /\ recur_sensible r
  | VText x => utf8 x /\ value_valid v = None
  | VMText l => l <> [] /\ Forall utf8 l /\ value_valid v = None
  | VTime t => exists sec, t = Time sec 0 LUTC /\ -62167219200 <= sec < -62167219200 + 86400
  | VUTCOffset u => - 360000 < u < 360000
  end.

(** A property: every parameter that is set is good, exactly one of the alternative values is set, it
    is of its type and good; an enumeration has a named choice. *)
Definition prop_good (pid : propid) (p : prop) : Prop :=
  match snd (prop_spec pid), p with
  | MStruct ps vs, PStruct l vl =>
    Forall2 (fun q o => forall v, o = Some v -> param_good (snd (param_spec q)) v) ps l /\
    exists a b w v, vs = a ++ (w, kind_of v) :: b /\ vl = map (fun _ => None) a ++ Some v :: map (fun _ => None) b /\ value_good v
  | MEnum ws, PEnum n => 0 <= n < Z.of_nat (length ws)
  | MNew k, PNew v => kind_of v = k /\ value_good v
  | _, _ => False
  end.
End Good.

(** ** Parameters whose text is written escaped *)
Section Hang.
Context {env : Env}.
Inductive text_of : pkind -> pval -> bytes -> Prop :=
| TO_text q s : text_of (PKText q) (PVText s) s
| TO_texts l s : In s l -> text_of PKTexts (PVTexts l) s
| TO_pattern s : text_of PKRegex (PVText s) s.
(** A property with a parameter text that has a line feed, a caret or a double quote. *)
Definition needs_escape (pid : propid) (p : prop) : Prop := exists ps vs l vl q v s c,
  snd (prop_spec pid) = MStruct ps vs /\ p = PStruct l vl /\ In (q, Some v) (combine ps l) /\
  text_of (snd (param_spec q)) v s /\ In c s /\ special68 c.
(** A property somewhere in a component. *)
Definition has_prop (cal : sec) (pid : propid) (p : prop) : Prop :=
  exists x vs, part_of x cal /\ In vs (sec_fields x) /\ In (FVProp pid p) vs.
End Hang.

(** ** Reading a line *)
Section Read.
Context {env : Env}.
(** The parameters of a line with this name, in any case. *)
Definition given (k : bytes) (ps : list cparam) : list cparam := filter (fun p => beq (upper (cp_name p)) k) ps.
Definition param_values (p : cparam) : list token := map pvalue_token (cp_first p :: cp_more p).
(** The parameter names that a property knows. *)
Definition known_params (k : propkind) : list bytes :=
  match k with
  | MStruct ps vs => (if Nat.ltb 1 (length vs) then [bs "VALUE"] else []) ++ map (fun q => fst (param_spec q)) ps
  | _ => []
  end.
(** [param_read cps q o]: [o] is what the parameter [q] is read as. *)
Definition param_read (cps : list cparam) (q : paramid) (o : option pval) : Prop :=
  (given (fst (param_spec q)) cps = [] /\ o = None) \/
  (exists x v, given (fst (param_spec q)) cps = [x] /\ param_decode (snd (param_spec q)) (param_values x) = Ok v /\ o = Some v).
(** [type_read cps vs a w k b]: of the value types [vs] the one with the name [w] is chosen. *)
Definition type_read (cps : list cparam) (vs a : list (bytes * vkind)) (w : bytes) (k : vkind) (b : list (bytes * vkind)) : Prop :=
  vs = a ++ (w, k) :: b /\
  (a = [] /\ (given (bs "VALUE") cps = [] \/ length vs = 1%nat) \/
   exists x, given (bs "VALUE") cps = [x] /\ cp_more x = [] /\ upper (pvalue_text (cp_first x)) = w).
(** An address parameter that starts with a character that is not a double quote. *)
Inductive bare_address : pkind -> pval -> Prop :=
| BA_uri u c r : url_string u = c :: r -> c <> DQ -> bare_address PKUri (PVUri u)
| BA_addrs u l c r : url_string u = c :: r -> c <> DQ -> bare_address PKAddrs (PVAddrs (u :: l)).
End Read.
