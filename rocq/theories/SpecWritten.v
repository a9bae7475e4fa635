(** What Encode writes for a calendar, line by line, in terms of the tables of SpecRfc.v and of the values of
    SpecWrite.v. *)
From Coq Require Import String Ascii ZArith Bool List.
From Verif Require Import Base SpecContent GoTime Types Params ParamTable PropTable Props SecTable Sections SpecTree SpecRules SpecProps SpecTime SpecCal SpecRfc SpecOut SpecWrite.
Import ListNotations.
Local Open Scope Z_scope.

Section Written.
Context {env : Env}.

(** ** Parameters *)
Definition quoted (t : bytes) : bytes := [DQ] ++ t ++ [DQ].
Definition mark (c : byte) : Prop := In c [":"; ";"; ","]%char.
Inductive with_commas {A} (P : A -> bytes -> Prop) : list A -> bytes -> Prop :=
| WC_one a s : P a s -> with_commas P [a] s
| WC_more a s l r : P a s -> with_commas P l r -> with_commas P (a :: l) (s ++ bs "," ++ r).
(** A text of one's own choice between quotes if it has a colon, semicolon or comma; quoted texts always;
    addresses never. A choice is a word, or UNKNOWN if its number is not that of a word. *)
Inductive form_says : param_form -> pval -> bytes -> Prop :=
| FS_address u : form_says OneAddress (PVUri u) (url_string u)
| FS_addresses us s : with_commas (fun u w => w = url_string u) us s -> form_says ManyAddresses (PVAddrs us) s
| FS_texts ts s : with_commas (fun t w => w = quoted t) ts s -> form_says ManyTexts (PVTexts ts) s
| FS_plain f t : f = AnyText \/ f = MediaType -> (forall c, In c t -> ~ mark c) -> form_says f (PVText t) t
| FS_marked f t c : f = AnyText \/ f = MediaType -> In c t -> mark c -> form_says f (PVText t) (quoted t)
| FS_quoted t : form_says QuotedText (PVText t) (quoted t)
| FS_word o ws n w : nth_error ws n = Some w -> form_says (Choice o ws) (PVEnum (Z.of_nat n + if o then 1 else 0)) (bs w)
| FS_other ws n : ~ (1 <= n <= Z.of_nat (length ws)) -> form_says (Choice true ws) (PVEnum n) (bs "UNKNOWN")
| FS_only w : form_says (OnlyWord w) PVUnit (bs w)
| FS_true : form_says TrueFalse (PVBool true) (bs "TRUE").
(** What is set but not written. *)
Definition unsaid (v : pval) : Prop :=
  match v with
  | PVUri u => url_string u = []
  | PVText t => t = []
  | PVTexts l => l = []
  | PVAddrs l => l = []
  | PVBool b => b = false
  | _ => False
  end.
Definition param_says (q : paramid) (o : option pval) (s : bytes) : Prop :=
  match o with
  | None => s = []
  | Some v => (unsaid v /\ s = []) \/
      (~ unsaid v /\ exists w, s = bs ";" ++ fst (rfc_param q) ++ bs "=" ++ w /\ form_says (snd (rfc_param q)) v w)
  end.
Inductive params_say : list paramid -> list (option pval) -> bytes -> Prop :=
| PS_nil : params_say [] [] []
| PS_cons q qs o l s r : param_says q o s -> params_say qs l r -> params_say (q :: qs) (o :: l) (s ++ r).

(** ** Values: a VALUE parameter if the type is not the default; ENCODING for binary values; TZID for times in
    a time zone, ... *)
Definition zone_says (t : time) (s : bytes) : Prop :=
  match t_loc t with LZone z _ => s = bs ";TZID=" ++ zone_name z | _ => s = [] end.
Definition own_says (v : value) (s : bytes) : Prop :=
  match v with
  | VBinary _ => s = bs ";ENCODING=BASE64"
  | VDateTime t | VTime t => zone_says t s
  | VPeriod p => zone_says (p_start p) s
  | VRecur r => zone_says (r_until r) s
  | _ => s = []
  end.
Definition type_says {A} (before : list A) (w s : bytes) : Prop :=
  (before = [] /\ s = []) \/ (before <> [] /\ s = bs ";VALUE=" ++ w).
(** ... a colon, and the value. *)
Definition colon_value (v : value) (s : bytes) : Prop := exists o t, s = o ++ bs ":" ++ t /\ own_says v o /\ value_says v t.
Definition alternative (ts : list (bytes * vkind)) (vl : list (option value)) (s : bytes) : Prop := exists a v b w k x y,
  vl = a ++ Some v :: b /\ Forall (fun o => o = None) a /\ Forall (fun o => o = None) b /\ nth_error ts (length a) = Some (w, k) /\
  s = x ++ y /\ type_says a w x /\ colon_value v y.

(** ** Lines *)
Definition line_says (pid : propid) (p : prop) (l : bytes) : Prop :=
  match p with
  | PStruct ps vl => exists qs x y, api_struct pid = Some qs /\ l = prop_name pid ++ x ++ y /\ params_say qs ps x /\ alternative (rfc_types pid) vl y
  | PEnum n => exists i w, n = Z.of_nat i /\ nth_error (rfc_words pid) i = Some w /\ l = prop_name pid ++ bs ":" ++ w
  | PNew v => exists y, l = prop_name pid ++ y /\ colon_value v y
  end.

Definition prop_writable (p : prop) : Prop :=
  match p with
  | PStruct _ vl => forall v, In (Some v) vl -> value_writable v
  | PEnum _ => True
  | PNew v => value_writable v
  end.
Definition cal_writable (cal : sec) : Prop := forall pid p, has_prop cal pid p -> prop_writable p.
(** The times in a value whose year is written. *)
Definition value_times (v : value) : list time :=
  match v with
  | VDate t | VDateTime t => [t]
  | VPeriod p => [p_start p; p_end p]
  | VRecur r => [r_until r]
  | _ => []
  end.
(** The clocks of the zones show years of four digits. *)
Definition cal_years (cal : sec) : Prop := forall pid p v t, has_prop cal pid p -> prop_value p v -> In t (value_times v) -> t_loc t <> LUTC -> in_years t.
(** The text of a calendar. *)
Definition cal_says (cal : sec) (s : bytes) : Prop := exists ls, comp_lines line_says cal ls /\
  s = text_of_lines (bs "BEGIN:VCALENDAR" :: ls ++ [bs "END:VCALENDAR"]).
End Written.
