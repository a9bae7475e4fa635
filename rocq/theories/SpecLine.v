(** What a content line means as a property, in terms of the tables of SpecRfc.v. *)
From Coq Require Import String Ascii ZArith Bool List.
From Verif Require Import Base GoStrings Tokeniser SpecContent GoTime Types Params ParamTable PropTable Props SecTable Sections SpecTree SpecRules SpecProps SpecValid SpecRfc.
Import ListNotations.
Local Open Scope string_scope.
Local Open Scope list_scope.
Local Open Scope Z_scope.

Section Line.
Context {env : Env}.

(** ** Parameters *)
Definition one_text (x : cparam) (t : bytes) : Prop := cp_more x = [] /\ pvalue_text (cp_first x) = t.
Inductive form_means : param_form -> cparam -> pval -> Prop :=
| FM_address x s u : cp_first x = Quoted s -> cp_more x = [] -> url_parse s = Some u -> form_means OneAddress x (PVUri u)
| FM_addresses x us : Forall2 (fun v u => exists s, v = Quoted s /\ url_parse s = Some u) (cp_first x :: cp_more x) us -> form_means ManyAddresses x (PVAddrs us)
| FM_texts x ts : Forall2 (fun v t => exists s, v = Quoted s /\ decode6868 s = t) (cp_first x :: cp_more x) ts -> form_means ManyTexts x (PVTexts ts)
| FM_text x t : one_text x t -> form_means AnyText x (PVText (decode6868 t))
| FM_quoted x s : cp_first x = Quoted s -> cp_more x = [] -> form_means QuotedText x (PVText (decode6868 s))
| FM_word o ws x t n w : one_text x t -> nth_error ws n = Some w -> upper t = bs w -> form_means (Choice o ws) x (PVEnum (Z.of_nat n + if o then 1 else 0))
| FM_other ws x t : one_text x t -> ~ In (upper t) (map bs ws) -> form_means (Choice true ws) x (PVEnum 0)
| FM_only w x t : one_text x t -> upper t = bs w -> form_means (OnlyWord w) x PVUnit
| FM_media x t : one_text x t -> media_like t -> form_means MediaType x (PVText t)
| FM_true x t : one_text x t -> In t (map bs ["TRUE"; "True"; "true"; "T"; "t"; "1"]) -> form_means TrueFalse x (PVBool true)
| FM_false x t : one_text x t -> In t (map bs ["FALSE"; "False"; "false"; "F"; "f"; "0"]) -> form_means TrueFalse x (PVBool false).
(** A parameter that is not given, or given once. *)
Definition param_means (cps : list cparam) (q : paramid) (o : option pval) : Prop :=
  (given (fst (rfc_param q)) cps = [] /\ o = None) \/
  (exists x v, given (fst (rfc_param q)) cps = [x] /\ form_means (snd (rfc_param q)) x v /\ o = Some v).

(** ** Lines *)
(** TZID and ENCODING belong to the value; if one is given more than once the last counts (see C38). *)
Definition last_given (n : bytes) (cps : list cparam) : option bytes :=
  match rev (given n cps) with [] => None | x :: _ => Some (join (bs ",") (map pvalue_text (cp_first x :: cp_more x))) end.
Definition value_params (cps : list cparam) : list (bytes * bytes) :=
  flat_map (fun n => match last_given n cps with Some t => [(n, t)] | None => [] end) [bs "TZID"; bs "ENCODING"].
(** A property with a choice of words; a struct with parameters and one of its alternative values; a
    plain value. *)
Definition line_means (pid : propid) (cps : list cparam) (d : bytes) (p : prop) : Prop :=
  match rfc_words pid, api_struct pid with
  | [], Some ps => exists l a w k b v, Forall2 (param_means cps) ps l /\ type_read cps (rfc_types pid) a w k b /\
      value_decode k (value_params cps) d = Ok v /\ p = PStruct l (map (fun _ => None) a ++ Some v :: map (fun _ => None) b)
  | [], None => exists w k v, rfc_types pid = [(w, k)] /\ value_decode k (value_params cps) d = Ok v /\ p = PNew v
  | ws, _ => exists n, nth_error ws n = Some (upper d) /\ p = PEnum (Z.of_nat n)
  end.
End Line.
