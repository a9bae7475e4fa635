(** Texts that are UTF-8. *)
From Coq Require Import String Ascii ZArith Bool List.
From Verif Require Import Base Utf8 GoTime Types Params ParamTable PropTable Props SecTable Sections SpecTree SpecRules SpecProps SpecCal.
Import ListNotations.

Section U.
Context {env : Env}.

(** The texts a value or a parameter holds. *)
Definition value_texts (v : value) : list bytes := match v with VText t => [t] | VMText l => l | _ => [] end.
Definition param_texts (v : pval) : list bytes := match v with PVText t => [t] | PVTexts l => l | _ => [] end.
(** What a value or a parameter is written with that comes from outside: addresses and names of time zones. *)
Definition zone_names (t : time) : list bytes := match t_loc t with LZone z _ => [zone_name z] | _ => [] end.
Definition value_outside (v : value) : list bytes :=
  match v with
  | VCalendarAddress u | VURI u => [url_string u]
  | VDateTime t | VTime t => zone_names t
  | VPeriod p => zone_names (p_start p)
  | VRecur r => zone_names (r_until r)
  | _ => []
  end.
Definition param_outside (v : pval) : list bytes :=
  match v with PVUri u => [url_string u] | PVAddrs l => map url_string l | _ => [] end.

(** [v] is a parameter of the property. *)
Definition prop_param (p : prop) (v : pval) : Prop := match p with PStruct l _ => In (Some v) l | _ => False end.
(** Every text of the properties of a calendar, every text of their parameters, and everything of theirs from outside. *)
Definition values_utf8 (cal : sec) : Prop :=
  forall pid p v, has_prop cal pid p -> prop_value p v -> Forall utf8 (value_texts v).
Definition params_utf8 (cal : sec) : Prop :=
  forall pid p v, has_prop cal pid p -> prop_param p v -> Forall utf8 (param_texts v).
Definition outside_utf8 (cal : sec) : Prop :=
  forall pid p, has_prop cal pid p ->
    (forall v, prop_value p v -> Forall utf8 (value_outside v)) /\ (forall v, prop_param p v -> Forall utf8 (param_outside v)).
(** Addresses parsed from UTF-8 are written in UTF-8; the names of the machine's time zones are UTF-8. *)
Definition world_utf8 : Prop :=
  (forall s u, utf8 s -> url_parse s = Some u -> utf8 (url_string u)) /\ (forall n z, load_zone n = Some z -> utf8 (zone_name z)).
End U.
