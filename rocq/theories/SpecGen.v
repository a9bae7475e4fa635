(** What the descriptions of the generated code say. A description is given by its meaning; [..._text] is
    the text of the file. *)
From Coq Require Import String Ascii ZArith Bool List.
From Verif Require Import Base Utf8 GoStrings Types Params ParamTable PropTable SecTable LabelTable Generator.
Import ListNotations.

(** Words: letters, digits and minus signs *)
Definition word_char (c : byte) : bool :=
  in_range 65 90 (code c) || in_range 97 122 (code c) || in_range 48 57 (code c) || (code c =? 45)%Z.
Definition is_word (w : bytes) : Prop := w <> [] /\ forallb word_char w = true.

(** ** Sections *)
(** A rule between two fields: not both, both or neither, the first only with the second, one of them *)
Inductive rule_kind := NotBoth | Together | Needs | OneOf.
Definition rule_sign (k : rule_kind) : byte := match k with NotBoth => "!" | Together => "+" | Needs => ">" | OneOf => "|" end.
Definition rule_word (k : rule_kind) : bytes := match k with NotBoth => bs "ONE" | Together => bs "AND" | Needs => bs "ERGO" | OneOf => bs "OR" end.
Definition rule := (rule_kind * bytes * bytes)%type.
(** A field: once, at most once, any number of times, at least once; a component or a property, with the
    word in the text and, if it has one, a name of its own *)
Inductive how_often := Once | Maybe | Any | AtLeastOnce.
Definition often_sign (h : how_often) : bytes := match h with Once => bs "!" | Maybe => [] | Any => bs "*" | AtLeastOnce => bs "+" end.
Record fdesc := FDesc { fd_often : how_often; fd_comp : bool; fd_alias : option bytes; fd_word : bytes }.
Inductive entry := AField (f : fdesc) | ARule (r : rule).
(** A section: its word and its lines *)
Definition sdesc := (bytes * list entry)%type.

Definition field_text (f : fdesc) : bytes :=
  often_sign (fd_often f) ++ (if fd_comp f then bs "BEGIN:" else []) ++
  (match fd_alias f with Some a => a ++ bs "#" | None => [] end) ++ fd_word f.
Definition entry_text (x : entry) : bytes :=
  match x with AField f => field_text f | ARule (k, a, b) => bs "?" ++ a ++ [rule_sign k] ++ b end.
Definition section_text (d : sdesc) : bytes := fst d ++ [LF] ++ concat (map (fun x => [TABc] ++ entry_text x ++ [LF]) (snd d)).
Definition sections_text (ds : list sdesc) : bytes := concat (map section_text ds).
Definition good_field (f : fdesc) : Prop := is_word (fd_word f) /\ forall a, fd_alias f = Some a -> is_word a.
Definition good_entry (x : entry) : Prop := match x with AField f => good_field f | ARule (_, a, b) => is_word a /\ is_word b end.
Definition good_section (d : sdesc) : Prop := is_word (fst d) /\ Forall good_entry (snd d).

(** What is meant *)
Definition fields_of (xs : list entry) : list fdesc := flat_map (fun x => match x with AField f => [f] | _ => [] end) xs.
Definition rules_of (xs : list entry) : list rule := flat_map (fun x => match x with ARule r => [r] | _ => [] end) xs.
Section Names.
Context (names : list (bytes * bytes)).
Definition field_meant (f : fdesc) : gfield :=
  GField (get_name names (match fd_alias f with Some a => a | None => fd_word f end)) (fd_word f)
    (match fd_often f with Once | AtLeastOnce => true | _ => false end) (match fd_often f with Any | AtLeastOnce => true | _ => false end) (fd_comp f).
Definition rule_meant (r : rule) : bytes * list bytes := let '(k, a, b) := r in (rule_word k, [get_name names a; get_name names b]).
Definition section_meant (d : sdesc) : gsec := GSec (fst d) (map field_meant (fields_of (snd d))) (map rule_meant (rules_of (snd d))).
(** What the script makes of it: of the rules, the first and the last *)
Definition ends {A} (l : list A) : list A := match l with [] => [] | [a] => [a] | a :: l' => [a; last l' a] end.
Definition section_made (d : sdesc) : gsec := GSec (fst d) (map field_meant (fields_of (snd d))) (map rule_meant (ends (rules_of (snd d)))).
End Names.

(** ** Properties *)
(** A property: its word and, if it has one, a name of its own; words that are its values or the names of
    types; its parameters *)
Record pdesc := PDesc { pd_alias : option bytes; pd_word : bytes; pd_types : bool; pd_values : list bytes; pd_params : list bytes }.
Definition pd_head (d : pdesc) : bytes := (match pd_alias d with Some a => a ++ bs "#" | None => [] end) ++ pd_word d.
Definition prop_text (d : pdesc) : bytes :=
  pd_head d ++ bs ":" ++ (if pd_types d then bs "!" else []) ++ join (bs "|") (pd_values d) ++ [LF] ++
  concat (map (fun p => [TABc] ++ p ++ [LF]) (pd_params d)).
Definition props_text (ds : list pdesc) : bytes := concat (map prop_text ds).
Definition good_prop (d : pdesc) : Prop :=
  is_word (pd_word d) /\ (forall a, pd_alias d = Some a -> is_word a) /\ pd_values d <> [] /\ Forall is_word (pd_values d) /\ Forall is_word (pd_params d).
Definition prop_meant (d : pdesc) : gprop := GProp (pd_head d) (pd_types d) (pd_values d) (pd_params d).
(** What the script makes of it: a property without parameters, and one for each parameter *)
Definition props_made (d : pdesc) : list gprop :=
  GProp (pd_head d) (pd_types d) (pd_values d) [] :: map (fun p => GProp p false [p] []) (pd_params d).

(** ** The code: its tables in the words of the descriptions *)
Definition type_name (k : vkind) : bytes :=
  match k with
  | KBinary => bs "Binary" | KBoolean => bs "Boolean" | KCalendarAddress => bs "CalendarAddress" | KDate => bs "Date"
  | KDateTime => bs "DateTime" | KDuration => bs "Duration" | KFloat => bs "Float" | KTFloat => bs "TFloat"
  | KInteger => bs "Integer" | KPeriod => bs "Period" | KRecur => bs "Recur" | KText => bs "Text" | KMText => bs "MText"
  | KTime => bs "Time" | KURI => bs "URI" | KUTCOffset => bs "UTCOffset"
  end.
(** Name of the type, word, whether the words are types, these words, their types, the parameters *)
Definition prop_code (p : propid) : bytes * bytes * bool * list bytes * list bytes * list bytes :=
  match snd (prop_spec p) with
  | MEnum ws => (prop_label p, fst (prop_spec p), false, ws, [], [])
  | MNew k => (prop_label p, fst (prop_spec p), true, [type_name k], [type_name k], [])
  | MStruct ps vs => (prop_label p, fst (prop_spec p), true, map fst vs, map (fun v => type_name (snd v)) vs, map (fun q => fst (param_spec q)) ps)
  end.
Definition prop_row (names : list (bytes * bytes)) (g : gprop) : bytes * bytes * bool * list bytes * list bytes * list bytes :=
  (gr_type names g, gr_key g, gr_value_type g, gr_values g,
   (if gr_value_type g then match gr_values g, gr_params g with [v], [] => [v] | vs, _ => map (get_name names) vs end else []), gr_params g).
Definition param_code (p : paramid) : bytes * bytes * option pkind := (param_label p, fst (param_spec p), Some (snd (param_spec p))).
Definition param_row (g : gparam) : bytes * bytes * option pkind := (gp_type g, gp_key g, param_template g).
(** Name of the type, word after BEGIN, whether it is written, fields, rules *)
Definition ftype_name (t : ftype) : bytes := match t with FTProp p => prop_label p | FTSec s => sec_label s | FTAlarm => bs "Alarm" end.
Definition field_code (f : field) : gfield :=
  GField (ftype_name (fd_type f)) (fd_key f) (match fd_mode f with FReq => true | _ => false end) (match fd_mode f with FMany => true | _ => false end)
    (match fd_type f with FTProp _ => false | _ => true end).
Definition rule_code (fs : list field) (r : req) : bytes * list bytes :=
  let n i := match nth_error fs i with Some f => ftype_name (fd_type f) | None => [] end in
  match r with RAnd a b => (bs "AND", [n a; n b]) | ROr a b => (bs "OR", [n a; n b]) | ROne a b => (bs "ONE", [n a; n b]) | RErgo a b => (bs "ERGO", [n a; n b]) end.
Definition sec_code (s : secid) : bytes * bytes * bool * list gfield * list (bytes * list bytes) :=
  let sp := sec_spec s in (sec_label s, sp_name sp, sp_own sp, map field_code (sp_fields sp), map (rule_code (sp_fields sp)) (sp_reqs sp)).
Definition gsec_row (names : list (bytes * bytes)) (g : gsec) : bytes * bytes * bool * list gfield * list (bytes * list bytes) :=
  (get_name names (gs_word g), gs_end g, gs_own g, gs_fields g, gs_rules g).
