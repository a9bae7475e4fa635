(** Model of the scripts that write params.go, properties.go and sections.go: names.sh, genParams.sh,
    genProperties.sh and genSections.sh. What a script gets from a description is modelled: the rows of
    the tables from which it fills in its templates. The templates are those modelled in Params.v,
    Props.v and Sections.v; the layout of the Go code and its comments are not modelled.

    Simplifications: descriptions have no backslash (which [read] would remove, and which keeps a blank after it), no spaces,
    no empty lines and no characters that the shell expands in words. *)
From Coq Require Import String Ascii ZArith Bool List.
From Verif Require Import Base Utf8 GoStrings Types Params.
Import ListNotations.

(** ** The shell *)

Definition TABc : byte := chr 9.

(** [while read line]: the lines of a file. What follows the last line end is not handled. *)
Fixpoint lines_acc (acc s : bytes) : list bytes :=
  match s with
  | [] => []
  | c :: s' => if beqc c LF then rev acc :: lines_acc [] s' else lines_acc (c :: acc) s'
  end.
Definition file_lines (s : bytes) : list bytes := lines_acc [] s.

(** [read] removes the blanks that are in IFS from both ends of a line. *)
Fixpoint drop_in (ifs s : bytes) : bytes :=
  match s with c :: s' => if inset c ifs then drop_in ifs s' else s | [] => [] end.
Definition read_line (ifs s : bytes) : bytes := rev (drop_in ifs (rev (drop_in ifs s))).
Definition default_ifs : bytes := [SP; TABc; LF].

(** [cut -d SEP -f 1], and [-f 2]; a line without SEP is given as it is. *)
Definition field1 (sep : byte) (s : bytes) : bytes := match cut sep s with Some (a, _) => a | None => s end.
Definition field2 (sep : byte) (s : bytes) : bytes :=
  match cut sep s with Some (_, b) => field1 sep b | None => s end.

(** ["${x:0:1}" = c], and ["${x:1}"] *)
Definition starts (c : byte) (s : bytes) : bool := match s with a :: _ => beqc a c | [] => false end.
(** ["${x%#*}"]: without the last number sign and what follows, and ["${x##*#}"]: what follows it. *)
Definition before_last (c : byte) (s : bytes) : bytes :=
  match cut c (rev s) with Some (_, b) => rev b | None => s end.
Definition after_last (c : byte) (s : bytes) : bytes :=
  match cut c (rev s) with Some (a, _) => rev a | None => s end.

(** Words of an unquoted expansion: none is empty. *)
Definition words (sep : byte) (s : bytes) : list bytes := filter (fun w => negb (beq w [])) (split sep s).
(** [tr A-Z a-z] *)
Definition low_ascii (c : byte) : byte := if in_range 65 90 (code c) then chr (code c + 32)%Z else c.

(** names.sh:3-7: the last line for a word counts. *)
Definition read_names (s : bytes) : list (bytes * bytes) :=
  map (fun l => let l := read_line default_ifs l in (field1 "=" l, field2 "=" l)) (file_lines s).
Definition find_name (names : list (bytes * bytes)) (w : bytes) : bytes :=
  fold_left (fun r p => if beq (fst p) w then snd p else r) names [].
(** names.sh:9-23 [getName] *)
Definition get_name (names : list (bytes * bytes)) (w : bytes) : bytes :=
  match find_name names w with
  | [] => concat (map (fun p => match p with a :: r => a :: map low_ascii r | [] => [] end) (words "-" w))
  | n => n
  end.

(** ** genParams.sh *)

(** What genParams.sh:24-117 finds in a line: [gp_type] is the name of the Go type after Param. *)
Record gparam := GParam { gp_key : bytes; gp_type : bytes; gp_multiple : bool; gp_free : bool; gp_quoted : bool;
  gp_string : bool; gp_regex : bytes; gp_vtype : bytes; gp_choices : list bytes }.

Definition gen_param (names : list (bytes * bytes)) (line : bytes) : gparam :=
  let key := field1 "=" line in
  let v := field2 "=" line in
  let '(multiple, v) := if starts "*" v then (true, tl v) else (false, v) in
  let '(free, v) := if starts "?" v then (true, tl v) else (false, v) in
  let '(quoted, string, regex, v) :=
    if starts """" v then (true, true, [], tl v)
    else if starts "'" v then (false, true, [], tl v)
    else if starts "~" v then (false, true, tl v, tl v)
    else (false, false, [], v) in
  let '(vtype, choices) :=
    if starts "!" v then (tl v, []) else if string then ([], []) else ([], words "|" v) in
  GParam key (get_name names key) multiple free quoted string regex vtype choices.
Definition gen_params (names : list (bytes * bytes)) (s : bytes) : list gparam :=
  map (fun l => gen_param names (read_line default_ifs l)) (file_lines s).

(** genParams.sh:123-327: the methods that are written, as modelled in Params.v; [None] where they are none of those. *)
Definition param_template (g : gparam) : option pkind :=
  match gp_vtype g, gp_choices g, gp_regex g with
  | [], [w], _ => if gp_multiple g || gp_quoted g || gp_free g then None else Some (PKUnit w)
  | [], (_ :: _ :: _) as ws, _ => if gp_multiple g || gp_quoted g then None else Some (PKEnum (gp_free g) ws)
  | [], [], [] => if gp_multiple g then (if gp_quoted g then Some PKTexts else None) else Some (PKText (gp_quoted g))
  | [], [], _ => if gp_multiple g then None else Some PKRegex
  | t, _, _ =>
    if beq t (bs "URI") && gp_quoted g && negb (gp_multiple g) then Some PKUri
    else if beq t (bs "CalendarAddress") && gp_quoted g && gp_multiple g then Some PKAddrs
    else if beq t (bs "Boolean") && negb (gp_quoted g) && negb (gp_multiple g) then Some PKBool
    else None
  end.

(** ** genProperties.sh *)

Record gprop := GProp { gr_line : bytes; gr_value_type : bool; gr_values : list bytes; gr_params : list bytes }.

(** genProperties.sh:375-393: a line that begins with a tab is a parameter of the last property. *)
Definition prop_line (l : bytes) : gprop :=
  let vs := field2 ":" l in
  let '(vt, vs) := if starts "!" vs then (true, tl vs) else (false, vs) in
  GProp (field1 ":" l) vt (words "|" vs) [].
Fixpoint prop_rows (cur : option gprop) (ls : list bytes) : list gprop :=
  match ls with
  | [] => match cur with Some g => [g] | None => [] end
  | l :: ls' =>
    if starts TABc l then
      prop_rows (match cur with
                 | Some g => Some (GProp (gr_line g) (gr_value_type g) (gr_values g) (gr_params g ++ [tl l]))
                 | None => None
                 end) ls'
    else match cur with
         | Some g => g :: prop_rows (Some (prop_line l)) ls'
         | None => prop_rows (Some (prop_line l)) ls'
         end
  end.
(** The rows, with the blanks of [ifs] removed from the lines; genProperties.sh:376-377 has in IFS a
    line end and two tabs. *)
Definition gen_props_with (ifs s : bytes) : list gprop := prop_rows None (map (read_line ifs) (file_lines s)).
Definition properties_ifs : bytes := [LF; TABc; TABc].
Definition gen_props (s : bytes) : list gprop := gen_props_with properties_ifs s.
(** genProperties.sh:15-16: the name of the Go type, and the word of the property *)
Definition gr_type (names : list (bytes * bytes)) (g : gprop) : bytes := get_name names (before_last "#" (gr_line g)).
Definition gr_key (g : gprop) : bytes := after_last "#" (gr_line g).

(** ** genSections.sh *)

Record gfield := GField { gf_name : bytes; gf_key : bytes; gf_required : bool; gf_multiple : bool; gf_section : bool }.
Record gsec := GSec { gs_word : bytes; gs_fields : list gfield; gs_rules : list (bytes * list bytes) }.

(** A bash array: elements by number, in order *)
Definition arr := list (nat * bytes).
Fixpoint arr_set (a : arr) (i : nat) (v : bytes) : arr :=
  match a with
  | [] => [(i, v)]
  | (j, w) :: a' =>
    if Nat.eqb i j then (i, v) :: a' else if Nat.ltb i j then (i, v) :: (j, w) :: a' else (j, w) :: arr_set a' i v
  end.
(** ["${#requirements}"], the length of element 0 *)
Definition arr_len0 (a : arr) : nat := match a with (0, v) :: _ => length v | _ => 0 end.

(** genSections.sh:402-412 *)
Definition tr (c : byte) (s : bytes) : bytes := map (fun x => if beqc x c then SP else x) s.
Definition has_char (c : byte) (s : bytes) : bool := existsb (fun x => beqc x c) s.
Definition rule_text (f : bytes) : option bytes :=
  if has_char "!" f then Some (bs "ONE " ++ tr "!" f)
  else if has_char "+" f then Some (bs "AND " ++ tr "+" f)
  else if has_char ">" f then Some (bs "ERGO " ++ tr ">" f)
  else if has_char "|" f then Some (bs "OR " ++ tr "|" f)
  else None.
Definition add_rule (f : bytes) (reqs : arr) : arr :=
  match rule_text f with Some t => arr_set reqs (arr_len0 reqs) t | None => reqs end.

(** genSections.sh:11-18, 396-430 *)
Definition add_field (names : list (bytes * bytes)) (f : bytes) : gfield :=
  let '(required, multiple, f) :=
    if starts "!" f then (true, false, tl f)
    else if starts "+" f then (true, true, tl f)
    else if starts "*" f then (false, true, tl f)
    else (false, false, f) in
  let '(section, f) := if beq (firstn 6 f) (bs "BEGIN:") then (true, skipn 6 f) else (false, f) in
  GField (get_name names (before_last "#" f)) (after_last "#" f) required multiple section.

(** genSections.sh:233-289: the names in the rules that are written *)
Definition rule_row (names : list (bytes * bytes)) (t : bytes) : bytes * list bytes :=
  match words SP t with [] => ([], []) | k :: ws => (k, map (get_name names) ws) end.
Definition sec_row (names : list (bytes * bytes)) (word : bytes) (fs : list gfield) (reqs : arr) : gsec :=
  GSec word fs (map (fun p => rule_row names (snd p)) reqs).

(** genSections.sh:386-433 *)
Fixpoint sec_rows (names : list (bytes * bytes)) (word : bytes) (fs : list gfield) (reqs : arr) (ls : list bytes) : list gsec :=
  match ls with
  | [] => [sec_row names word fs reqs]
  | l :: ls' =>
    if starts TABc l then
      let f := tl l in
      if starts "?" f then sec_rows names word fs (add_rule (tl f) reqs) ls'
      else sec_rows names word (fs ++ [add_field names f]) reqs ls'
    else sec_row names word fs reqs :: sec_rows names l [] [] ls'
  end.
Definition gen_sections (names : list (bytes * bytes)) (s : bytes) : list gsec :=
  match file_lines s with
  | [] => sec_rows names [] [] [] []
  | l :: ls => sec_rows names (read_line default_ifs l) [] [] ls
  end.
(** genSections.sh:192-196, 298-300, 327-329: the word after BEGIN and END, and whether these lines are written *)
Definition gs_end (g : gsec) : bytes := if beq (firstn 6 (gs_word g)) (bs "VALARM") then bs "VALARM" else gs_word g.
Definition gs_own (g : gsec) : bool := negb (beq (firstn 6 (gs_word g)) (bs "VALARM")).
