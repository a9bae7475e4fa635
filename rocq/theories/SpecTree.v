(** What a text means: components as trees of content lines, and the values of their fields,
    independently of the order in which the decoder does things. *)
From Coq Require Import String Ascii ZArith Bool List.
From Verif Require Import Base Tokeniser SpecContent GoTime Types Params ParamTable PropTable Props SecTable Sections.
Import ListNotations.

Section Tree.
Context {env : Env}.

Definition line_is (w : bytes) (l : cline) : Prop := upper (cl_name l) = w.
Definition is_begin : cline -> Prop := line_is (bs "BEGIN").
Definition is_end : cline -> Prop := line_is (bs "END").
Definition is_plain (l : cline) : Prop := ~ is_begin l /\ ~ is_end l.

(** The content of a component that is skipped. *)
Inductive ditem := DLine (l : cline) | DComp (b : cline) (body : list ditem) (e : cline).

(** The content of a component: a line, a component that is read, an alarm (its lines, as the alarm is
    cut out of the text before it is read), a component that is skipped. *)
Inductive item :=
| ILine (l : cline) | IComp (b : cline) (body : list item) (e : cline)
| IAlarm (b : cline) (body : list cline) (e : cline) | IOther (b : cline) (body : list ditem) (e : cline).

Fixpoint dlines (d : ditem) : list cline :=
  match d with DLine l => [l] | DComp b body e => b :: flat_map dlines body ++ [e] end.
Fixpoint ilines (i : item) : list cline :=
  match i with
  | ILine l => [l]
  | IComp b body e => b :: flat_map ilines body ++ [e]
  | IAlarm b body e => b :: body ++ [e]
  | IOther b body e => b :: flat_map dlines body ++ [e]
  end.

(** Skipped content: nested components are ended by their own name, which must be in upper case. *)
Inductive skippable : ditem -> Prop :=
| Sk_line l : is_plain l -> skippable (DLine l)
| Sk_comp b body e : is_begin b -> is_end e -> upper (cl_value e) = cl_value b -> Forall skippable body ->
    skippable (DComp b body e).

(** The item that belongs to a field. *)
Definition belongs (fd : field) (i : item) : Prop :=
  match i, fd_type fd with
  | ILine l, FTProp _ => line_is (fd_key fd) l
  | IComp b _ _, FTSec _ => upper (cl_value b) = fd_key fd
  | IAlarm b _ _, FTAlarm => upper (cl_value b) = fd_key fd
  | _, _ => False
  end.

(** Words of ACTION: sections_alarm.go:58-69. *)
Definition action_is (w : bytes) (id : secid) : Prop :=
  In (w, id) [(bs "AUDIO", SAlarmAudio); (bs "DISPLAY", SAlarmDisplay); (bs "EMAIL", SAlarmEmail);
              (bs "URI", SAlarmURI); (bs "NONE", SAlarmNone)].

(** The values of the lines with exactly this name. *)
Definition values_named (n : bytes) (ls : list cline) : list bytes :=
  map cl_value (filter (fun l => beq (cl_name l) n) ls).

(** What may stand in a component. *)
Definition item_ok (id : secid) (i : item) : Prop :=
  match i with
  | ILine l => is_plain l
  | IComp b _ e => is_begin b /\ exists fd sid, In fd (fields_of id) /\ fd_type fd = FTSec sid /\ belongs fd i
  | IAlarm b body e => is_begin b /\ exists fd, In fd (fields_of id) /\ fd_type fd = FTAlarm /\ belongs fd i
  | IOther b body e => is_begin b /\ is_end e /\ upper (cl_value e) = upper (cl_value b) /\ Forall skippable body /\
    forall fd, In fd (fields_of id) -> (forall pid, fd_type fd <> FTProp pid) -> upper (cl_value b) <> fd_key fd
  end.

(** How often a field may occur. *)
Definition count_ok (m : fmode) (n : nat) : Prop :=
  match m with FReq => n = 1 | FOpt => n <= 1 | FMany => True end.

(** The extra conditions on a component; [has i]: field [i] is present. [RAnd] is what the code
    demands of two properties that should come together: exactly one of them. *)
Definition extra_ok (has : nat -> bool) (r : req) : Prop :=
  match r with
  | RAnd a b => has a = negb (has b)
  | ROr a b => has a = true \/ has b = true
  | ROne a b => has a = false \/ has b = false
  | RErgo a b => has a = true -> has b = true
  end.
Definition present {A} (fs : list (list A)) (i : nat) : bool := match nth i fs [] with [] => false | _ => true end.

(** [means id items x]: the content [items] of a component of type [id] means [x]. Each field holds
    the meanings of the items that belong to it, in order. *)
Inductive means : secid -> list item -> sec -> Prop :=
| Means id items fs :
    Forall (item_ok id) items ->
    length fs = length (fields_of id) ->
    (forall i fd, nth_error (fields_of id) i = Some fd ->
       holds fd items (nth i fs []) /\ count_ok (fd_mode fd) (length (nth i fs []))) ->
    Forall (extra_ok (present fs)) (sp_reqs (sec_spec id)) ->
    means id items (Sec id fs)
(** [holds fd items vs]: the items that belong to [fd] mean [vs]. *)
with holds : field -> list item -> list fval -> Prop :=
| H_nil fd : holds fd [] []
| H_skip fd i items vs : ~ belongs fd i -> holds fd items vs -> holds fd (i :: items) vs
| H_take fd i items v vs : belongs fd i -> item_means (fd_type fd) i v -> holds fd items vs -> holds fd (i :: items) (v :: vs)
with item_means : ftype -> item -> fval -> Prop :=
| IM_prop pid l p : prop_decode pid (params_tokens (cl_params l)) (cl_value l) = Ok p ->
    item_means (FTProp pid) (ILine l) (FVProp pid p)
| IM_sec sid b body e x : means sid body x -> is_end e -> cl_value e = sp_name (sec_spec sid) ->
    item_means (FTSec sid) (IComp b body e) (FVSec x)
| IM_alarm b body e us w sid sub e' more x :
    (** the lines of the alarm end at the first END in upper case *)
    Forall (fun l => cl_name l <> bs "BEGIN" /\ cl_name l <> bs "END") body -> cl_name e = bs "END" ->
    (** the last of its actions, and no other, is one that is known *)
    values_named (bs "ACTION") body = us ++ [w] -> Forall (fun u => forall id, ~ action_is u id) us -> action_is w sid ->
    (** the content ends at the first END in any case; what is left of the lines is ignored *)
    body ++ [e] = flat_map ilines sub ++ [e'] ++ more -> is_end e' -> cl_value e' = sp_name (sec_spec sid) ->
    means sid sub x ->
    item_means FTAlarm (IAlarm b body e) (FVAlarm (Some x)).

(** A text that spells a calendar, and then anything. *)
Definition lines_text (ls : list cline) : bytes := concat (map (fun l => cline_render l ++ CRLF) ls).
Definition spells (s : bytes) (cal : sec) : Prop := exists b items e tail,
  is_begin b /\ upper (cl_value b) = bs "VCALENDAR" /\ means SCalendar items cal /\
  is_end e /\ cl_value e = bs "VCALENDAR" /\
  Forall (fun l => cline_wf l = true) (b :: flat_map ilines items ++ [e]) /\
  s = lines_text (b :: flat_map ilines items) ++ cline_render e ++ tail /\ (tail = [] \/ exists r, tail = CRLF ++ r).
End Tree.
