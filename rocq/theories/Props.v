(** Model of properties.go: the three property templates (genProperties.sh). The table of instances,
    with line numbers, is PropTable.v; the lines cited here are those of one instance. *)
From Coq Require Import String Ascii ZArith Bool List.
From Verif Require Import Base Utf8 GoStrings Strtok Tokeniser GoTime Types Params ParamTable PropTable.
Import ListNotations.
Local Open Scope Z_scope.

Section Props.
Context {env : Env}.

(** A property value. In a struct property the parameters stand in the order of the Go struct
    ([None] is nil), then the alternative values ([None] is nil; a single value is never nil). *)
Inductive prop :=
| PStruct (ps : list (option pval)) (vs : list (option value))
| PEnum (n : Z)
| PNew (v : value).

(** ** Decoding *)

(** The values up to the next parameter name (properties.go:222-228). *)
Fixpoint take_values (ts : list token) : list token * list token :=
  match ts with
  | [] => ([], [])
  | t :: ts' =>
    if ttype_eqb (t_type t) tokenParamName then ([], ts)
    else let '(a, b) := take_values ts' in (t :: a, b)
  end.

(** properties.go:219-228: the parameters with their values; names are upper-cased. *)
Fixpoint groups_fuel (fuel : nat) (ts : list token) : list (bytes * list token) :=
  match fuel with
  | O => []
  | S f =>
    match ts with
    | [] => []
    | t :: ts' =>
      let '(vs, rest) := take_values ts' in (upper (t_data t), vs) :: groups_fuel f rest
    end
  end.
Definition groups (ts : list token) : list (bytes * list token) := groups_fuel (length ts) ts.

(** properties.go:123-129: [strings.Join] of the values *)
Definition join_values (vs : list token) : bytes := join (bs ",") (map t_data vs).

Definition keyword (p : paramid) : bytes := fst (param_spec p).
Definition pkind_of (p : paramid) : pkind := snd (param_spec p).

(** Position of the parameter named [n] in the struct. *)
Definition param_index (n : bytes) (ps : list paramid) : option nat := index_of n (map keyword ps).

Fixpoint set_nth {A} (n : nat) (a : A) (l : list A) : list A :=
  match l, n with
  | [], _ => []
  | _ :: l', O => a :: l'
  | x :: l', S n' => x :: set_nth n' a l'
  end.

(** Decoder state: the parameters read so far, [vType] ([None] is -1) and [oParams]. *)
Record pstate := PState { ps_params : list (option pval); ps_vtype : option nat; ps_other : pmap }.

(** properties.go:96-129: one parameter of a struct property *)
Definition struct_param (ps : list paramid) (vs : list (bytes * vkind)) (st : pstate)
    (g : bytes * list token) : res pstate :=
  let '(n, tv) := g in
  match param_index n ps with
  | Some i =>
    match nth i (ps_params st) None with
    | Some _ => Err ErrDuplicateParam
    | None =>
      let! v := param_decode (pkind_of (nth i ps PmAgentID)) tv in
      Ok (PState (set_nth i (Some v) (ps_params st)) (ps_vtype st) (ps_other st))
    end
  | None =>
    if Nat.ltb 1 (length vs) && beq n (bs "VALUE") then
      match tv with
      | [t] =>
        match ps_vtype st with
        | Some _ => Err ErrDuplicateParam
        | None =>
          match index_of (upper (t_data t)) (map fst vs) with
          | Some i => Ok (PState (ps_params st) (Some i) (ps_other st))
          | None => Err ErrInvalidValue
          end
        end
      | _ => Err ErrInvalidValue
      end
    else Ok (PState (ps_params st) (ps_vtype st) ((n, join_values tv) :: ps_other st))
  end.

Fixpoint struct_params (ps : list paramid) (vs : list (bytes * vkind)) (st : pstate)
    (gs : list (bytes * list token)) : res pstate :=
  match gs with
  | [] => Ok st
  | g :: gs' => let! st' := struct_param ps vs st g in struct_params ps vs st' gs'
  end.

(** properties.go:77-152 (struct), 29-42 (enumeration), 761-793 (renamed value type) *)
Definition prop_decode (pid : propid) (params : list token) (data : bytes) : res prop :=
  match snd (prop_spec pid) with
  | MStruct ps vs =>
    let! st := struct_params ps vs (PState (map (fun _ => None) ps) None []) (groups params) in
    let i := match ps_vtype st with Some i => i | None => O end in
    let! v := value_decode (snd (nth i vs ([], KText))) (ps_other st) data in
    Ok (PStruct (ps_params st) (set_nth i (Some v) (map (fun _ => None) vs)))
  | MEnum ws =>
    match index_of (upper data) ws with
    | Some n => Ok (PEnum (Z.of_nat n))
    | None => Err ErrInvalidValue
    end
  | MNew k =>
    let m := fold_left (fun m g => (fst g, join_values (snd g)) :: m) (groups params) [] in
    let! v := value_decode k m data in Ok (PNew v)
  end.

(** ** Encoding *)

Fixpoint params_encode (ps : list paramid) (l : list (option pval)) : list wev :=
  match ps, l with
  | p :: ps', Some v :: l' => param_encode (keyword p) (pkind_of p) v ++ params_encode ps' l'
  | _ :: ps', None :: l' => params_encode ps' l'
  | _, _ => []
  end.

(** [first] is true for the default value type, which writes no VALUE parameter. *)
Fixpoint values_encode (first : bool) (vs : list (bytes * vkind)) (l : list (option value)) : list wev :=
  match vs, l with
  | (w, _) :: vs', o :: l' =>
    match o with
    | Some v => (if first then [] else [Wr (bs ";VALUE=" ++ w)]) ++ wrs (value_aencode v)
    | None => []
    end ++ values_encode false vs' l'
  | _, _ => []
  end.

(** properties.go:154-171, 44-57, 795-802 *)
Definition prop_encode (pid : propid) (p : prop) : list wev :=
  let '(key, k) := prop_spec pid in
  match k, p with
  | MStruct ps vs, PStruct l vl =>
    Wr key :: params_encode ps l ++ values_encode true vs vl ++ [Wr CRLF]
  | MEnum ws, PEnum n =>
    [Wr (key ++ bs ":")] ++
    (if in_range 0 (Z.of_nat (length ws) - 1) n then [Wr (nth (Z.to_nat n) ws [])] else []) ++ [Wr CRLF]
  | MNew _, PNew v => Wr key :: wrs (value_aencode v) ++ [Wr CRLF]
  | _, _ => []     (* not a value of the type *)
  end.

(** ** Validation *)

Fixpoint params_valid (ps : list paramid) (l : list (option pval)) : option gerr :=
  match ps, l with
  | p :: ps', Some v :: l' =>
    match param_valid (pkind_of p) v with Some e => Some e | None => params_valid ps' l' end
  | _ :: ps', None :: l' => params_valid ps' l'
  | _, _ => None
  end.

Fixpoint values_valid (l : list (option value)) : option gerr :=
  match l with
  | [] => None
  | Some v :: l' => match value_valid v with Some e => Some e | None => values_valid l' end
  | None :: l' => values_valid l'
  end.

Definition is_some {A} (o : option A) : bool := match o with Some _ => true | None => false end.

(** properties.go:173-204, 59-68, 804-811 *)
Definition prop_valid (pid : propid) (p : prop) : option gerr :=
  match snd (prop_spec pid), p with
  | MStruct ps vs, PStruct l vl =>
    match params_valid ps l with
    | Some e => Some e
    | None =>
      match values_valid vl with
      | Some e => Some e
      | None =>
        if Nat.ltb 1 (length vs) && negb (Nat.eqb (length (filter is_some vl)) 1)
        then Some ErrInvalidValue else None
      end
    end
  | MEnum ws, PEnum n =>
    if in_range 0 (Z.of_nat (length ws) - 1) n then None else Some ErrInvalidValue
  | MNew _, PNew v => value_valid v
  | _, _ => None
  end.

End Props.
