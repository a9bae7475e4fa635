(** How much a calendar holds. *)
From Coq Require Import String Ascii ZArith Bool List.
From Verif Require Import Base GoTime Types Params ParamTable PropTable Props SecTable Sections.
Import ListNotations.

Section Held.
Context {env : Env}.

Definition total (l : list nat) : nat := fold_right Nat.add 0 l.

(** The bytes of texts and binary data; the members of lists, each with its bytes; 1 for a value of a fixed size. The
    text of an address is not counted: it belongs to net/url. *)
Definition value_held (v : value) : nat :=
  match v with
  | VBinary b => length b
  | VText t => length t
  | VMText l => total (map (fun t => 1 + length t) l)
  | VRecur r => 1 + length (r_bysecond r) + length (r_byminute r) + length (r_byhour r) + length (r_byday r) +
      length (r_bymonthday r) + length (r_byyearday r) + length (r_byweekno r) + length (r_bymonth r) + length (r_bysetpos r)
  | _ => 1
  end.
Definition param_held (v : pval) : nat :=
  match v with
  | PVText t => 1 + length t
  | PVTexts l => 1 + total (map (fun t => 1 + length t) l)
  | PVAddrs l => 1 + length l
  | _ => 1
  end.
Definition opt_held {A} (f : A -> nat) (o : option A) : nat := match o with Some a => f a | None => 0 end.
(** A property, besides the 1 for itself: its parameters and its value. *)
Definition prop_held (p : prop) : nat :=
  match p with
  | PStruct ps vs => total (map (opt_held param_held) ps) + total (map (opt_held value_held) vs)
  | PEnum _ => 1
  | PNew v => value_held v
  end.
(** A component: 1 for itself, and all that is in it. *)
Fixpoint held (s : sec) : nat :=
  match s with Sec _ fs => 1 + total (map (fun vs => total (map fval_held vs)) fs) end
with fval_held (v : fval) : nat :=
  match v with
  | FVProp _ p => 1 + prop_held p
  | FVSec s => held s
  | FVAlarm (Some s) => held s
  | FVAlarm None => 0
  end.
End Held.

(** A text without a caret, in which every backslash has a printable ASCII character after it. *)
Definition tame (s : bytes) : Prop :=
  ~ In "^"%char s /\ forall a b, s = a ++ "\"%char :: b -> exists c b', b = c :: b' /\ (32 <= code c < 128)%Z.
