(** Specification of physical lines (RFC 5545 section 3.1). *)
From Coq Require Import List Bool.
From Verif Require Import Base.
Import ListNotations.

(** The physical lines of an output: what stands between CR LF pairs. *)
Fixpoint phys_lines (s : bytes) : list bytes :=
  match s with
  | [] => [[]]
  | a :: s' =>
    match s' with
    | b :: s'' =>
      if beqc a CR && beqc b LF then [] :: phys_lines s''
      else match phys_lines s' with [] => [[a]] | l :: ls => (a :: l) :: ls end
    | [] => [[a]]
    end
  end.

(** CR and LF occur only as CR LF pairs. *)
Definition no_bare (s : bytes) : Prop := Forall (fun l => ~ In CR l /\ ~ In LF l) (phys_lines s).

(** A fold (CR LF SP) somewhere. *)
Definition fold3 : bytes := [CR; LF; SP].
Definition has_fold (s : bytes) : Prop := exists a b, s = a ++ fold3 ++ b.

(** The last three bytes are CR, LF and SP in this cyclic order, from any of the three on. *)
Definition rot (s : bytes) : Prop := s = [CR; LF; SP] \/ s = [LF; SP; CR] \/ s = [SP; CR; LF].
Definition bad_tail (s : bytes) : Prop := exists o t, s = o ++ t /\ rot t.
