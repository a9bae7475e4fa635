(** Writers with counts. *)
From Coq Require Import String Ascii List ZArith Bool Lia.
From Verif Require Import Base GoTime Types Params Props SecTable Sections Folder Codec ShortWrites SpecShortWrites ShortWritesProofs SampleCal.
Import ListNotations.
Local Open Scope Z_scope.

Section S.
Context {env : Env}.
(** One that takes everything, and one that takes two bytes of its third call and then has no more room. *)
Definition takes_all : io_writer bytes unit := fun w q => (w ++ q, Z.of_nat (length q), None).
Definition takes_some : io_writer nat unit := fun w q => if Nat.eqb w 3 then (w, Z.min 2 (Z.of_nat (length q)), Some tt) else (Datatypes.S w, Z.of_nat (length q), None).
Lemma all_honest : honest takes_all.
Proof. intros w q w' n e Q. unfold takes_all in Q. injection Q as <- <- <-. split; [lia|intros X; lia]. Qed.
Lemma some_honest : honest takes_some.
Proof. intros w q w' n e Q. unfold takes_some in Q. destruct (Nat.eqb w 3); injection Q as <- <- <-; (split; [lia|]); [intros; discriminate|intros X; lia]. Qed.
Lemma all_case : exists w log, EncodeTo (recording takes_all) ([], []) cal_plain = EncDone None (w, log).
Proof. eexists. eexists. vm_compute. reflexivity. Qed.
Lemma some_case : exists w log, EncodeTo (recording takes_some) (0%nat, []) cal_plain = EncDone (Some tt) (w, log).
Proof. eexists. eexists. vm_compute. reflexivity. Qed.
Lemma plain_written : exists out, @Encode env _ Empty_set ok_writer [] cal_plain = EncDone None out.
Proof. eexists. vm_compute. reflexivity. Qed.
End S.
