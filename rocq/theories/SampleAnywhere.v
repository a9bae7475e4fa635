(** A calendar folded within a name, within a value, within a letter and twice at one place. *)
From Coq Require Import String Ascii ZArith Bool List Lia.
From Verif Require Import Base Lib SpecLines Unfolder UnfolderProofs Tokeniser GoTime Types Params PropTable Props SecTable Sections Codec SpecAnywhere AnywhereProofs Sample.
Import ListNotations.

Section S.
Context {env : Env}.
(** PRODID is one letter of two octets. *)
Definition some_pieces : list bytes := [lines ["BEGIN:VCALENDAR"]%string ++ bs "VER"; bs "SION:2"; []; lines [".0"]%string ++ bs "PRODID:" ++ [chr 195]; [chr 164] ++ CRLF ++ bs "END:VC"; bs "ALENDAR" ++ CRLF].
Lemma not_bad s a b c : skipn (length s - 3) s = [a; b; c] -> (a, b, c) <> (CR, LF, SP) -> (a, b, c) <> (LF, SP, CR) -> (a, b, c) <> (SP, CR, LF) -> ~ bad_tail s.
Proof.
  intros Q N1 N2 N3 (o & t & -> & R). assert (L : length t = 3) by (destruct R as [->|[->| ->]]; reflexivity). rewrite app_length, L in Q. replace (length o + 3 - 3) with (length o + 0) in Q by lia. rewrite skipn_app, Nat.add_0_r, skipn_all, Nat.sub_diag in Q. cbn [app skipn] in Q. subst t. destruct R as [R|[R|R]]; injection R as -> -> ->; contradiction.
Qed.
Lemma anywhere_case : ~ has_fold (concat some_pieces) /\ ~ bad_tail (folded some_pieces) /\ length (folded some_pieces) <= 4096 /\ exists cal, decode_bytes (concat some_pieces) = Ok cal.
Proof.
  split; [|split; [|split]].
  - intros H. apply has_fold_find in H. apply H. vm_compute. reflexivity.
  - apply (not_bad _ "R"%char CR LF); [vm_compute; reflexivity|discriminate|discriminate|discriminate].
  - apply Nat.leb_le. vm_compute. reflexivity.
  - eexists. vm_compute. reflexivity.
Qed.
End S.
