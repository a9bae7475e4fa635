(** Properties C01-C06: what Encode hands to its writer. *)
From Coq Require Import String List ZArith Bool.
From Verif Require Import Base Utf8 GoTime Types Params Props Sections Folder Unfolder Codec SpecLines FolderProofs EncodeProofs SpecProps SpecOut SpecFolded FoldedProofs SecTable Sample SampleWritten SampleCalls.
Import ListNotations.
Local Open Scope Z_scope.

(** C01: no line between CR LF pairs is longer than 75 octets. *)
Theorem C01_lines_at_most_75 {env : Env} cal e out :
  Encode ok_writer [] cal = EncDone e out -> no_bare (content cal) ->
  Forall (fun l => Z.of_nat (length l) <= 75) (phys_lines (concat out)).
Proof. exact (encode_lines cal e out). Qed.
Print Assumptions C01_lines_at_most_75.

(** C02: removing CR LF SP from the output gives the content lines, with any CR LF SP that they
    have of themselves removed. *)
Theorem C02_folding_is_reversible {env : Env} cal e out :
  Encode ok_writer [] cal = EncDone e out -> unfold (concat out) = unfold (content cal).
Proof. exact (encode_unfold cal e out). Qed.
Print Assumptions C02_folding_is_reversible.

(** C02: the output is the content lines with folds put between their bytes, and nothing else is added, left out or moved ... *)
Theorem C02_only_folds_are_added {env : Env} cal e out :
  Encode ok_writer [] cal = EncDone e out -> folds_added (content cal) (concat out).
Proof. exact (encode_added cal e out). Qed.
Print Assumptions C02_only_folds_are_added.
(** ... so the content lines come back as they are if they have no fold of themselves, ... *)
Theorem C02_content_comes_back {env : Env} cal e out :
  Encode ok_writer [] cal = EncDone e out -> ~ has_fold (content cal) -> unfold (concat out) = content cal.
Proof. exact (encode_exact cal e out). Qed.
Print Assumptions C02_content_comes_back.
(** ... as they have none if no address, name of a zone or media type has a control character. *)
Theorem C02_clean_calendars_come_back {env : Env} cal e out :
  sec_id cal = SCalendar -> cal_typed cal -> cal_clean cal -> Encode ok_writer [] cal = EncDone e out ->
  ~ has_fold (content cal) /\ unfold (concat out) = content cal.
Proof. exact (clean_content cal e out). Qed.
Print Assumptions C02_clean_calendars_come_back.

(** C03: when every piece that the encoders write is UTF-8, so is every line of the output. *)
Theorem C03_no_character_is_split {env : Env} cal e out :
  Encode ok_writer [] cal = EncDone e out -> Forall utf8 (pieces (sec_encode cal)) ->
  Forall utf8 (phys_lines (concat out)).
Proof. exact (encode_utf8 cal e out). Qed.
Print Assumptions C03_no_character_is_split.

(** C04: the cuts between writes leave no trace in the output. *)
Theorem C04_write_boundaries_do_not_matter qs1 qs2 :
  Forall utf8 qs1 -> Forall utf8 qs2 -> concat qs1 = concat qs2 ->
  concat (snd (folder_writes ok_writer (new_folder, []) qs1)) =
  concat (snd (folder_writes ok_writer (new_folder, []) qs2)).
Proof. exact (encode_cuts qs1 qs2). Qed.
Print Assumptions C04_write_boundaries_do_not_matter.

(** C04: so calendars with the same content lines are written the same. *)
Theorem C04_same_content_same_output {env : Env} c1 c2 e1 e2 o1 o2 :
  Encode ok_writer [] c1 = EncDone e1 o1 -> Encode ok_writer [] c2 = EncDone e2 o2 ->
  Forall utf8 (pieces (sec_encode c1)) -> Forall utf8 (pieces (sec_encode c2)) -> content c1 = content c2 -> concat o1 = concat o2.
Proof. exact (same_content c1 c2 e1 e2 o1 o2). Qed.
Print Assumptions C04_same_content_same_output.

(** C05, C06: any writer, failing at any call, against the writer that never fails. [log] is the
    calls the writer got, with the error that it returned for each. *)
Theorem C05_writer_failures {env : Env} {W E} (wr : W -> bytes -> W * option E) w cal :
  match Encode (logging wr) (w, []) cal with
  | EncInvalid e (w', log) => Encode ok_writer [] cal = EncInvalid e [] /\ w' = w /\ log = []
  | EncHang (_, log) => exists full, Encode ok_writer [] cal = EncHang full /\
      exists rest, full = map fst log ++ rest
  | EncDone e (_, log) => exists full, Encode ok_writer [] cal = EncDone None full /\
      match e with
      | None => map fst log = full /\ Forall (fun c => snd c = None) log
      | Some err => exists init q rest, log = init ++ [(q, Some err)] /\
          Forall (fun c => snd c = None) init /\ full = map fst log ++ rest
      end
  end.
Proof. exact (encode_failing wr w cal). Qed.
Print Assumptions C05_writer_failures.

(** C06: a calendar that is refused has caused no call of the writer. *)
Theorem C06_rejected_calendars_write_nothing {env : Env} {W E} (wr : W -> bytes -> W * option E) w cal e w' log :
  Encode (logging wr) (w, []) cal = EncInvalid e (w', log) -> w' = w /\ log = [].
Proof. exact (encode_invalid wr w cal e w' log). Qed.
Print Assumptions C06_rejected_calendars_write_nothing.

(** The hypotheses of C01-C03 hold of a calendar with folds, and C05 of a writer that fails. *)
Example C01_applies : exists e out, @Encode env0 _ _ ok_writer [] cal1 = EncDone e out /\
  concat out <> content cal1 /\ forallb (fun l => forallb (fun c => negb (beqc c CR || beqc c LF)) l)
     (phys_lines (content cal1)) = true.
Proof. eexists. eexists. split; [vm_compute; reflexivity|]. split; [vm_compute; discriminate|vm_compute; reflexivity]. Qed.

Example C02_applies : sec_id cal1 = SCalendar /\ @cal_typed env0 cal1 /\ @cal_clean env0 cal1.
Proof. exact (conj eq_refl (conj (proj1 calls_case) (proj1 (proj2 calls_case)))). Qed.

(** Every piece the encoders write for it is UTF-8. *)
Example C03_applies : forallb (fun p => beq (concat (map encode_rune (runes p))) p)
  (pieces (sec_encode cal1)) = true.
Proof. vm_compute. reflexivity. Qed.

(** A writer that fails from its third call on. *)
Definition fails_at_3 (n : nat) (q : bytes) : nat * option nat :=
  (S n, if Nat.leb 2 n then Some n else None).
Example C05_applies : exists w log, Encode (logging fails_at_3) (0%nat, []) cal1 = EncDone (Some 2%nat) (w, log) /\
  length log = 3%nat.
Proof. eexists. eexists. split; [vm_compute; reflexivity|vm_compute; reflexivity]. Qed.

(** A calendar whose version has a control character is refused. *)
Example C06_applies : exists e, @Encode env0 _ _ (logging fails_at_3) (0%nat, [])
  (Sec SecTable.SCalendar [[FVProp PropTable.PrVersion (PNew (VText [chr 1]))];
                           [FVProp PropTable.PrProductID (PNew (VText (bs "x")))]; []; []; []; []; []])
  = EncInvalid e (0%nat, []).
Proof. eexists. vm_compute. reflexivity. Qed.
