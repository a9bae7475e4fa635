(** Decode and the bytes of its reader, and a concrete case. *)
From Coq Require Import String Ascii ZArith List Arith Bool Lia.
From Verif Require Import Base Lib SpecLines Unfolder UnfolderProofs Tokeniser GoTime PropTable SecTable Sections Codec OnDemand SpecRules SpecTree SpecDemand DecodeProofs SpecSource SourceProofs Sample SampleTree SampleReaders SampleDemand.
Import ListNotations.

Section R.
Context {env : Env}.
Theorem source_read sizes r d : read_so_far sizes r d -> part d (concat (r_chunks r)).
Proof. intros H. exact (gives_part sizes 0 [] r d H). Qed.
Theorem source_decode fuel sizes chunks w cal : Decode fuel sizes chunks w = Ok cal -> exists d, part d (concat chunks) /\ decode_bytes d = Ok cal.
Proof.
  intros H. unfold Decode in H. apply bind_ok in H as ([d e] & D & H). pose proof (drain_part _ _ _ _ _ _ _ _ D) as (d' & Q & P). cbn [app] in Q. subst d'. exists d. split; [exact P|exact H].
Qed.
Theorem source_result fuel sizes r cal : result fuel sizes r = Ok cal -> exists d, part d (concat (r_chunks r)) /\ spells d cal.
Proof. intros H. apply demand_past in H as (d & G & S). exists d. split; [apply (source_read sizes r d G)|exact S]. Qed.
Theorem split_before_end a x y t sizes : (forall i, 2 <= sizes i) -> length a + 2 = sizes 0 -> ~ has_fold (a ++ CRLF) -> ~ has_fold (a ++ [SP; CR] ++ t) ->
  [x; y] <> [LF; SP] -> t <> [] -> exists n, forall fuel, n <= fuel -> Decode fuel sizes [a ++ fold3 ++ CR :: x :: y :: t] false = decode_bytes (a ++ [SP; CR] ++ t).
Proof.
  intros P L N1 N2 XY T. assert (G : forall s, ~ has_fold s -> find_fold s = None) by (intros s N; destruct (find_fold s) eqn:Q; [destruct N; apply has_fold_find; congruence|reflexivity]).
  destruct (drain_split_cr sizes a x y t P L (G _ N1) (G _ N2) XY T) as (n & H). exists n. intros fuel F. apply (Decode_drained _ _ _ _ _ REOF), H, F.
Qed.

(** ** A line with a fold at its end *)
Definition before_end : bytes := lines ["BEGIN:VCALENDAR"]%string ++ bs "VERSION:2.0".
Definition after_end : bytes := bs "RODID:x" ++ CRLF ++ lines ["END:VCALENDAR"]%string.
Definition first_buffer (i : nat) : nat := match i with 0 => 30 | _ => 100 end.
Theorem end_case : (forall i, 2 <= first_buffer i) /\ length before_end + 2 = first_buffer 0 /\ ~ has_fold (before_end ++ CRLF) /\ ~ has_fold (before_end ++ [SP; CR] ++ after_end) /\
  [LF; "P"%char] <> [LF; SP] /\ after_end <> [] /\
  decode_bytes (unfold (before_end ++ fold3 ++ CR :: LF :: "P"%char :: after_end)) = Ok (cut_cal "2.0") /\
  (forall cal, decode_bytes (before_end ++ [SP; CR] ++ after_end) <> Ok cal) /\
  (exists n, forall fuel, n <= fuel -> Decode fuel (fun _ => 100) [before_end ++ fold3 ++ CR :: LF :: "P"%char :: after_end] false = Ok (cut_cal "2.0")).
Proof.
  split; [intros [|i]; cbn; lia|]. split; [reflexivity|]. do 2 (split; [apply no_fold_by; vm_compute; reflexivity|]). split; [discriminate|]. split; [discriminate|].
  split; [vm_compute; reflexivity|]. split; [apply not_ok; vm_compute; reflexivity|].
  exists 20. intros fuel F. do 20 (destruct fuel as [|fuel]; [lia|]). vm_compute. reflexivity.
Qed.
End R.
