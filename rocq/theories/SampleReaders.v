(** Decode on readers that give their data in small pieces, and concrete cases. *)
From Coq Require Import String Ascii ZArith List Arith Bool Lia.
From Verif Require Import Base Lib SpecLines Unfolder UnfolderProofs Tokeniser SpecContent GoTime PropTable SecTable Sections Codec DecodeProofs PrefixProofs StartProofs SpecReaders ReadersProofs Sample SampleTree.
Import ListNotations.

Section R.
Context {env : Env}.
Theorem decode_byte_by_byte s sizes : (forall i, 2 <= sizes i) -> ~ double_cr s ->
  exists n, forall fuel, n <= fuel -> Decode fuel sizes (byte_by_byte s) false = decode_bytes s.
Proof.
  intros P D. exists (length s + 4). intros fuel F. apply (Decode_drained _ _ _ _ _ REOF). apply (drain_bytes sizes P s fuel 0 [] []); auto.
Qed.
Theorem folds_byte_by_byte a b sizes : (forall i, 2 <= sizes i) -> ~ double_cr (a ++ fold3 ++ b) -> (forall cal, decode_bytes a <> Ok cal) ->
  exists n, forall fuel, n <= fuel -> forall cal, Decode fuel sizes (byte_by_byte (a ++ fold3 ++ b)) false <> Ok cal.
Proof.
  intros P D N. destruct (decode_byte_by_byte _ sizes P D) as (n & H). exists n. intros fuel F cal Q. rewrite H in Q by exact F.
  apply (N cal). exact (decode_bad_start a SP b cal eq_refl Q).
Qed.
Theorem decode_line_by_line ls sizes : ls <> [] -> Forall line_like ls -> (forall i l, In l ls -> length l + 2 <= sizes i) ->
  exists n, forall fuel, n <= fuel -> Decode fuel sizes (line_by_line ls) false = decode_bytes (joined ls).
Proof.
  intros NE W P. destruct ls as [|l ls]; [contradiction|]. exists (length ls + 8). intros fuel F. apply (Decode_drained _ _ _ _ _ REOF). inversion W as [|? ? (_ & C & _) W']; subst.
  apply (drain_lines sizes ls W' (fun i k I => P i k (or_intror I)) fuel 0 [] l []); auto. intros i. exact (P i l (or_introl eq_refl)).
Qed.
Theorem decode_split a b sizes : (forall i, 2 <= sizes i) -> length a + 2 = sizes 0 -> ~ has_fold (a ++ CRLF) -> ~ has_fold (a ++ SP :: b) ->
  2 <= length b -> hd CR b <> CR -> exists n, forall fuel, n <= fuel -> Decode fuel sizes [a ++ fold3 ++ b] false = decode_bytes (a ++ SP :: b).
Proof.
  intros P L N1 N2 LB HB. assert (G : forall s, ~ has_fold s -> find_fold s = None) by (intros s N; destruct (find_fold s) eqn:Q; [destruct N; apply has_fold_find; congruence|reflexivity]).
  destruct (drain_split sizes a b P L (G _ N1) (G _ N2) LB HB) as (n & H). exists n. intros fuel F. apply (Decode_drained _ _ _ _ _ REOF), H, F.
Qed.
Theorem decode_first_hangs c cs w sizes : has_fold (firstn (sizes 0) c) -> bad_tail (firstn (sizes 0) c) -> forall fuel, Decode fuel sizes (c :: cs) w = NoFuel.
Proof. intros F B fuel. unfold Decode. rewrite drain_first_hangs by assumption. reflexivity. Qed.
Theorem decode_lost s x sizes : ~ has_fold s -> 1 <= length s <= sizes 0 -> (exists a, s = a ++ [CR]) \/ (exists a, s = a ++ CRLF /\ x <> SP) ->
  exists n, forall fuel, n <= fuel -> Decode fuel sizes [s; [x]] true = decode_bytes s.
Proof.
  intros N L E. exists 4. intros fuel F. apply (Decode_drained _ _ _ _ _ REOF), drain_lost; auto. destruct (find_fold s) eqn:Q; [destruct N; apply has_fold_find; congruence|reflexivity].
Qed.
Theorem decode_tab chunks sizes a b : (forall i, 2 <= sizes i) -> ~ has_fold (concat chunks) -> concat chunks = a ++ CRLF ++ TAB :: b -> (forall cal, decode_bytes a <> Ok cal) ->
  exists n, forall fuel, n <= fuel -> forall cal, Decode fuel sizes chunks false <> Ok cal.
Proof.
  intros P N Q D. destruct (decode_fold_free chunks sizes P N) as (n & H). exists n. intros fuel F cal R. rewrite H in R by exact F. rewrite Q in R. exact (D cal (decode_bad_start a TAB b cal eq_refl R)).
Qed.
Theorem decode_line_start a c b cal : name_char c = false -> (decode_bytes (a ++ CRLF ++ c :: b) = Ok cal <-> decode_bytes a = Ok cal).
Proof. intros N. split; [apply decode_bad_start, N|apply decode_more]. Qed.

(** ** Cases *)
Definition short_lines : list bytes := map bs ["BEGIN:VCALENDAR"; "VERSION:2"; " .0"; "PRODID:x"; "END:VCALENDAR"]%string.
Definition before_fold : bytes := lines ["BEGIN:VCALENDAR"]%string ++ bs "VERSION:2".
Definition after_fold : bytes := lines [".0"; "PRODID:x"; "END:VCALENDAR"]%string.
Lemma short_text : before_fold ++ fold3 ++ after_fold = cut_text /\ concat (line_by_line short_lines) = cut_text.
Proof. split; reflexivity. Qed.
Lemma not_ok (r : res sec) : is_ok r = false -> forall cal, r <> Ok cal.
Proof. intros H cal ->. discriminate H. Qed.
Fixpoint double_crb (s : bytes) : bool := match s with a :: s' => match s' with b :: _ => beqc a CR && beqc b CR | [] => false end || double_crb s' | [] => false end.
Lemma double_cr_by s : double_crb s = false -> ~ double_cr s.
Proof.
  intros H (a & b & ->). induction a as [|x a IH]; [discriminate H|]. apply IH. cbn [app double_crb] in H. apply orb_false_iff in H. apply H.
Qed.
Theorem bytes_case : ~ double_cr (before_fold ++ fold3 ++ after_fold) /\ (forall cal, decode_bytes before_fold <> Ok cal) /\
  decode_bytes (unfold (before_fold ++ fold3 ++ after_fold)) = Ok (cut_cal "2.0").
Proof. split; [apply double_cr_by; vm_compute; reflexivity|]. split; [apply not_ok; vm_compute; reflexivity|]. vm_compute. reflexivity. Qed.
Theorem lines_case : short_lines <> [] /\ Forall line_like short_lines /\ (forall i l, In l short_lines -> length l + 2 <= (fun _ => 100) (i : nat)) /\
  decode_bytes (joined short_lines) = Ok (cut_cal "2 .0") /\ decode_bytes (unfold (concat (line_by_line short_lines))) = Ok (cut_cal "2.0").
Proof.
  split; [discriminate|]. split.
  - repeat (constructor; [split; [discriminate|split; [|split; [|discriminate]]]; vm_compute; intros H; repeat destruct H as [H|H]; try discriminate H; contradiction|]). constructor.
  - split; [|split; vm_compute; reflexivity]. intros i l H. cbn beta. cbv in H. repeat destruct H as [<-|H]; try contradiction; vm_compute; repeat constructor.
Qed.
Definition small_first (i : nat) : nat := match i with 0 => 28 | _ => 100 end.
Theorem split_case : (forall i, 2 <= small_first i) /\ length before_fold + 2 = small_first 0 /\ ~ has_fold (before_fold ++ CRLF) /\ ~ has_fold (before_fold ++ SP :: after_fold) /\
  2 <= length after_fold /\ hd CR after_fold <> CR /\ decode_bytes (before_fold ++ SP :: after_fold) = Ok (cut_cal "2 .0") /\
  decode_bytes (unfold (before_fold ++ fold3 ++ after_fold)) = Ok (cut_cal "2.0").
Proof.
  split; [intros [|i]; cbn; lia|]. split; [reflexivity|]. do 2 (split; [apply no_fold_by; vm_compute; reflexivity|]). split; [vm_compute; repeat constructor|]. split; [discriminate|].
  split; vm_compute; reflexivity.
Qed.
(** Two folds, the second at the end of the buffer. *)
Definition two_folds : bytes := before_fold ++ fold3 ++ bs ".0" ++ fold3 ++ bs " " ++ after_fold.
Definition buffer_end (i : nat) : nat := match i with 0 => 34 | _ => 100 end.
Theorem first_case : has_fold (firstn (buffer_end 0) two_folds) /\ bad_tail (firstn (buffer_end 0) two_folds) /\ buffer_end 0 < length two_folds.
Proof.
  split; [exists before_fold, (bs ".0" ++ fold3); reflexivity|]. split; [exists (before_fold ++ fold3 ++ bs ".0"), fold3; split; [reflexivity|left; reflexivity]|vm_compute; repeat constructor].
Qed.
Definition all_but_lf : bytes := lines ["BEGIN:VCALENDAR"; "VERSION:2.0"; "PRODID:x"]%string ++ bs "END:VCALENDAR" ++ [CR].
Theorem lost_case : ~ has_fold all_but_lf /\ 1 <= length all_but_lf <= 100 /\ (exists a, all_but_lf = a ++ [CR]) /\
  decode_bytes (all_but_lf ++ [LF]) = Ok (cut_cal "2.0") /\ (forall cal, decode_bytes all_but_lf <> Ok cal).
Proof.
  split; [apply no_fold_by; vm_compute; reflexivity|]. split; [vm_compute; split; repeat constructor|].
  split; [eexists (lines ["BEGIN:VCALENDAR"; "VERSION:2.0"; "PRODID:x"]%string ++ bs "END:VCALENDAR"); reflexivity|].
  split; [vm_compute; reflexivity|apply not_ok; vm_compute; reflexivity].
Qed.
Theorem tab_case : ~ has_fold (concat [before_fold ++ CRLF ++ TAB :: after_fold]) /\ (forall cal, decode_bytes before_fold <> Ok cal) /\
  decode_bytes (before_fold ++ after_fold) = Ok (cut_cal "2.0").
Proof. split; [apply no_fold_by; vm_compute; reflexivity|]. split; [apply not_ok; vm_compute; reflexivity|vm_compute; reflexivity]. Qed.
(** 0xEF, the first byte of a byte order mark in UTF-8 *)
Definition byte_order_mark : byte := chr 239.
Theorem start_case : name_char CR = false /\ name_char SP = false /\ name_char byte_order_mark = false /\
  decode_bytes (before_fold ++ after_fold) = Ok (cut_cal "2.0") /\
  decode_bytes ((before_fold ++ after_fold) ++ CRLF ++ bs " and more") = Ok (cut_cal "2.0") /\
  (forall x, bs "BEGIN:VCALENDAR" <> x ++ [CR]) /\ (forall cal, decode_bytes (bs "BEGIN:VCALENDAR") <> Ok cal).
Proof.
  pose proof (proj2 (proj2 tab_case)) as H.
  split; [ reflexivity | ]. split; [ reflexivity | ]. split; [ reflexivity | ]. split; [ exact H | ].
  split; [ apply decode_line_start; [ reflexivity | exact H ] | ].
  split; [ intros x Q; apply (f_equal (fun l => last l CR)) in Q; rewrite last_last in Q; discriminate Q | ].
  intros cal Q. vm_compute in Q. discriminate Q.
Qed.

End R.
