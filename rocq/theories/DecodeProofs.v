(** Decode as a whole: reading, then parsing. *)
From Coq Require Import String List Arith Bool Lia.
From Verif Require Import Base Lib SpecLines Unfolder UnfolderProofs GoTime Sections Codec Sample.
Import ListNotations.

Section Decode.
Context {env : Env}.

Lemma Decode_drained fuel sizes chunks w d e :
  drain fuel sizes 0 [] (Rdr chunks w REOF) [] = Ok (d, e) -> Decode fuel sizes chunks w = decode_bytes d.
Proof. intros H. unfold Decode. rewrite H. reflexivity. Qed.

Lemma decode_fold_free chunks sizes : (forall i, 2 <= sizes i) -> ~ has_fold (concat chunks) ->
  exists n, forall fuel, n <= fuel -> Decode fuel sizes chunks false = decode_bytes (concat chunks).
Proof.
  intros P NF. destruct (drain_fold_free chunks sizes P) as (n & H).
  - destruct (find_fold (concat chunks)) eqn:E; [|reflexivity]. destruct NF.
    destruct (find_fold_some _ _ E) as (SS & _). eexists _, _. exact SS.
  - exists n. intros fuel F. exact (Decode_drained _ _ _ _ _ _ (H fuel F)).
Qed.

Lemma decode_one_read s w sizes : (has_fold s -> ~ bad_tail s) -> (forall i, 1 <= sizes i) -> length s <= sizes 0 ->
  exists n, forall fuel, n <= fuel -> Decode fuel sizes [s] w = decode_bytes (unfold s).
Proof.
  intros B P L. exists (length s + 4). intros fuel F.
  apply (Decode_drained _ _ _ _ _ REOF). apply drain_one_read; auto.
  destruct (find_fold s) eqn:E; [right|left; exact E]. apply B.
  destruct (find_fold_some _ _ E) as (SS & _). eexists _, _. exact SS.
Qed.

Lemma decode_hangs s w sizes : has_fold s -> bad_tail s -> length s <= sizes 0 ->
  forall fuel, Decode fuel sizes [s] w = NoFuel.
Proof. intros F B L fuel. unfold Decode. rewrite drain_hangs by assumption. reflexivity. Qed.

(** The same bytes, in one read and in two. *)
Definition cut_text : bytes := lines ["BEGIN:VCALENDAR"; "VERSION:2"; " .0"; "PRODID:x"; "END:VCALENDAR"]%string.
Definition cut_at : nat := 28.
Definition cut_cal (v : string) : sec :=
  Sec SecTable.SCalendar
    [[FVProp PropTable.PrVersion (Props.PNew (Types.VText (bs v)))];
     [FVProp PropTable.PrProductID (Props.PNew (Types.VText (bs "x")))]; []; []; []; []; []].
Lemma decode_cut : exists n, forall fuel, n <= fuel ->
    Decode fuel (fun _ => length cut_text) [cut_text] false = Ok (cut_cal "2.0") /\
    Decode fuel (fun _ => length cut_text) [firstn cut_at cut_text; skipn cut_at cut_text] false = Ok (cut_cal "2 .0").
Proof.
  exists 100. intros fuel F. split.
  - rewrite (Decode_drained _ _ _ _ (unfold cut_text) REOF).
    + vm_compute. reflexivity.
    + apply (drain_mono 100 fuel); [exact F|]. vm_compute. reflexivity.
  - rewrite (Decode_drained _ _ _ _ (lines ["BEGIN:VCALENDAR"; "VERSION:2 .0"; "PRODID:x"; "END:VCALENDAR"]%string) REOF).
    + vm_compute. reflexivity.
    + apply (drain_mono 100 fuel); [exact F|]. vm_compute. reflexivity.
Qed.

(** The same reads, with the end reported after the last data and together with it. *)
Definition eof_chunks : list bytes :=
  [bs "BEGIN:VCALENDAR" ++ CRLF ++ bs "VERSION:2.0" ++ CRLF ++ bs "PRODID:x" ++ CRLF ++ bs "END:VCALENDAR" ++ [CR]; [LF]].
Lemma decode_eof : exists n, forall fuel, n <= fuel ->
    Decode fuel (fun _ => 100) eof_chunks false = Ok (cut_cal "2.0") /\
    is_ok (Decode fuel (fun _ => 100) eof_chunks true) = false.
Proof.
  exists 100. intros fuel F. split.
  - rewrite (Decode_drained _ _ _ _ (concat eof_chunks) REOF).
    + vm_compute. reflexivity.
    + apply (drain_mono 100 fuel); [exact F|]. vm_compute. reflexivity.
  - rewrite (Decode_drained _ _ _ _ (hd [] eof_chunks) REOF).
    + vm_compute. reflexivity.
    + apply (drain_mono 100 fuel); [exact F|]. vm_compute. reflexivity.
Qed.
End Decode.

Lemma decode_cut_ex {env : Env} : exists s k size c1 c2, c1 <> c2 /\
  exists n, forall fuel, n <= fuel ->
    Decode fuel (fun _ => size) [s] false = Ok c1 /\
    Decode fuel (fun _ => size) [firstn k s; skipn k s] false = Ok c2.
Proof.
  exists cut_text, cut_at, (length cut_text), (cut_cal "2.0"), (cut_cal "2 .0").
  split; [vm_compute; discriminate|exact decode_cut].
Qed.

Lemma decode_eof_ex {env : Env} : exists chunks size c,
  exists n, forall fuel, n <= fuel ->
    Decode fuel (fun _ => size) chunks false = Ok c /\
    is_ok (Decode fuel (fun _ => size) chunks true) = false.
Proof. exists eof_chunks, 100, (cut_cal "2.0"). exact decode_eof. Qed.

Lemma no_fold_by s : find_fold s = None -> ~ has_fold s.
Proof. intros H F. exact (find_fold_has s F H). Qed.
Lemma bad_tail_by s : rot_dec (skipn (length s - 3) s) = false -> ~ bad_tail s.
Proof.
  intros H (o & t & -> & R). assert (L : length t = 3) by (destruct R as [R|[R|R]]; subst t; reflexivity).
  rewrite app_length, L, Nat.add_sub in H. rewrite skipn_app, skipn_all, Nat.sub_diag in H. cbn [skipn app] in H.
  apply rot_dec_spec in R. congruence.
Qed.
Lemma cut_text_ok : ~ bad_tail cut_text /\ unfold cut_text <> cut_text.
Proof. split; [apply bad_tail_by; vm_compute; reflexivity|vm_compute; discriminate]. Qed.
Lemma hang_ok : has_fold (bs "X:" ++ [CR; LF; SP]) /\ bad_tail (bs "X:" ++ [CR; LF; SP]).
Proof.
  split.
  - exists (bs "X:"), []. reflexivity.
  - exists (bs "X:"), [CR; LF; SP]. split; [reflexivity|]. left. reflexivity.
Qed.
