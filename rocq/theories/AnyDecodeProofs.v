(** The same for phrases, components and calendars. *)
From Coq Require Import String Ascii List Arith ZArith Bool Lia.
From Verif Require Import Base Lib Tokeniser GoTime Params PropTable Props SecTable Sections Unfolder OnDemand AnyReader SpecAnyReader AnyReaderProofs.
Import ListNotations.

Section Decode.
Context {env : Env} {R : Type} (read : io_reader R) (Hon : honest read).

Definition with_r (o : astate R) (r : rdr) : ostate := OState (a_z o) (a_i o) (a_buf o) r (a_end o).
Definition at_r (s : @gsrc (astate R)) (r : rdr) : @gsrc ostate := match s with GTok o => GTok (with_r o r) | GList l => GList l end.
Definition first_of (a b : option rerr) : option rerr := match a with Some _ => a | None => b end.
(** From [s] to [s'] by reading the pieces *)
Definition goes (s : @gsrc (astate R)) (cs : list bytes) (oe : option rerr) (s' : @gsrc (astate R)) : Prop :=
  match s, s' with
  | GTok o, GTok o' => gave read (a_r o) cs oe (a_r o') /\ (a_end o = true -> cs = [] /\ oe = None) /\ a_end o' = a_end o || is_some oe
  | GList _, GList _ => cs = [] /\ oe = None
  | _, _ => False
  end.
Definition rest_ok_for (s : @gsrc (astate R)) (oe : option rerr) (r : rdr) : Prop := match s with GTok o => a_end o = false -> may_follow oe r | GList _ => True end.
Lemma gave_nil s e s' : gave read s [] e s' -> s = s'.
Proof. intros G. inversion G. reflexivity. Qed.
Lemma goes_app s cs1 oe1 s1 cs2 oe2 s2 : goes s cs1 oe1 s1 -> goes s1 cs2 oe2 s2 -> goes s (cs1 ++ cs2) (first_of oe1 oe2) s2.
Proof.
  destruct s as [o|l], s1 as [o1|l1], s2 as [o2|l2]; cbn [goes]; try contradiction.
  - intros (G1 & E1 & A1) (G2 & E2 & A2). rewrite A1 in *. destruct (a_end o); cbn [orb] in *.
    + destruct (E1 eq_refl) as [-> ->], (E2 eq_refl) as [-> ->]. cbn [first_of is_some app]. split; [|split; [auto|exact A2]]. eapply (gave_app read _ [] _ []); eassumption.
    + destruct oe1 as [e|]; cbn [is_some first_of orb] in *.
      * destruct (E2 eq_refl) as [-> ->]. rewrite app_nil_r. rewrite <- (gave_nil _ _ _ G2). split; [exact G1|]. split; [discriminate|exact A2].
      * split; [eapply gave_app; eassumption|]. split; [discriminate|exact A2].
  - intros [-> ->] [-> ->]. split; reflexivity.
Qed.
Lemma rest_prep s cs1 oe1 s1 cs2 oe2 s2 r : goes s cs1 oe1 s1 -> goes s1 cs2 oe2 s2 -> rest_ok_for s (first_of oe1 oe2) r -> rest_ok_for s oe1 (before cs2 r) /\ rest_ok_for s1 oe2 r.
Proof.
  destruct s as [o|l], s1 as [o1|l1], s2 as [o2|l2]; cbn [goes rest_ok_for]; try contradiction; [|auto].
  intros (G1 & E1 & A1) (G2 & E2 & A2) T. split.
  - intros N. specialize (T N). destruct oe1 as [e|]; cbn [first_of] in T.
    + rewrite N in A1. cbn [orb is_some] in A1. destruct (E2 A1) as [-> _]. rewrite prep_nil. exact T.
    + exact (tail_prep read _ _ _ _ _ G2 T).
  - intros N. rewrite A1 in N. apply orb_false_iff in N as [N1 N2]. destruct oe1; [discriminate N2|]. exact (T N1).
Qed.

(** [x]: the run with the reader; [f]: the run with pieces, where [mk] puts the state into the result. *)
Definition agreesG {X Y} (gs : X -> @gsrc (astate R)) (mk : X -> @gsrc ostate -> Y) (x : res X) (f : @gsrc ostate -> res Y) (s : @gsrc (astate R)) : Prop :=
  exists cs oe s', goes s cs oe s' /\
    (forall r, rest_ok_for s oe r -> f (at_r s (before cs r)) = match x with Ok a => Ok (mk a (at_r (gs a) r)) | Err e => Err e | Panic => Panic | NoFuel => NoFuel end) /\
    (forall a, x = Ok a -> gs a = s').
Lemma goes_refl s : goes s [] None s.
Proof. destruct s; cbn [goes]; [|auto]. split; [constructor|]. split; [auto|]. rewrite orb_false_r. reflexivity. Qed.
Lemma ag_ret {X Y} gs (mk : X -> _ -> Y) x f s : (forall r, f (at_r s r) = match x with Ok a => Ok (mk a (at_r s r)) | Err e => Err e | Panic => Panic | NoFuel => NoFuel end) ->
  (forall a, x = Ok a -> gs a = s) -> agreesG gs mk x f s.
Proof.
  intros F O. exists [], None, s. split; [apply goes_refl|]. split; [|exact O]. intros r _. rewrite prep_nil, F. destruct x as [a| | |]; try reflexivity. rewrite (O a eq_refl). reflexivity.
Qed.
Lemma ag_fail {X Y} gs (mk : X -> _ -> Y) x f s : (forall t, f t = match x with Ok _ => NoFuel | Err e => Err e | Panic => Panic | NoFuel => NoFuel end) -> (forall a, x <> Ok a) -> agreesG gs mk x f s.
Proof. intros F O. apply ag_ret; [|intros a E; destruct (O a E)]. intros r. rewrite F. destruct x; try reflexivity. destruct (O a eq_refl). Qed.
Lemma ag_bind {X Y X' Y'} gs (mk : X -> _ -> Y) gs' (mk' : X' -> _ -> Y') x f k k' s : agreesG gs mk x f s ->
  (forall a, x = Ok a -> agreesG gs' mk' (k a) (fun t => k' (mk a t)) (gs a)) -> agreesG gs' mk' (bind x k) (fun t => bind (f t) k') s.
Proof.
  intros (cs & oe & s1 & G & F1 & F2) HK. destruct x as [a|e| |].
  2-4: exists cs, oe, s1; split; [exact G|]; split; [intros r T; rewrite (F1 r T); reflexivity|discriminate].
  rewrite (F2 a eq_refl) in *. destruct (HK a eq_refl) as (cs' & oe' & s2 & G' & F1' & F2'). rewrite (F2 a eq_refl) in *. cbn [bind].
  exists (cs ++ cs'), (first_of oe oe'), s2. split; [exact (goes_app _ _ _ _ _ _ _ G G')|]. split; [|exact F2'].
  intros r T. destruct (rest_prep _ _ _ _ _ _ _ _ G G' T) as [T1 T2]. rewrite prep_app, (F1 _ T1). cbn [bind]. apply F1', T2.
Qed.
(** A call that reads nothing *)
Lemma ag_pure {A X Y} gs (mk : X -> _ -> Y) (v : res A) k k' s : (forall a, agreesG gs mk (k a) (k' a) s) -> agreesG gs mk (bind v k) (fun t => bind v (fun a => k' a t)) s.
Proof. intros H. destruct v as [a| | |]; cbn [bind]; [apply H|apply ag_fail; [reflexivity|discriminate]..]. Qed.
Lemma ag_ext {X Y} gs (mk : X -> _ -> Y) x f g s : (forall t, f t = g t) -> agreesG gs mk x f s -> agreesG gs mk x g s.
Proof. intros E (cs & oe & s' & G & F1 & F2). exists cs, oe, s'. split; [exact G|]. split; [|exact F2]. intros r T. rewrite <- E. apply F1, T. Qed.
Lemma ag_eq {X Y} gs (mk : X -> _ -> Y) x y f s : x = y -> agreesG gs mk x f s -> agreesG gs mk y f s.
Proof. intros ->. auto. Qed.

Definition mk2 {A} (a : A * @gsrc (astate R)) (t : @gsrc ostate) : A * @gsrc ostate := (fst a, t).

Context (fu : nat) (sizes : nat -> nat).
Lemma phrase_agrees n : forall o, exists cs oe o', goes (GTok o) cs oe (GTok o') /\
  (forall r, rest_ok_for (GTok o) oe r -> od_phrase n sizes (with_r o (before cs r)) = match a_phrase read n sizes o with Ok (p, o1) => Ok (p, with_r o1 r) | Err e => Err e | Panic => Panic | NoFuel => NoFuel end) /\
  (forall p o1, a_phrase read n sizes o = Ok (p, o1) -> o1 = o').
Proof.
  induction n as [|n IH]; intros o; [exists [], None, o; split; [apply goes_refl|split; [reflexivity|discriminate]]|]. cbn [a_phrase od_phrase].
  destruct (a_end o || negb (blocks (a_z o))) eqn:B.
  - destruct (get_phrase (a_z o)) as [[p z]|e| |] eqn:P; cbn [bind].
    + exists [], None, (AState z (a_i o) (a_buf o) (a_r o) (a_end o)). split; [cbn [goes a_r a_end]; split; [constructor|]; split; [auto|rewrite orb_false_r; reflexivity]|].
      split; [intros r _; rewrite prep_nil; cbn [with_r o_end o_z o_i o_buf o_r]; rewrite B, P; reflexivity|]. intros p' o1 E. injection E as _ <-. reflexivity.
    + exists [], None, o. split; [apply goes_refl|]. split; [|discriminate]. intros r _. cbn [with_r o_end o_z]. rewrite B, P. reflexivity.
    + exists [], None, o. split; [apply goes_refl|]. split; [|discriminate]. intros r _. cbn [with_r o_end o_z]. rewrite B, P. reflexivity.
    + exists [], None, o. split; [apply goes_refl|]. split; [|discriminate]. intros r _. cbn [with_r o_end o_z]. rewrite B, P. reflexivity.
  - apply orb_false_iff in B as B2. destruct B2 as [NE _]. destruct (read_agrees read Hon (S n) (a_buf o) (a_r o) (sizes (a_i o))) as (cs & oe & s2 & G & F1 & F2).
    destruct (a_read read (S n) (a_buf o) (a_r o) (sizes (a_i o))) as [[[[d e] buf] r1]|e| |] eqn:AR; cbn [bind].
    2-4: exists cs, oe, (AState (a_z o) (a_i o) (a_buf o) s2 (is_some oe)); split; [cbn [goes a_r a_end]; rewrite NE; split; [exact G|]; split; [discriminate|reflexivity]|]; split; [|discriminate];
      intros r T; cbn [with_r o_end o_z o_i o_buf o_r]; rewrite B, (F1 r (T NE)); reflexivity.
    destruct (F2 _ _ eq_refl) as [E1 ->]. cbn [fst snd] in E1. subst e. set (o1 := AState (feed (a_z o) d) (S (a_i o)) buf s2 (is_some oe)).
    assert (G1 : goes (GTok o) cs oe (GTok o1)) by (cbn [goes a_r a_end o1]; rewrite NE; split; [exact G|]; split; [discriminate|reflexivity]).
    destruct (IH o1) as (cs' & oe' & o' & G' & F1' & F2'). exists (cs ++ cs'), (first_of oe oe'), o'. split; [exact (goes_app _ _ _ _ _ _ _ G1 G')|]. split; [|exact F2'].
    intros r T. destruct (rest_prep _ _ _ _ _ _ _ _ G1 G' T) as [T1 T2]. rewrite prep_app. cbn [with_r o_end o_z o_i o_buf o_r]. rewrite B, (F1 _ (T1 NE)). cbn [set_r bind]. exact (F1' r T2).
Qed.
Let getA := a_phrase read fu sizes.
Let getB := od_phrase fu sizes.
Lemma get_agrees s : agreesG snd mk2 (g_get getA s) (g_get getB) s.
Proof.
  destruct s as [o|[|p l]].
  - destruct (phrase_agrees fu o) as (cs & oe & o' & G & F1 & F2). exists cs, oe, (GTok o'). split; [exact G|]. split.
    + intros r T. cbn [at_r g_get]. unfold getB, getA. rewrite (F1 r T). destruct (a_phrase read fu sizes o) as [[p o1]| | |]; reflexivity.
    + intros [p t] E. cbn [g_get] in E. unfold getA in E. destruct (a_phrase read fu sizes o) as [[p' o1]| | |]; try discriminate E. injection E as <- <-. cbn [snd]. f_equal. exact (F2 p' o1 eq_refl).
  - apply ag_ret; [reflexivity|discriminate].
  - exists [], None, (GList l). split; [split; reflexivity|]. split; [reflexivity|]. intros a E. injection E as <-. reflexivity.
Qed.
Lemma ag_get {X Y} gs (mk : X -> _ -> Y) (k : phrase -> @gsrc (astate R) -> res X) (k' : phrase -> @gsrc ostate -> res Y) s : (forall p t, agreesG gs mk (k p t) (k' p) t) ->
  agreesG gs mk (let! (p, t) := g_get getA s in k p t) (fun s => let! (p, t) := g_get getB s in k' p t) s.
Proof.
  intros H. eapply (ag_bind snd mk2 gs mk (g_get getA s) (g_get getB) (fun '(p, t) => k p t) (fun '(p, t) => k' p t)); [apply get_agrees|]. intros [p t] _. cbn [fst snd mk2]. apply H.
Qed.
Ltac fail1 := apply ag_fail; [reflexivity|discriminate].
Ltac ok1 := apply ag_ret; [reflexivity|]; let E := fresh in intros ? E; injection E as <-; reflexivity.
Lemma dummy_agrees f : forall n s, agreesG (fun t => t) (fun _ t => t) (g_dummy getA f n s) (g_dummy getB f n) s.
Proof.
  induction f as [|f IH]; intros n s; [fail1|]. cbn [g_dummy]. apply ag_get. intros [d|] t; [|fail1].
  apply (ag_pure _ _ (parts d)). intros [[name ps] value]. destruct (beq (upper name) (bs "BEGIN")).
  - eapply (ag_bind (fun t => t) (fun _ t => t) (fun t => t) (fun _ t => t) (g_dummy getA f value t) (g_dummy getB f value) (fun s => g_dummy getA f n s) (fun s => g_dummy getB f n s)); [apply IH|]. intros a _. apply IH.
  - destruct (beq (upper name) (bs "END")); [|apply IH]. destruct (beq (upper value) n); [ok1|fail1].
Qed.
Lemma gather_agrees f : forall ty acc s, agreesG snd mk2 (g_gather getA f ty acc s) (g_gather getB f ty acc) s.
Proof.
  induction f as [|f IH]; intros ty acc s; [fail1|]. cbn [g_gather]. apply ag_get. intros [d|] t; [|fail1].
  apply (ag_pure _ _ (parts d)). intros [[name ps] value]. destruct (beq name (bs "BEGIN")); [fail1|]. destruct (beq name (bs "ACTION")); [destruct ty; [fail1|apply IH]|].
  destruct (beq name (bs "END")); [ok1|apply IH].
Qed.
Lemma list_agrees {A X Y} gs (mk : X -> _ -> Y) (x : res (A * @gsrc (astate R))) (f : @gsrc ostate -> res (A * @gsrc ostate)) l k k' s : agreesG snd mk2 x f (GList l) ->
  (forall a, agreesG gs mk (k a) (k' a) s) -> agreesG gs mk (let! (a, _) := x in k a) (fun t => let! (a, _) := f (GList l) in k' a t) s.
Proof.
  intros (cs & oe & s' & G & F1 & _) H. destruct s' as [|l']; [destruct G|]. specialize (F1 (Rdr [] false REOF) Logic.I). cbn [at_r] in F1. rewrite F1.
  destruct x as [[a t]| | |]; cbn [bind mk2 fst]; [apply H|fail1..].
Qed.
Lemma sec_agrees f : forall id fs s, agreesG snd mk2 (g_sec getA f id fs s) (g_sec getB f id fs) s.
Proof.
  induction f as [|f IH]; intros id fs s; [fail1|]. cbn [g_sec]. apply ag_get. intros [d|] t; [|fail1].
  apply (ag_pure _ _ (parts d)). intros [[name ps] value]. destruct (beq (upper name) (bs "BEGIN")).
  - destruct (find_field _ _) as [[i fd]|].
    + destruct (full fd i fs); [fail1|]. destruct (fd_type fd) as [pid|sid|]; [fail1| |].
      * eapply (ag_bind snd mk2 snd mk2 (g_sec getA f sid (no_fields sid) t) (g_sec getB f sid (no_fields sid)) (fun '(x, s) => g_sec getA f id (add_field i (FVSec x) fs) s) (fun '(x, s) => g_sec getB f id (add_field i (FVSec x) fs) s)); [apply IH|].
        intros [x t1] _. cbn [fst snd mk2]. apply IH.
      * eapply (ag_bind snd mk2 snd mk2 (g_gather getA f None [] t) (g_gather getB f None []) (fun '(pt, ty, s) => _) (fun '(pt, ty, s) => _)); [apply gather_agrees|].
        intros [[pt [sid|]] t1] _; cbn [fst snd mk2]; [|fail1]. apply (list_agrees _ _ (g_sec getA f sid (no_fields sid) (GList pt)) (g_sec getB f sid (no_fields sid))); [apply IH|]. intros x. apply IH.
    + eapply (ag_bind (fun t => t) (fun _ t => t) snd mk2 (g_dummy getA f (upper value) t) (g_dummy getB f (upper value)) (fun s => g_sec getA f id fs s) (fun s => g_sec getB f id fs s)); [apply dummy_agrees|]. intros a _. apply IH.
  - destruct (find_field _ _) as [[i fd]|].
    + destruct (full fd i fs); [fail1|]. destruct (fd_type fd) as [pid|sid|]; [|fail1|fail1]. apply (ag_pure _ _ (prop_decode pid ps value)). intros p. apply IH.
    + destruct (beq (upper name) (bs "END")); [|apply IH]. destruct (beq value (sp_name (sec_spec id))); [|fail1]. apply (ag_pure _ _ (finish id fs)). intros x. ok1.
Qed.
Lemma decode_agrees f s : agreesG snd mk2 (g_decode getA f s) (g_decode getB f) s.
Proof.
  unfold g_decode. apply ag_get. intros [d|] t; [|fail1]. apply (ag_pure _ _ (parts d)). intros [[name ps] value]. destruct (_ && _); [apply sec_agrees|fail1].
Qed.
End Decode.

Section Main.
Context {env : Env} {R : Type} (read : io_reader R).
Lemma decode_from_pieces_all fuel sizes s : honest read -> exists pieces e s', gave read s pieces e s' /\ forall rest, may_follow e rest ->
  DecodeOD fuel sizes (before pieces rest) = set_r rest (DecodeFrom read fuel sizes s) /\ forall cal s1, DecodeFrom read fuel sizes s = Ok (cal, s1) -> s1 = s'.
Proof.
  intros Hon. destruct (decode_agrees read Hon fuel sizes fuel (GTok (AState (new_tokeniser []) 0 [] s false))) as (cs & oe & s' & G & F1 & F2). destruct s' as [o'|]; [|destruct G].
  exists cs, oe, (a_r o'). split; [exact (proj1 G)|]. intros r T. specialize (F1 r (fun _ => T)).
  change (at_r _ (before cs r)) with (GTok (OState (new_tokeniser []) 0 [] (before cs r) false)) in F1.
  unfold DecodeFrom, DecodeOD, od_start. rewrite F1. destruct (g_decode (a_phrase read fuel sizes) fuel _) as [[c t]| | |] eqn:GD; cbn [bind]; try (split; [reflexivity|discriminate]).
  pose proof (F2 _ eq_refl) as E. cbn [snd] in E. subst t. cbn [mk2 fst snd at_r bind]. split; [reflexivity|]. intros cal s1 Q. injection Q as _ <-. reflexivity.
Qed.
Theorem decode_from_pieces fuel sizes s : honest read -> exists pieces e s', gave read s pieces e s' /\
  (forall rest, may_follow e rest -> DecodeOD fuel sizes (before pieces rest) = set_r rest (DecodeFrom read fuel sizes s)) /\
  (forall cal s1, DecodeFrom read fuel sizes s = Ok (cal, s1) -> s1 = s').
Proof.
  intros Hon. destruct (decode_from_pieces_all fuel sizes s Hon) as (cs & e & s' & G & F). exists cs, e, s'. split; [exact G|]. split; [exact (fun r T => proj1 (F r T))|].
  destruct e as [e|]; [exact (proj2 (F (Rdr [] true e) eq_refl))|exact (proj2 (F (Rdr [] false REOF) (fun _ => eq_refl)))].
Qed.
(** The number of calls *)
Lemma gave_count s pieces e s' : gives_something read -> gave read s pieces e s' -> length pieces <= length (concat pieces) + 1.
Proof.
  intros H G. induction G as [s|s k d s1 cs e s2 K Rd G IH|s k d e s1 K Rd]; cbn [concat length]; [lia| |]; rewrite app_length; [|lia].
  assert (d <> []) by (intros ->; exact (H s k s1 K Rd)). destruct d; [contradiction|]. cbn [length]. lia.
Qed.
End Main.
