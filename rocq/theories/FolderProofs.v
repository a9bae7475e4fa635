(** Folding: line length, reversibility, characters, write boundaries, failing writers. *)
From Coq Require Import List ZArith Bool Lia ZifyBool Arith.
From Verif Require Import Base Lib Utf8 Utf8Proofs Folder Unfolder SpecLines.
Import ListNotations.
Local Open Scope Z_scope.

(** ** The bytes one [Write] passes on, and the new line count *)
Fixpoint fold_fuel (fuel : nat) (line : Z) (rest : bytes) : bytes * Z :=
  match fuel with
  | O => ([], line)
  | S f =>
    match rest with
    | [] => ([], line)
    | _ =>
      let '(r, s) := decode_rune rest in
      let ch := firstn s rest in
      let rest' := skipn s rest in
      let line1 := (line + Z.of_nat s) mod 256 in
      if r =? 10 then let '(o, l) := fold_fuel f 0 rest' in (ch ++ o, l)
      else if r =? 13 then let '(o, l) := fold_fuel f line1 rest' in (ch ++ o, l)
      else if maxLineLength <? line1 then
        let '(o, l) := fold_fuel f ((Z.of_nat s + 1) mod 256) rest' in (eol ++ ch ++ o, l)
      else let '(o, l) := fold_fuel f line1 rest' in (ch ++ o, l)
    end
  end.
Definition fold1 (line : Z) (s : bytes) : bytes * Z := fold_fuel (length s) line s.

Definition fold_step (f : nat) (line : Z) (c : byte) (l : bytes) : bytes * Z :=
  let '(r, s) := decode_rune (c :: l) in
  let ch := firstn s (c :: l) in
  let rest' := skipn s (c :: l) in
  let line1 := (line + Z.of_nat s) mod 256 in
  if r =? 10 then let '(o, l) := fold_fuel f 0 rest' in (ch ++ o, l)
  else if r =? 13 then let '(o, l) := fold_fuel f line1 rest' in (ch ++ o, l)
  else if maxLineLength <? line1 then
    let '(o, l) := fold_fuel f ((Z.of_nat s + 1) mod 256) rest' in (eol ++ ch ++ o, l)
  else let '(o, l) := fold_fuel f line1 rest' in (ch ++ o, l).

Lemma fold_fuel_S f line c l : fold_fuel (S f) line (c :: l) = fold_step f line c l.
Proof. reflexivity. Qed.

Lemma fold_fuel_indep n : forall line l f g, (length l <= n)%nat -> (length l <= f)%nat -> (length l <= g)%nat ->
  fold_fuel f line l = fold_fuel g line l.
Proof.
  induction n as [|n IH]; intros line l f g Hn Hf Hg.
  - destruct l; [|cbn in Hn; lia]. destruct f, g; reflexivity.
  - destruct l as [|c l]; [destruct f, g; reflexivity|].
    destruct f as [|f]; [cbn in Hf; lia|]. destruct g as [|g]; [cbn in Hg; lia|].
    cbn [length] in *. rewrite !fold_fuel_S. unfold fold_step.
    pose proof (decode_rune_width c l) as W. destruct (decode_rune (c :: l)) as [r w]. destruct W as [W1 W2].
    assert (E : forall k, fold_fuel f k (skipn w (c :: l)) = fold_fuel g k (skipn w (c :: l))).
    { intros k. apply IH; rewrite skipn_length; cbn [length]; lia. }
    cbv zeta. rewrite !E. reflexivity.
Qed.

Lemma fold1_nil line : fold1 line [] = ([], line).
Proof. reflexivity. Qed.

(** One rune. *)
Lemma fold1_cons line c l :
  fold1 line (c :: l) =
  let '(r, s) := decode_rune (c :: l) in
  let ch := firstn s (c :: l) in
  let rest' := skipn s (c :: l) in
  let line1 := (line + Z.of_nat s) mod 256 in
  if r =? 10 then let '(o, l) := fold1 0 rest' in (ch ++ o, l)
  else if r =? 13 then let '(o, l) := fold1 line1 rest' in (ch ++ o, l)
  else if maxLineLength <? line1 then
    let '(o, l) := fold1 ((Z.of_nat s + 1) mod 256) rest' in (eol ++ ch ++ o, l)
  else let '(o, l) := fold1 line1 rest' in (ch ++ o, l).
Proof.
  unfold fold1 at 1. cbn [length]. rewrite fold_fuel_S. unfold fold_step.
  pose proof (decode_rune_width c l) as W. destruct (decode_rune (c :: l)) as [r w].
  assert (E : forall k, fold_fuel (length l) k (skipn w (c :: l)) = fold1 k (skipn w (c :: l))).
  { intros k. unfold fold1. apply fold_fuel_indep with (n := length l); rewrite skipn_length; cbn [length]; lia. }
  cbv zeta. rewrite !E. reflexivity.
Qed.

(** Induction over the runes of a string. *)
Lemma rune_ind (P : bytes -> Prop) : P [] ->
  (forall c l, (forall m, (length m < length (c :: l))%nat -> P m) -> P (c :: l)) -> forall l, P l.
Proof.
  intros H0 H1 l. remember (length l) as n eqn:E. revert l E.
  induction n as [n IH] using lt_wf_ind. intros l ->. destruct l as [|c l]; [exact H0|].
  apply H1. intros m Hm. eapply IH; [exact Hm|reflexivity].
Qed.

(** ** Sequences of writes *)
Fixpoint folds (line : Z) (qs : list bytes) : bytes * Z :=
  match qs with
  | [] => ([], line)
  | q :: qs' => let '(o, l) := fold1 line q in let '(o', l') := folds l qs' in (o ++ o', l')
  end.

(** The folder over a writer that never fails passes on exactly [folds]. *)
Lemma folder_loop_ok : forall fuel line pre rest w, (length rest < fuel)%nat ->
  exists new, folder_loop ok_writer fuel line pre rest w = (w ++ new, None, snd (fold1 line rest)) /\
              concat new = pre ++ fst (fold1 line rest).
Proof.
  induction fuel as [|fuel IH]; intros line pre rest w Hf; [lia|].
  destruct rest as [|c l].
  - cbn [folder_loop]. destruct pre as [|b pre].
    + exists []. rewrite !app_nil_r. auto.
    + exists [b :: pre]. cbn. rewrite !app_nil_r. auto.
  - rewrite fold1_cons. cbn [folder_loop].
    pose proof (decode_rune_width c l) as W. destruct (decode_rune (c :: l)) as [r s]. destruct W as [W1 W2].
    assert (Hl : (length (skipn s (c :: l)) < fuel)%nat) by (rewrite skipn_length; cbn [length] in *; lia).
    destruct (r =? 10).
    { destruct (IH 0 (pre ++ firstn s (c :: l)) _ w Hl) as (new & -> & E). exists new.
      destruct (fold1 0 (skipn s (c :: l))) as [o l']. cbn [fst snd] in *. rewrite E, <- app_assoc. auto. }
    destruct (r =? 13).
    { destruct (IH ((line + Z.of_nat s) mod 256) (pre ++ firstn s (c :: l)) _ w Hl) as (new & -> & E). exists new.
      destruct (fold1 _ (skipn s (c :: l))) as [o l']. cbn [fst snd] in *. rewrite E, <- app_assoc. auto. }
    destruct (maxLineLength <? (line + Z.of_nat s) mod 256).
    2: { destruct (IH ((line + Z.of_nat s) mod 256) (pre ++ firstn s (c :: l)) _ w Hl) as (new & -> & E). exists new.
      destruct (fold1 _ (skipn s (c :: l))) as [o l']. cbn [fst snd] in *. rewrite E, <- app_assoc. auto. }
    destruct pre as [|b pre]; cbn [ok_writer].
    + destruct (IH ((Z.of_nat s + 1) mod 256) (firstn s (c :: l)) _ (w ++ [eol]) Hl) as (new & -> & E).
      exists (eol :: new). rewrite <- app_assoc.
      destruct (fold1 _ (skipn s (c :: l))) as [o l']. cbn [fst snd concat] in *. rewrite E. auto.
    + cbn [ok_writer fst snd].
      destruct (IH ((Z.of_nat s + 1) mod 256) (firstn s (c :: l)) _ ((w ++ [b :: pre]) ++ [eol]) Hl) as (new & -> & E).
      exists ((b :: pre) :: eol :: new). rewrite <- !app_assoc.
      destruct (fold1 _ (skipn s (c :: l))) as [o l']. cbn [fst snd concat app] in *. rewrite E. auto.
Qed.

Lemma folder_write_ok line w q :
  exists new, folder_write ok_writer (Folder None line, w) q = (Folder None (snd (fold1 line q)), w ++ new) /\
              concat new = fst (fold1 line q).
Proof.
  unfold folder_write. cbn [f_err f_line].
  destruct (folder_loop_ok (S (length q)) line [] q w ltac:(lia)) as (new & -> & E). eauto.
Qed.

Lemma folder_writes_ok : forall qs line w,
  exists new, folder_writes ok_writer (Folder None line, w) qs = (Folder None (snd (folds line qs)), w ++ new) /\
              concat new = fst (folds line qs).
Proof.
  induction qs as [|q qs IH]; intros line w.
  - exists []. cbn. rewrite app_nil_r. auto.
  - cbn [folder_writes fold_left folds].
    destruct (folder_write_ok line w q) as (new & -> & E).
    destruct (fold1 line q) as [o l]. cbn [fst snd] in *.
    destruct (IH l (w ++ new)) as (new' & H & E'). unfold folder_writes in H. rewrite H.
    destruct (folds l qs) as [o' l']. cbn [fst snd] in *.
    exists (new ++ new'). rewrite concat_app, app_assoc, E, E'. auto.
Qed.

(** ** Line length *)

(** Scan a text: the bytes of the open line, and whether it ends in a CR. *)
Fixpoint scan (k : Z) (cr : bool) (s : bytes) : option (Z * bool) :=
  match s with
  | [] => Some (k, cr)
  | c :: s' =>
    if beqc c CR then if cr then None else scan k true s'
    else if beqc c LF then if cr then scan 0 false s' else None
    else if cr then None else if k + 1 <=? 75 then scan (k + 1) false s' else None
  end.
Fixpoint bscan (cr : bool) (s : bytes) : option bool :=
  match s with
  | [] => Some cr
  | c :: s' =>
    if beqc c CR then if cr then None else bscan true s'
    else if beqc c LF then if cr then bscan false s' else None
    else if cr then None else bscan false s'
  end.

Lemma scan_app a : forall k cr b, scan k cr (a ++ b) = match scan k cr a with Some (k', cr') => scan k' cr' b | None => None end.
Proof.
  induction a as [|c a IH]; intros; cbn [app scan]; [reflexivity|].
  repeat match goal with |- context [if ?x then _ else _] => destruct x end; auto.
Qed.
Lemma bscan_app a : forall cr b, bscan cr (a ++ b) = match bscan cr a with Some cr' => bscan cr' b | None => None end.
Proof.
  induction a as [|c a IH]; intros; cbn [app bscan]; [reflexivity|].
  repeat match goal with |- context [if ?x then _ else _] => destruct x end; auto.
Qed.

Lemma plain_byte c : code c <> 13 -> code c <> 10 -> beqc c CR = false /\ beqc c LF = false.
Proof. intros. rewrite !beqc_code. change (code CR) with 13. change (code LF) with 10. lia. Qed.

(** A character without CR or LF. *)
Lemma scan_plain ch : Forall (fun b => code b <> 13 /\ code b <> 10) ch ->
  forall k, k + Z.of_nat (length ch) <= 75 -> scan k false ch = Some (k + Z.of_nat (length ch), false).
Proof.
  induction 1 as [|c ch [H1 H2] _ IH]; intros k Hk; cbn [scan length] in *.
  - f_equal. f_equal. lia.
  - destruct (plain_byte c H1 H2) as [-> ->]. replace (k + 1 <=? 75) with true by lia.
    rewrite IH by lia. f_equal. f_equal. lia.
Qed.
Lemma bscan_plain ch : ch <> [] -> Forall (fun b => code b <> 13 /\ code b <> 10) ch -> forall cr,
  bscan cr ch = if cr then None else Some false.
Proof.
  intros Hn H. destruct H as [|c ch [H1 H2] H]; [congruence|]. intros cr. cbn [bscan].
  destruct (plain_byte c H1 H2) as [-> ->]. destruct cr; [reflexivity|].
  induction H as [|d ch [H3 H4] _ IH]; [reflexivity|]. cbn [bscan].
  destruct (plain_byte d H3 H4) as [-> ->]. apply IH. discriminate.
Qed.

(** What a rune is. *)
Lemma rune_cases c l : let '(r, s) := decode_rune (c :: l) in
  (c = LF /\ r = 10 /\ s = 1%nat) \/ (c = CR /\ r = 13 /\ s = 1%nat) \/
  (r <> 10 /\ r <> 13 /\ Forall (fun b => code b <> 13 /\ code b <> 10) (firstn s (c :: l)) /\ (1 <= s <= 4)%nat).
Proof.
  pose proof (decode_rune_width c l) as W.
  destruct (Z_lt_dec (code c) 128) as [H|H].
  - rewrite decode_rune_ascii by exact H.
    destruct (Z.eq_dec (code c) 10) as [E|E].
    + left. split; [apply code_inj; exact E|auto].
    + destruct (Z.eq_dec (code c) 13) as [E'|E'].
      * right. left. split; [apply code_inj; exact E'|auto].
      * right. right. cbn [firstn]. repeat split; auto.
  - pose proof (decode_rune_high c l ltac:(lia)) as D. destruct (decode_rune (c :: l)) as [r s].
    destruct D as [D1 D2]. right. right. repeat split; try lia.
    eapply Forall_impl; [|exact D2]. cbn. lia.
Qed.

Definition b2z (b : bool) : Z := if b then 1 else 0.

Lemma fold1_scan l : forall k cr cr', 0 <= k <= 75 -> bscan cr l = Some cr' ->
  exists k', scan k cr (fst (fold1 (k + b2z cr) l)) = Some (k', cr') /\
             snd (fold1 (k + b2z cr) l) = k' + b2z cr' /\ 0 <= k' <= 75.
Proof.
  induction l as [|c l IH] using rune_ind; intros k cr cr' Hk B.
  { cbn in B. injection B as <-. exists k. auto. }
  rewrite fold1_cons.
  pose proof (decode_rune_width c l) as W. pose proof (rune_cases c l) as C.
  destruct (decode_rune (c :: l)) as [r s]. destruct W as [W1 W2].
  assert (Hl : (length (skipn s (c :: l)) < length (c :: l))%nat) by (rewrite skipn_length; cbn [length] in *; lia).
  assert (B' : bscan cr (firstn s (c :: l) ++ skipn s (c :: l)) = Some cr') by (rewrite firstn_skipn; exact B).
  rewrite bscan_app in B'.
  destruct C as [(-> & -> & ->)|[(-> & -> & ->)|(R1 & R2 & F & S)]].
  - cbn [Z.eqb Pos.eqb firstn skipn] in *. cbn in B'. destruct cr; [|discriminate].
    destruct (IH l Hl 0 false cr' ltac:(lia) B') as (k' & E1 & E2 & E3). cbn [b2z] in E1, E2.
    change (0 + 0) with 0 in *. destruct (fold1 0 l) as [o ln]. cbn [fst snd] in *.
    exists k'. cbn [app scan]. change (beqc LF CR) with false. change (beqc LF LF) with true. auto.
  - cbn [firstn skipn] in *. cbn in B'. destruct cr; [discriminate|].
    change (13 =? 10) with false. change (13 =? 13) with true. cbn [b2z] in *.
    destruct (IH l Hl k true cr' Hk B') as (k' & E1 & E2 & E3). cbn [b2z] in E1, E2.
    replace ((k + 0 + Z.of_nat 1) mod 256) with (k + 1) by (rewrite Z.mod_small; lia).
    destruct (fold1 (k + 1) l) as [o ln]. cbn [fst snd] in *.
    exists k'. cbn [app scan]. change (beqc CR CR) with true. auto.
  - replace (r =? 10) with false by lia. replace (r =? 13) with false by lia.
    assert (Hlen : length (firstn s (c :: l)) = s) by (rewrite firstn_length; lia).
    assert (Hn : firstn s (c :: l) <> []) by (intros E; rewrite E in Hlen; cbn in Hlen; lia).
    rewrite (bscan_plain _ Hn F) in B'. destruct cr; [discriminate|]. cbn [b2z] in *.
    replace ((k + 0 + Z.of_nat s) mod 256) with (k + Z.of_nat s) by (rewrite Z.mod_small; lia).
    replace ((Z.of_nat s + 1) mod 256) with (Z.of_nat s + 1) by (rewrite Z.mod_small; lia).
    destruct (maxLineLength <? k + Z.of_nat s) eqn:M; unfold maxLineLength in M.
    + destruct (IH _ Hl (1 + Z.of_nat s) false cr' ltac:(lia) B') as (k' & E1 & E2 & E3). cbn [b2z] in E1, E2.
      replace (Z.of_nat s + 1) with (1 + Z.of_nat s + 0) by lia.
      destruct (fold1 (1 + Z.of_nat s + 0) (skipn s (c :: l))) as [o ln]. cbn [fst snd] in *.
      exists k'. split; [|auto]. change (eol ++ firstn s (c :: l) ++ o) with (CR :: LF :: SP :: firstn s (c :: l) ++ o).
      cbn [scan]. change (beqc CR CR) with true. change (beqc LF CR) with false. change (beqc LF LF) with true.
      change (beqc SP CR) with false. change (beqc SP LF) with false. cbn iota.
      change (0 + 1 <=? 75) with true. cbn iota. change (0 + 1) with 1.
      rewrite scan_app, scan_plain by (auto; rewrite Hlen; lia). rewrite Hlen. exact E1.
    + destruct (IH _ Hl (k + Z.of_nat s) false cr' ltac:(lia) B') as (k' & E1 & E2 & E3). cbn [b2z] in E1, E2.
      replace (k + Z.of_nat s + 0) with (k + Z.of_nat s) in * by lia.
      destruct (fold1 (k + Z.of_nat s) (skipn s (c :: l))) as [o ln]. cbn [fst snd] in *.
      exists k'. split; [|auto].
      rewrite scan_app, scan_plain by (auto; rewrite Hlen; lia). rewrite Hlen. exact E1.
Qed.

Lemma folds_scan qs : forall k cr cr', 0 <= k <= 75 -> bscan cr (concat qs) = Some cr' ->
  exists k', scan k cr (fst (folds (k + b2z cr) qs)) = Some (k', cr') /\ 0 <= k' <= 75.
Proof.
  induction qs as [|q qs IH]; intros k cr cr' Hk B; cbn [folds concat fst] in *.
  { injection B as <-. exists k. auto. }
  rewrite bscan_app in B. destruct (bscan cr q) as [cr1|] eqn:B1; [|discriminate].
  destruct (fold1_scan q k cr cr1 Hk B1) as (k1 & E1 & E2 & E3).
  destruct (fold1 (k + b2z cr) q) as [o l]. cbn [fst snd] in *. subst l.
  destruct (IH k1 cr1 cr' E3 B) as (k' & E4 & E5).
  destruct (folds (k1 + b2z cr1) qs) as [o' l']. cbn [fst snd] in *.
  exists k'. rewrite scan_app, E1. auto.
Qed.

(** Two-byte induction for [phys_lines]. *)
Lemma phys_lines_nonnil s : phys_lines s <> [].
Proof.
  destruct s as [|a s]; [discriminate|]. cbn [phys_lines]. destruct s as [|b s]; [discriminate|].
  destruct (beqc a CR && beqc b LF); [discriminate|]. destruct (phys_lines (b :: s)); discriminate.
Qed.

Lemma phys_cons a b s : phys_lines (a :: b :: s) =
  if beqc a CR && beqc b LF then [] :: phys_lines s
  else match phys_lines (b :: s) with [] => [[a]] | l :: ls => (a :: l) :: ls end.
Proof. reflexivity. Qed.

Lemma two_ind (P : bytes -> Prop) : P [] -> (forall a, P [a]) ->
  (forall a b s, P s -> P (b :: s) -> P (a :: b :: s)) -> forall s, P s.
Proof.
  intros H0 H1 H2 s. enough (P s /\ forall a, P (a :: s)) by tauto.
  induction s as [|b s [IH1 IH2]]; [auto|]. split; [apply IH2|]. intros a. apply H2; auto.
Qed.

Lemma no_bare_bscan s : no_bare s -> bscan false s = Some false.
Proof.
  unfold no_bare. induction s as [|a|a b s IH1 IH2] using two_ind; intros H.
  - reflexivity.
  - cbn in H. inversion H as [|? ? [H1 H2] _]; subst. cbn [bscan].
    destruct (beqc a CR) eqn:E1; [apply beqc_eq in E1; subst; cbn in H1; tauto|].
    destruct (beqc a LF) eqn:E2; [apply beqc_eq in E2; subst; cbn in H2; tauto|]. reflexivity.
  - rewrite phys_cons in H. destruct (beqc a CR && beqc b LF) eqn:E.
    + apply andb_true_iff in E as [E1 E2]. cbn [bscan]. rewrite E1, E2.
      apply beqc_eq in E1, E2. subst. change (beqc LF CR) with false. cbn iota.
      inversion H; subst. auto.
    + destruct (phys_lines (b :: s)) as [|l ls] eqn:P; [destruct (phys_lines_nonnil _ P)|].
      inversion H as [|? ? [H1 H2] H3]; subst. cbn [In] in H1, H2.
      change (bscan false (a :: b :: s)) with
        (if beqc a CR then bscan true (b :: s) else if beqc a LF then None else bscan false (b :: s)).
      destruct (beqc a CR) eqn:E1; [apply beqc_eq in E1; subst; tauto|].
      destruct (beqc a LF) eqn:E2; [apply beqc_eq in E2; subst; tauto|].
      apply IH2. constructor; [tauto|exact H3].
Qed.

Lemma scan_phys s : forall k k', 0 <= k <= 75 -> scan k false s = Some (k', false) ->
  match phys_lines s with
  | [] => True
  | l :: ls => k + Z.of_nat (length l) <= 75
  end /\ match phys_lines s with [] => True | l :: ls => Forall (fun l => Z.of_nat (length l) <= 75) ls end.
Proof.
  induction s as [|a|a b s IH1 IH2] using two_ind; intros k k' Hk S.
  - cbn. split; [|auto]. lia.
  - cbn [scan phys_lines length] in *. destruct (beqc a CR); [discriminate|]. destruct (beqc a LF); [discriminate|].
    destruct (k + 1 <=? 75) eqn:E; [|discriminate]. split; [lia|auto].
  - rewrite phys_cons. destruct (beqc a CR && beqc b LF) eqn:E.
    + apply andb_true_iff in E as [E1 E2]. cbn [scan] in S. rewrite E1, E2 in S.
      apply beqc_eq in E1, E2. subst. change (beqc LF CR) with false in S. cbn iota in S.
      destruct (IH1 0 k' ltac:(lia) S) as [A B].
      split; [cbn; lia|]. destruct (phys_lines s); constructor; [exact A|exact B].
    + change (scan k false (a :: b :: s)) with
        (if beqc a CR then scan k true (b :: s) else if beqc a LF then None
         else if k + 1 <=? 75 then scan (k + 1) false (b :: s) else None) in S.
      destruct (beqc a CR) eqn:E1.
      { cbn [andb] in E. cbn [scan] in S. rewrite E in S. destruct (beqc b CR); discriminate. }
      destruct (beqc a LF); [discriminate|]. destruct (k + 1 <=? 75) eqn:E3; [|discriminate].
      destruct (IH2 (k + 1) k' ltac:(lia) S) as [A B].
      destruct (phys_lines (b :: s)) as [|l ls] eqn:P; [destruct (phys_lines_nonnil _ P)|].
      cbn [length]. split; [lia|exact B].
Qed.

Theorem folds_lines qs : no_bare (concat qs) ->
  Forall (fun l => Z.of_nat (length l) <= 75) (phys_lines (fst (folds 0 qs))).
Proof.
  intros H. apply no_bare_bscan in H.
  destruct (folds_scan qs 0 false false ltac:(lia) H) as (k & S & _). cbn [b2z] in S. change (0 + 0) with 0 in S.
  destruct (scan_phys _ 0 k ltac:(lia) S) as [A B].
  destruct (phys_lines _); constructor; [lia|exact B].
Qed.

(** ** Reversibility *)

Lemma unfold_not_cr c x : c <> CR -> unfold (c :: x) = c :: unfold x.
Proof.
  intros H. cbn [unfold]. destruct x as [|b [|d x]]; try reflexivity.
  apply beqc_neq in H. rewrite H. reflexivity.
Qed.
Lemma unfold_plain ch x : Forall (fun b => code b <> 13 /\ code b <> 10) ch -> unfold (ch ++ x) = ch ++ unfold x.
Proof.
  induction 1 as [|c ch [H1 _] _ IH]; [reflexivity|]. cbn [app].
  rewrite unfold_not_cr; [congruence|]. intros ->. apply H1. reflexivity.
Qed.
Lemma unfold_eol x : unfold (eol ++ x) = unfold x.
Proof. reflexivity. Qed.

(** [unfold] at a CR that starts no fold. *)
Lemma unfold_cr_other x : (forall y, x <> LF :: SP :: y) -> unfold (CR :: x) = CR :: unfold x.
Proof.
  intros H. cbn [unfold]. destruct x as [|b [|d x]]; try reflexivity.
  change (beqc CR CR) with true. cbn [andb].
  destruct (beqc b LF) eqn:E1; [|reflexivity]. destruct (beqc d SP) eqn:E2; [|reflexivity].
  apply beqc_eq in E1, E2. subst. destruct (H x eq_refl).
Qed.

(** The context that matters for where a fold may be inserted. *)
Inductive ctx := C0 | CCr | CCrlf.
Definition nextc (st : ctx) (c : byte) : ctx :=
  if beqc c CR then CCr else match st with CCr => if beqc c LF then CCrlf else C0 | _ => C0 end.
Definition runc (st : ctx) (s : bytes) : ctx := fold_left nextc s st.

(** [o] is [s] with folds inserted, never after CR LF and never before LF. *)
Inductive ins : ctx -> bytes -> bytes -> Prop :=
| ins_nil st : ins st [] []
| ins_cons st c s o : ins (nextc st c) s o -> ins st (c :: s) (c :: o)
| ins_fold st c s o : st <> CCrlf -> c <> LF -> ins (nextc st c) s o -> ins st (c :: s) (eol ++ c :: o).

Lemma ins_app st a oa : ins st a oa -> forall b ob, ins (runc st a) b ob -> ins st (a ++ b) (oa ++ ob).
Proof.
  induction 1 as [st|st c s o H IH|st c s o H1 H2 H IH]; intros b ob Hb; cbn [app]; [exact Hb| |].
  - apply ins_cons, IH, Hb.
  - change ((eol ++ c :: o) ++ ob) with (eol ++ c :: (o ++ ob)). apply ins_fold; auto.
Qed.
Lemma ins_id a : forall st, ins st a a.
Proof. induction a; intros; constructor; auto. Qed.

Definition wrap (st : ctx) (s : bytes) : bytes :=
  match st with C0 => s | CCr => CR :: s | CCrlf => CR :: LF :: s end.

Lemma ins_unfold st s o : ins st s o -> unfold (wrap st o) = unfold (wrap st s).
Proof.
  induction 1 as [st|st c s o H IH|st c s o H1 H2 H IH]; [reflexivity| |].
  - unfold nextc in IH. destruct (beqc c CR) eqn:E.
    + apply beqc_eq in E. subst c. cbn [wrap] in IH. destruct st; cbn [wrap].
      * exact IH.
      * rewrite (unfold_cr_other (CR :: o)), (unfold_cr_other (CR :: s)) by (intros; discriminate). congruence.
      * rewrite !(unfold_cr_other (LF :: _)) by (intros; discriminate).
        rewrite !(unfold_not_cr LF) by discriminate. rewrite IH. reflexivity.
    + apply beqc_neq in E. destruct st; cbn [wrap] in *.
      * rewrite !unfold_not_cr by exact E. congruence.
      * destruct (beqc c LF) eqn:E'.
        { apply beqc_eq in E'. subst c. exact IH. }
        apply beqc_neq in E'. cbn [wrap] in IH.
        rewrite !unfold_cr_other by (intros; congruence). rewrite !unfold_not_cr by exact E. congruence.
      * destruct (beqc c SP) eqn:E'.
        { apply beqc_eq in E'. subst c. exact IH. }
        apply beqc_neq in E'.
        rewrite !unfold_cr_other by (intros; congruence). rewrite !(unfold_not_cr LF) by discriminate.
        rewrite !unfold_not_cr by exact E. congruence.
  - unfold nextc in IH. destruct st; [| |congruence]; cbn [wrap].
    + rewrite unfold_eol. destruct (beqc c CR) eqn:E.
      * apply beqc_eq in E. subst c. exact IH.
      * apply beqc_neq in E. cbn [wrap] in IH. rewrite !unfold_not_cr by exact E. congruence.
    + rewrite (unfold_cr_other (eol ++ c :: o)) by (intros; discriminate).
      rewrite (unfold_cr_other (c :: s)) by (intros; congruence). rewrite unfold_eol.
      destruct (beqc c CR) eqn:E.
      * apply beqc_eq in E. subst c. cbn [wrap] in IH. congruence.
      * apply beqc_neq in E. replace (beqc c LF) with false in IH by (symmetry; apply beqc_neq; exact H2).
        cbn [wrap] in IH. rewrite !unfold_not_cr by exact E. congruence.
Qed.

Lemma runc_plain ch : ch <> [] -> Forall (fun b => code b <> 13 /\ code b <> 10) ch -> forall st, runc st ch = C0.
Proof.
  intros Hn H. induction H as [|c ch [H1 H2] H IH]; [congruence|]. intros st.
  destruct (plain_byte c H1 H2) as [E1 E2].
  change (runc st (c :: ch)) with (runc (nextc st c) ch).
  assert (nextc st c = C0) as -> by (unfold nextc; rewrite E1, E2; destruct st; reflexivity).
  destruct ch; [reflexivity|]. apply IH. discriminate.
Qed.

Lemma runc_app a b st : runc st (a ++ b) = runc (runc st a) b.
Proof. apply fold_left_app. Qed.

Lemma fold1_ins l : forall st line, (st = CCrlf -> line = 0) ->
  ins st l (fst (fold1 line l)) /\ (runc st l = CCrlf -> snd (fold1 line l) = 0).
Proof.
  induction l as [|c l IH] using rune_ind; intros st line Hst.
  { split; [constructor|]. cbn. exact Hst. }
  rewrite fold1_cons.
  pose proof (decode_rune_width c l) as W. pose proof (rune_cases c l) as C.
  destruct (decode_rune (c :: l)) as [r s]. destruct W as [W1 W2]. cbv zeta.
  assert (Hl : (length (skipn s (c :: l)) < length (c :: l))%nat) by (rewrite skipn_length; cbn [length] in *; lia).
  destruct C as [(-> & -> & ->)|[(-> & -> & ->)|(R1 & R2 & F & S)]].
  - cbn [Z.eqb Pos.eqb firstn skipn] in *.
    destruct (IH l Hl (nextc st LF) 0 (fun _ => eq_refl)) as [I1 I2].
    destruct (fold1 0 l) as [o ln]. cbn [fst snd app] in *. split; [apply ins_cons; exact I1|exact I2].
  - cbn [firstn skipn] in *. change (13 =? 10) with false. change (13 =? 13) with true. cbn iota.
    destruct (IH l Hl (nextc st CR) ((line + Z.of_nat 1) mod 256)) as [I1 I2]; [intros E; discriminate E|].
    destruct (fold1 _ l) as [o ln]. cbn [fst snd app] in *. split; [apply ins_cons; exact I1|exact I2].
  - replace (r =? 10) with false by lia. replace (r =? 13) with false by lia.
    assert (Hlen : length (firstn s (c :: l)) = s) by (rewrite firstn_length; lia).
    assert (Hn : firstn s (c :: l) <> []) by (intros E; rewrite E in Hlen; cbn in Hlen; lia).
    assert (A : forall ln, ins st (c :: l) (firstn s (c :: l) ++ fst (fold1 ln (skipn s (c :: l)))) /\
                (runc st (c :: l) = CCrlf -> snd (fold1 ln (skipn s (c :: l))) = 0)).
    { intros ln. destruct (IH _ Hl (runc st (firstn s (c :: l))) ln) as [I1 I2].
      { rewrite (runc_plain _ Hn F). discriminate. }
      split.
      - rewrite <- (firstn_skipn s (c :: l)) at 1. apply ins_app; [apply ins_id|exact I1].
      - intros E. apply I2. rewrite <- runc_app, firstn_skipn. exact E. }
    destruct (maxLineLength <? (line + Z.of_nat s) mod 256) eqn:M; unfold maxLineLength in M.
    + specialize (A ((Z.of_nat s + 1) mod 256)). destruct A as [I1 I2].
      destruct (fold1 _ (skipn s (c :: l))) as [o ln]. cbn [fst snd] in *. split; [|exact I2].
      destruct s as [|s]; [lia|]. cbn [firstn app] in *. inversion F as [|? ? [F1 F2] _]; subst.
      inversion I1; subst; [|destruct F1; reflexivity].
      apply ins_fold; [|intros ->; apply F2; reflexivity|assumption].
      intros E. specialize (Hst E). subst line. rewrite Z.mod_small in M; lia.
    + specialize (A ((line + Z.of_nat s) mod 256)). destruct A as [I1 I2].
      destruct (fold1 _ (skipn s (c :: l))) as [o ln]. cbn [fst snd] in *. auto.
Qed.

Lemma folds_ins qs : forall st line, (st = CCrlf -> line = 0) -> ins st (concat qs) (fst (folds line qs)).
Proof.
  induction qs as [|q qs IH]; intros st line H; cbn [folds concat fst]; [constructor|].
  destruct (fold1_ins q st line H) as [I1 I2]. destruct (fold1 line q) as [o l]. cbn [fst snd] in *.
  specialize (IH (runc st q) l I2). destruct (folds l qs) as [o' l']. cbn [fst] in *.
  apply ins_app; assumption.
Qed.

Theorem folds_unfold qs : unfold (fst (folds 0 qs)) = unfold (concat qs).
Proof. apply (ins_unfold C0), folds_ins. discriminate. Qed.

(** ** Characters *)

Lemma fold1_rune line r l : valid_rune r = true ->
  let s := length (encode_rune r) in
  fold1 line (encode_rune r ++ l) =
  let line1 := (line + Z.of_nat s) mod 256 in
  if r =? 10 then let '(o, l) := fold1 0 l in (encode_rune r ++ o, l)
  else if r =? 13 then let '(o, l) := fold1 line1 l in (encode_rune r ++ o, l)
  else if maxLineLength <? line1 then
    let '(o, l) := fold1 ((Z.of_nat s + 1) mod 256) l in (eol ++ encode_rune r ++ o, l)
  else let '(o, l) := fold1 line1 l in (encode_rune r ++ o, l).
Proof.
  intros H. cbv zeta. pose proof (decode_encode_rune r l H) as D.
  destruct (encode_rune r) as [|c t] eqn:E; [destruct (encode_rune_nonnil _ E)|].
  cbn [app] in *. rewrite fold1_cons, D. cbv zeta.
  change (c :: t ++ l) with ((c :: t) ++ l). rewrite skipn_length_app, firstn_length_app. reflexivity.
Qed.

Lemma eol_utf8 : utf8 eol.
Proof. apply utf8_ascii. repeat constructor. Qed.

Lemma fold1_utf8 s : utf8 s -> forall line, utf8 (fst (fold1 line s)).
Proof.
  intros (rs & H & ->). induction H as [|r rs Hr _ IH]; intros line; [apply utf8_nil|].
  cbn [map concat]. rewrite fold1_rune by exact Hr. cbv zeta.
  pose proof (utf8_rune r Hr). pose proof eol_utf8.
  repeat match goal with |- context [if ?b then _ else _] => destruct b end;
    match goal with |- context [fold1 ?k ?x] => specialize (IH k); destruct (fold1 k x) end;
    cbn [fst] in *; repeat apply utf8_app; assumption.
Qed.

Lemma folds_utf8 qs : Forall utf8 qs -> forall line, utf8 (fst (folds line qs)).
Proof.
  induction 1 as [|q qs Hq _ IH]; intros line; cbn [folds fst]; [apply utf8_nil|].
  pose proof (fold1_utf8 q Hq line). destruct (fold1 line q) as [o l]. cbn [fst] in *.
  specialize (IH l). destruct (folds l qs). cbn [fst] in *. apply utf8_app; assumption.
Qed.

(** The lines of valid UTF-8 text are valid UTF-8. *)
Lemma utf8_tail r s : utf8 (encode_rune r ++ s) -> valid_rune r = true -> utf8 s.
Proof.
  intros (rs & H & E) Hr. assert (R : runes (encode_rune r ++ s) = rs).
  { rewrite E. pose proof (runes_concat rs [] H) as R. rewrite !app_nil_r in R. exact R. }
  rewrite runes_encode_app in R by exact Hr. subst rs. inversion H; subst.
  cbn [map concat] in E. apply app_inv_head in E. exists (runes s). auto.
Qed.

Lemma phys_prefix ch s : Forall (fun b => code b <> 13) ch ->
  phys_lines (ch ++ s) = match phys_lines s with [] => [ch] | l :: ls => (ch ++ l) :: ls end.
Proof.
  induction 1 as [|c ch H _ IH]; cbn [app].
  - destruct (phys_lines s) eqn:E; [destruct (phys_lines_nonnil _ E)|reflexivity].
  - destruct (ch ++ s) as [|b t] eqn:E.
    + apply app_eq_nil in E as [-> ->]. reflexivity.
    + rewrite phys_cons. replace (beqc c CR) with false by (symmetry; apply beqc_neq; intros ->; apply H; reflexivity).
      cbn [andb]. rewrite IH. destruct (phys_lines s); reflexivity.
Qed.

Lemma utf8_lines s : utf8 s -> Forall utf8 (phys_lines s).
Proof.
  intros (rs & H & ->). remember (length rs) as n eqn:En. revert rs H En.
  induction n as [n IH] using lt_wf_ind. intros rs H ->.
  destruct H as [|r rs Hr H]; [repeat constructor; apply utf8_nil|]. cbn [map concat].
  destruct (Z.eq_dec r 13) as [->|N].
  - rewrite encode_rune_low by lia. change (chr 13) with CR. cbn [app].
    destruct H as [|r' rs Hr' H]; [repeat constructor; apply (utf8_ascii [CR]); repeat constructor|].
    cbn [map concat].
    destruct (Z.eq_dec r' 10) as [->|N'].
    + rewrite encode_rune_low by lia. change (chr 10) with LF. cbn [app]. rewrite phys_cons.
      change (beqc CR CR && beqc LF LF) with true. cbn iota. constructor; [apply utf8_nil|].
      apply (IH (length rs)); [cbn; lia|exact H|reflexivity].
    + destruct (encode_rune r') as [|b t] eqn:E; [destruct (encode_rune_nonnil _ E)|].
      cbn [app]. rewrite phys_cons.
      assert (beqc b LF = false) as ->.
      { apply beqc_neq. intros ->. destruct (encode_rune_head_low _ _ _ Hr' E) as [-> _]; [reflexivity|].
        apply N'. reflexivity. }
      rewrite andb_false_r.
      assert (Forall utf8 (phys_lines (b :: t ++ concat (map encode_rune rs)))) as IH'.
      { change (b :: t ++ concat (map encode_rune rs)) with ((b :: t) ++ concat (map encode_rune rs)). rewrite <- E.
        change (encode_rune r' ++ concat (map encode_rune rs)) with (concat (map encode_rune (r' :: rs))).
        apply (IH (length (r' :: rs))); [cbn; lia|constructor; assumption|reflexivity]. }
      destruct (phys_lines _) as [|l ls]; [repeat constructor; apply (utf8_ascii [CR]); repeat constructor|].
      inversion IH'; subst. constructor; [|assumption].
      change (CR :: l) with ([CR] ++ l). apply utf8_app; [|assumption].
      apply (utf8_ascii [CR]). repeat constructor.
  - rewrite phys_prefix.
    2: { destruct (Z_lt_dec r 128) as [L|L].
         - assert (0 <= r) by (unfold valid_rune, in_range in Hr; lia).
           rewrite encode_rune_low by lia. repeat constructor. rewrite code_chr; lia.
         - eapply Forall_impl; [|apply encode_rune_high; lia]. cbn. lia. }
    pose proof (IH (length rs) ltac:(cbn; lia) rs H eq_refl) as IH'.
    pose proof (utf8_rune r Hr).
    destruct (phys_lines _) as [|l ls]; [repeat constructor; assumption|].
    inversion IH'; subst. constructor; [apply utf8_app|]; assumption.
Qed.

(** ** Write boundaries *)
Lemma fold1_app a : utf8 a -> forall line b,
  fold1 line (a ++ b) = let '(o, l) := fold1 line a in let '(o', l') := fold1 l b in (o ++ o', l').
Proof.
  intros (rs & H & ->). induction H as [|r rs Hr _ IH]; intros line b.
  - cbn [map concat app]. rewrite fold1_nil. destruct (fold1 line b). reflexivity.
  - cbn [map concat]. rewrite <- app_assoc, !fold1_rune by exact Hr. cbv zeta.
    repeat match goal with |- context [if ?c then _ else _] => destruct c end; rewrite !IH;
      match goal with |- context [fold1 ?k (concat ?x)] => destruct (fold1 k (concat x)) as [o1 l1] end;
      destruct (fold1 l1 b) as [o2 l2]; rewrite ?app_assoc; reflexivity.
Qed.

Lemma folds_concat qs : Forall utf8 qs -> forall line, folds line qs = fold1 line (concat qs).
Proof.
  induction 1 as [|q qs Hq _ IH]; intros line; cbn [folds concat]; [reflexivity|].
  rewrite fold1_app by exact Hq. destruct (fold1 line q) as [o l]. rewrite IH. reflexivity.
Qed.

(** ** Failing writers *)
Section Fail.
Context {W E : Type} (wr : W -> bytes -> W * option E).

(** [new] are the calls made; the ok writer would have made the calls [okn]. *)
Definition simulates (new : list (bytes * option E)) (okn : list bytes) (e : option E) : Prop :=
  match e with
  | None => map fst new = okn /\ Forall (fun x => snd x = None) new
  | Some err => exists init q rest, new = init ++ [(q, Some err)] /\ Forall (fun x => snd x = None) init /\
                                    okn = map fst new ++ rest
  end.

Lemma simulates_cons q new okn e : simulates new okn e -> simulates ((q, None) :: new) (q :: okn) e.
Proof.
  destruct e; cbn.
  - intros (init & q' & rest & -> & H & ->). exists ((q, None) :: init), q', rest. cbn. auto.
  - intros [<- H]. auto.
Qed.
Lemma simulates_fail q err rest : simulates [(q, Some err)] (q :: rest) (Some err).
Proof. exists [], q, rest. auto. Qed.

Lemma folder_loop_sim : forall fuel line pre rest w log okw,
  let '(w', e, l) := folder_loop (logging wr) fuel line pre rest (w, log) in
  let '(ok', _, l') := folder_loop ok_writer fuel line pre rest okw in
  exists new okn, snd w' = log ++ new /\ ok' = okw ++ okn /\ simulates new okn e /\ (e = None -> l = l').
Proof.
  induction fuel as [|fuel IH]; intros line pre rest w log okw.
  { cbn. exists [], []. rewrite !app_nil_r. cbn. auto. }
  cbn [folder_loop]. destruct rest as [|c l].
  - destruct pre as [|b pre].
    + exists [], []. rewrite !app_nil_r. cbn. auto.
    + unfold logging, ok_writer. cbn [fst snd]. destruct (wr w (b :: pre)) as [w' [e|]]; cbn [fst snd].
      * exists [(b :: pre, Some e)], [b :: pre]. split; [reflexivity|split; [reflexivity|split; [apply simulates_fail|discriminate]]].
      * exists [(b :: pre, None)], [b :: pre]. repeat split; auto.
  - destruct (decode_rune (c :: l)) as [r s].
    destruct (r =? 10); [apply IH|]. destruct (r =? 13); [apply IH|].
    destruct (maxLineLength <? _); [|apply IH].
    set (ch := firstn s (c :: l)). set (rest' := skipn s (c :: l)). set (ln := (Z.of_nat s + 1) mod 256).
    assert (K : forall w log okw,
      let '(w', e, l0) :=
        let '(w2, e2) := logging wr (w, log) eol in
        match e2 with
        | Some _ => (w2, e2, (line + Z.of_nat s) mod 256)
        | None => folder_loop (logging wr) fuel ln ch rest' w2
        end in
      let '(ok', _, l') := folder_loop ok_writer fuel ln ch rest' (okw ++ [eol]) in
      exists new okn, snd w' = log ++ new /\ ok' = okw ++ okn /\ simulates new okn e /\ (e = None -> l0 = l')).
    { clear w log okw. intros w log okw. unfold logging at 1. cbn [fst snd].
      destruct (wr w eol) as [w' [e|]]; cbn [fst snd].
      - destruct (folder_loop ok_writer fuel ln ch rest' (okw ++ [eol])) as [[ok' x] l'] eqn:F.
        specialize (IH ln ch rest' w log (okw ++ [eol])). rewrite F in IH.
        destruct (folder_loop (logging wr) fuel ln ch rest' (w, log)) as [[? ?] ?].
        destruct IH as (? & okn & _ & -> & _). rewrite <- app_assoc.
        exists [(eol, Some e)], (eol :: okn). split; [reflexivity|split; [reflexivity|split; [apply simulates_fail|discriminate]]].
      - specialize (IH ln ch rest' w' (log ++ [(eol, None)]) (okw ++ [eol])).
        destruct (folder_loop (logging wr) fuel ln ch rest' (w', log ++ [(eol, None)])) as [[w2 e] l0].
        destruct (folder_loop ok_writer fuel ln ch rest' (okw ++ [eol])) as [[ok' x] l'].
        destruct IH as (new & okn & E1 & -> & E3 & E4). rewrite <- !app_assoc in *. cbn [app] in *.
        exists ((eol, None) :: new), (eol :: okn). split; [exact E1|split; [reflexivity|split; [apply simulates_cons, E3|exact E4]]]. }
    destruct pre as [|b pre].
    + specialize (K w log okw). unfold ok_writer at 1. cbn iota. exact K.
    + unfold logging at 1. unfold ok_writer at 1 2. cbn [fst snd].
      destruct (wr w (b :: pre)) as [w' [e|]]; cbn [fst snd].
      * specialize (K w log (okw ++ [b :: pre])).
        destruct (let '(w2, e2) := logging wr (w, log) eol in _) as [[? ?] ?].
        destruct (folder_loop ok_writer fuel ln ch rest' ((okw ++ [b :: pre]) ++ [eol])) as [[ok' x] l'].
        destruct K as (? & okn & _ & -> & _). rewrite <- app_assoc.
        exists [(b :: pre, Some e)], ((b :: pre) :: okn). split; [reflexivity|split; [reflexivity|split; [apply simulates_fail|discriminate]]].
      * specialize (K w' (log ++ [(b :: pre, None)]) (okw ++ [b :: pre])).
        destruct (let '(w2, e2) := logging wr (w', _) eol in _) as [[w2 e] l0].
        destruct (folder_loop ok_writer fuel ln ch rest' ((okw ++ [b :: pre]) ++ [eol])) as [[ok' x] l'].
        destruct K as (new & okn & E1 & -> & E3 & E4). rewrite <- !app_assoc in *. cbn [app] in *.
        exists ((b :: pre, None) :: new), ((b :: pre) :: okn). split; [exact E1|split; [reflexivity|split; [apply simulates_cons, E3|exact E4]]].
Qed.

Lemma simulates_app new okn new' okn' e : simulates new okn None -> simulates new' okn' e ->
  simulates (new ++ new') (okn ++ okn') e.
Proof.
  intros [<- H]. induction H as [|[q x] new Hx _ IH]; [auto|]. intros S. cbn in Hx. subst x.
  cbn [app map fst]. apply simulates_cons, IH, S.
Qed.

Lemma folder_writes_sim : forall qs line w log okw,
  let '(f, w') := folder_writes (logging wr) (Folder None line, (w, log)) qs in
  let '(_, ok') := folder_writes ok_writer (Folder None line, okw) qs in
  exists new okn, snd w' = log ++ new /\ ok' = okw ++ okn /\ simulates new okn (f_err f).
Proof.
  induction qs as [|q qs IH]; intros line w log okw.
  { cbn. exists [], []. rewrite !app_nil_r. auto. }
  unfold folder_writes. cbn [fold_left]. fold (folder_writes (logging wr)). fold (folder_writes ok_writer).
  cbn [folder_write f_err f_line].
  pose proof (folder_loop_sim (S (length q)) line [] q w log okw) as S.
  destruct (folder_loop (logging wr) (Datatypes.S (length q)) line [] q (w, log)) as [[w1 e] l].
  destruct (folder_loop_ok (Datatypes.S (length q)) line [] q okw ltac:(lia)) as (n0 & E0 & _).
  rewrite E0 in *. destruct S as (new & okn & E1 & E2 & E3 & E4).
  destruct e as [err|].
  - assert (F : forall qs st, f_err (fst st) <> None -> fold_left (folder_write (logging wr)) qs st = st).
    { clear. induction qs as [|q qs IH]; intros [f w] H; [reflexivity|]. cbn [fold_left].
      cbn [folder_write]. cbn in H. destruct (f_err f) eqn:Ef; [|congruence]. apply IH. cbn. congruence. }
    rewrite F by (cbn; discriminate).
    destruct (folder_writes_ok qs (snd (fold1 line q)) (okw ++ n0)) as (new2 & Ew & _).
    unfold folder_writes in Ew. rewrite Ew.
    exists new, (okn ++ new2). rewrite E2, <- app_assoc. repeat split; auto. cbn [f_err].
    destruct E3 as (init & q' & rest & -> & H & ->). exists init, q', (rest ++ new2). rewrite app_assoc. auto.
  - specialize (IH l (fst w1) (snd w1) (okw ++ n0)).
    rewrite <- surjective_pairing in IH. rewrite <- (E4 eq_refl).
    unfold folder_writes in IH.
    destruct (fold_left (folder_write (logging wr)) qs (Folder None l, w1)) as [f w'].
    destruct (fold_left (folder_write ok_writer) qs (Folder None l, okw ++ n0)) as [f2 ok2].
    destruct IH as (new2 & okn2 & F1 & F2 & F3).
    exists (new ++ new2), (okn ++ okn2). rewrite F1, E1, F2, E2, !app_assoc. repeat split; auto.
    apply simulates_app; assumption.
Qed.
End Fail.
