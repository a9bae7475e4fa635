(** Folding happens as late as possible. *)
From Coq Require Import String Ascii ZArith Bool List Lia.
From Verif Require Import Base Lib Utf8 Utf8Proofs Folder SpecLines FolderProofs GoTime Types Params Props Sections Codec EncodeProofs SpecFull.
Import ListNotations.
Local Open Scope Z_scope.

(** ** How many folds *)

Lemma fold1_folds s : forall line, 0 <= line -> exists n : nat,
  length (fst (fold1 line s)) = (length s + 3 * n)%nat /\ 0 <= snd (fold1 line s) /\
  71 * Z.of_nat n + snd (fold1 line s) <= Z.of_nat (length s) + line.
Proof.
  induction s as [|c l IH] using rune_ind; intros line L.
  - exists 0%nat. rewrite fold1_nil. cbn. lia.
  - rewrite fold1_cons. pose proof (decode_rune_width c l) as W.
    destruct (decode_rune (c :: l)) as [r w] eqn:D. destruct W as [W1 W2]. cbv zeta.
    assert (E : length (c :: l) = (w + length (skipn w (c :: l)))%nat) by (rewrite skipn_length; lia).
    assert (F : length (firstn w (c :: l)) = w) by (rewrite firstn_length; lia).
    pose proof (Z.mod_le (line + Z.of_nat w) 256 ltac:(lia) ltac:(lia)) as M.
    pose proof (Z.mod_pos_bound (line + Z.of_nat w) 256 ltac:(lia)) as M'.
    pose proof (Z.mod_small (Z.of_nat w + 1) 256 ltac:(lia)) as M''. rewrite M''.
    destruct (r =? 10); [|destruct (r =? 13); [|destruct (maxLineLength <? _) eqn:T]].
    all: match goal with |- context [fold1 ?k ?x] => destruct (IH x ltac:(lia) k ltac:(lia)) as (n & A & B & C); destruct (fold1 k x) end;
      cbn [fst snd] in *.
    1, 2, 4: exists n; rewrite app_length, F, E; lia.
    exists (Datatypes.S n). rewrite !app_length, F, E. change (length eol) with 3%nat. unfold maxLineLength in T. lia.
Qed.

Lemma folds_folds qs : forall line, 0 <= line -> exists n : nat,
  length (fst (folds line qs)) = (length (concat qs) + 3 * n)%nat /\ 0 <= snd (folds line qs) /\
  71 * Z.of_nat n + snd (folds line qs) <= Z.of_nat (length (concat qs)) + line.
Proof.
  induction qs as [|q qs IH]; intros line L; cbn [folds concat].
  - exists 0%nat. cbn. lia.
  - destruct (fold1_folds q line L) as (n & A & B & C). destruct (fold1 line q) as [o k]. cbn [fst snd] in *.
    destruct (IH k B) as (m & A' & B' & C'). destruct (folds k qs) as [o' k']. cbn [fst snd] in *.
    exists (n + m)%nat. rewrite !app_length. lia.
Qed.

Lemma encode_overhead {env : Env} cal e out : Encode ok_writer [] cal = EncDone e out ->
  exists n : nat, length (concat out) = (length (content cal) + 3 * n)%nat /\ (71 * n <= length (content cal))%nat.
Proof.
  intros H. apply encode_ok_out in H as [_ ->].
  destruct (folds_folds (pieces (sec_encode cal)) 0 ltac:(lia)) as (n & A & B & C).
  exists n. unfold content. split; [exact A|lia].
Qed.

(** ** Where the folds are *)

Lemma fill_cons m c s p ps : fill m s (p :: ps) -> fill (length c + m) (c ++ s) ((c ++ p) :: ps).
Proof.
  intros H. inversion H; subst.
  - apply fill_last. rewrite app_length. lia.
  - rewrite app_assoc. apply fill_more; [assumption|rewrite app_length; lia|rewrite app_length; lia|assumption].
Qed.

Lemma fill_nonnil m s ps : fill m s ps -> exists p qs, ps = p :: qs.
Proof. intros H. inversion H; subst; eauto. Qed.

Definition joined (ps : list bytes) : bytes :=
  match ps with [] => [] | p :: qs => p ++ concat (map (app eol) qs) end.

Lemma encode_rune_len r : (1 <= length (encode_rune r) <= 4)%nat.
Proof. unfold encode_rune. repeat match goal with |- context [if ?b then _ else _] => destruct b end; cbn [length]; lia. Qed.

Lemma fold1_fill rs rest : Forall (fun r => valid_rune r = true /\ r <> 10 /\ r <> 13) rs -> forall line, 0 <= line <= 75 ->
  exists ps k, fill (Z.to_nat (75 - line)) (concat (map encode_rune rs)) ps /\ 0 <= k <= 75 /\
    fold1 line (concat (map encode_rune rs) ++ rest) = (joined ps ++ fst (fold1 k rest), snd (fold1 k rest)).
Proof.
  induction 1 as [|r rs [V [N1 N2]] _ IH]; intros line L.
  - exists [[]], line. cbn [map concat app]. split; [apply fill_last; cbn; lia|]. split; [exact L|].
    destruct (fold1 line rest). reflexivity.
  - cbn [map concat]. rewrite <- app_assoc, fold1_rune by exact V. cbv zeta. pose proof (encode_rune_len r) as W.
    rewrite Z.mod_small by lia. rewrite (Z.mod_small (_ + 1)) by lia.
    rewrite (proj2 (Z.eqb_neq _ _) N1), (proj2 (Z.eqb_neq _ _) N2).
    destruct (maxLineLength <? _) eqn:T; unfold maxLineLength in T.
    + apply Z.ltb_lt in T.
      destruct (IH (Z.of_nat (length (encode_rune r)) + 1) ltac:(lia)) as (ps & k & F & K & ->).
      destruct (fill_nonnil _ _ _ F) as (p & qs & ->).
      exists ([] :: (encode_rune r ++ p) :: qs), k. split; [|split; [exact K|]].
      * apply (fill_more _ []); [exact V|cbn; lia|cbn [length]; lia|].
        apply (fill_cons _ (encode_rune r)) in F.
        replace (length (encode_rune r) + _)%nat with 74%nat in F by lia. exact F.
      * cbn [joined app map concat]. rewrite <- ?app_assoc. reflexivity.
    + apply Z.ltb_ge in T.
      destruct (IH (line + Z.of_nat (length (encode_rune r))) ltac:(lia)) as (ps & k & F & K & ->).
      destruct (fill_nonnil _ _ _ F) as (p & qs & ->).
      exists ((encode_rune r ++ p) :: qs), k. split; [|split; [exact K|]].
      * apply (fill_cons _ (encode_rune r)) in F.
        replace (length (encode_rune r) + _)%nat with (Z.to_nat (75 - line)) in F by lia. exact F.
      * cbn [joined]. rewrite <- ?app_assoc. reflexivity.
Qed.

(** ** Lines *)

Definition clean (l : bytes) : Prop := ~ In CR l /\ ~ In LF l.

Lemma clean_codes l : clean l -> Forall (fun b => code b <> 13 /\ code b <> 10) l.
Proof.
  intros [A B]. apply Forall_forall. intros b I. split; intros C.
  - apply A. replace CR with b; [exact I|]. apply code_inj; rewrite C; reflexivity.
  - apply B. replace LF with b; [exact I|]. apply code_inj; rewrite C; reflexivity.
Qed.

(** A text is its lines with CR LF between. *)
Fixpoint join (ls : list bytes) : bytes :=
  match ls with [] => [] | l :: ls' => match ls' with [] => l | _ => l ++ CR :: LF :: join ls' end end.

Lemma join_cons l l' ls : join (l :: l' :: ls) = l ++ CR :: LF :: join (l' :: ls).
Proof. reflexivity. Qed.

Lemma join_phys s : join (phys_lines s) = s.
Proof.
  induction s as [|a|a b s IH1 IH2] using two_ind; [reflexivity|reflexivity|].
  rewrite phys_cons. destruct (beqc a CR && beqc b LF) eqn:E.
  - apply andb_true_iff in E as [A B]. apply beqc_eq in A, B. subst.
    destruct (phys_lines s) eqn:P; [destruct (phys_lines_nonnil _ P)|]. rewrite join_cons, IH1. reflexivity.
  - destruct (phys_lines (b :: s)) as [|l ls] eqn:P; [destruct (phys_lines_nonnil _ P)|].
    destruct ls; cbn [join] in *; rewrite <- IH2; reflexivity.
Qed.

Lemma phys_clean l : clean l -> phys_lines l = [l].
Proof.
  intros C. apply clean_codes in C. rewrite <- (app_nil_r l) at 1. rewrite phys_prefix.
  - cbn. rewrite app_nil_r. reflexivity.
  - eapply Forall_impl; [|exact C]. cbn. tauto.
Qed.

Lemma phys_clean_app l s : clean l -> phys_lines (l ++ CR :: LF :: s) = l :: phys_lines s.
Proof.
  intros C. apply clean_codes in C. rewrite phys_prefix.
  - rewrite phys_cons. change (beqc CR CR && beqc LF LF) with true. cbn iota. rewrite app_nil_r. reflexivity.
  - eapply Forall_impl; [|exact C]. cbn. tauto.
Qed.

Lemma fill_clean m s ps : fill m s ps -> clean s -> Forall clean ps.
Proof.
  induction 1 as [|m p r s ps V A B F IH]; intros [C1 C2].
  - repeat constructor; assumption.
  - rewrite in_app_iff in C1, C2. constructor; [split; tauto|]. apply IH. split; tauto.
Qed.

Lemma phys_joined ps s : Forall clean ps -> ps <> [] ->
  phys_lines (joined ps ++ CR :: LF :: s) = stand ps ++ phys_lines s /\ phys_lines (joined ps) = stand ps.
Proof.
  intros C N. destruct ps as [|p qs]; [destruct (N eq_refl)|]. clear N. apply Forall_cons_iff in C as [C1 C2].
  cbn [joined stand]. revert p C1. induction C2 as [|q qs Q _ IH]; intros p C1.
  - cbn [map concat]. rewrite app_nil_r. split; [apply phys_clean_app|apply phys_clean]; exact C1.
  - assert (C3 : clean (SP :: q)) by (split; intros [X|X]; try discriminate X; revert X; apply Q).
    destruct (IH (SP :: q) C3) as [A B]. cbn [map concat]. change (eol ++ q) with (CR :: LF :: SP :: q).
    cbn [app] in *. rewrite <- !app_assoc in *. cbn [app] in *. rewrite <- ?app_assoc in *. cbn [app] in *.
    split; rewrite phys_clean_app by exact C1; [rewrite A|rewrite B]; reflexivity.
Qed.

Lemma clean_runes l : utf8 l -> clean l -> exists rs, l = concat (map encode_rune rs) /\
  Forall (fun r => valid_rune r = true /\ r <> 10 /\ r <> 13) rs.
Proof.
  intros (rs & H & ->) [A B]. exists rs. split; [reflexivity|]. apply Forall_forall. intros r I.
  split; [exact (proj1 (Forall_forall _ _) H r I)|].
  split; intros ->; [apply B|apply A]; apply in_concat; exists (encode_rune 10) + exists (encode_rune 13);
    (split; [apply in_map; exact I|left; reflexivity]).
Qed.

Lemma fold1_crlf line s : 0 <= line <= 75 -> fst (fold1 line (CR :: LF :: s)) = CR :: LF :: fst (fold1 0 s).
Proof.
  intros L. change (CR :: LF :: s) with (encode_rune 13 ++ encode_rune 10 ++ s).
  rewrite !fold1_rune by reflexivity. cbv zeta. change (13 =? 10) with false. change (13 =? 13) with true.
  change (10 =? 10) with true. cbn iota. rewrite fold1_rune by reflexivity. cbv zeta. change (10 =? 10) with true. cbn iota.
  destruct (fold1 0 s). reflexivity.
Qed.

Lemma fold1_late ls : ls <> [] -> Forall utf8 ls -> Forall clean ls ->
  folded_late ls (phys_lines (fst (fold1 0 (join ls)))).
Proof.
  induction ls as [|l ls IH]; intros N U C; [destruct (N eq_refl)|].
  apply Forall_cons_iff in U as [U1 U2]. apply Forall_cons_iff in C as [C1 C2].
  destruct (clean_runes l U1 C1) as (rs & E & R).
  destruct ls as [|l' ls].
  - cbn [join]. destruct (fold1_fill rs [] R 0 ltac:(lia)) as (ps & k & F & K & X).
    rewrite app_nil_r, <- E in X. rewrite <- E in F. rewrite X, fold1_nil. cbn [fst]. rewrite app_nil_r.
    destruct (phys_joined ps [] (fill_clean _ _ _ F C1)) as [_ B].
    { destruct (fill_nonnil _ _ _ F) as (? & ? & ->). discriminate. }
    exists [ps]. split; [repeat constructor; exact F|]. rewrite B. cbn. rewrite app_nil_r. reflexivity.
  - rewrite join_cons. destruct (fold1_fill rs (CR :: LF :: join (l' :: ls)) R 0 ltac:(lia)) as (ps & k & F & K & X).
    rewrite <- E in X, F. rewrite X. cbn [fst]. rewrite fold1_crlf by exact K.
    destruct (IH ltac:(discriminate) U2 C2) as (pss & G & H).
    destruct (phys_joined ps (fst (fold1 0 (join (l' :: ls)))) (fill_clean _ _ _ F C1)) as [A _].
    { destruct (fill_nonnil _ _ _ F) as (? & ? & ->). discriminate. }
    exists (ps :: pss). split; [constructor; assumption|]. rewrite A, H. reflexivity.
Qed.

Lemma encode_late {env : Env} cal e out : Encode ok_writer [] cal = EncDone e out ->
  no_bare (content cal) -> Forall utf8 (pieces (sec_encode cal)) ->
  folded_late (phys_lines (content cal)) (phys_lines (concat out)).
Proof.
  intros H N U. apply encode_ok_out in H as [_ ->]. rewrite (folds_concat _ U).
  assert (U' : utf8 (content cal)).
  { unfold content. clear -U. induction U; cbn [concat]; [apply utf8_nil|apply utf8_app; assumption]. }
  fold (content cal). rewrite <- (join_phys (content cal)) at 2.
  apply fold1_late; [apply phys_lines_nonnil|apply utf8_lines, U'|exact N].
Qed.

(** ** One way only *)

Lemma encode_rune_form r : valid_rune r = true -> exists c t, encode_rune r = c :: t /\ ~ 128 <= code c < 192 /\
  Forall (fun b => 128 <= code b < 192) t.
Proof.
  intros H. unfold encode_rune. rewrite H. unfold valid_rune, in_range in H.
  assert (D : forall y, 0 <= y mod 64 < 64) by (intros; apply Z.mod_pos_bound; lia).
  pose proof (D r). pose proof (D (r / 64)). pose proof (D (r / 4096)).
  destruct (r <? 128) eqn:E1; [|destruct (r <? 2048) eqn:E2; [|destruct (r <? 65536) eqn:E3]]; do 2 eexists; split; try reflexivity.
  - rewrite code_chr by lia. split; [lia|constructor].
  - assert (2 <= r / 64 < 32) by (split; [apply Z.div_le_lower_bound|apply Z.div_lt_upper_bound]; lia).
    split; [rewrite code_chr by lia; lia|]. repeat constructor; rewrite code_chr by lia; lia.
  - assert (0 <= r / 4096 < 16) by (split; [apply Z.div_le_lower_bound|apply Z.div_lt_upper_bound]; lia).
    split; [rewrite code_chr by lia; lia|]. repeat constructor; rewrite code_chr by lia; lia.
  - assert (0 <= r / 262144 < 5) by (split; [apply Z.div_le_lower_bound|apply Z.div_lt_upper_bound]; lia).
    split; [rewrite code_chr by lia; lia|]. repeat constructor; rewrite code_chr by lia; lia.
Qed.

Lemma encode_rune_inside r r' l s s' : valid_rune r = true -> valid_rune r' = true ->
  encode_rune r ++ s = l ++ encode_rune r' ++ s' -> (length l < length (encode_rune r))%nat -> l = [].
Proof.
  intros V V' E L. destruct (encode_rune_form r V) as (c & t & E1 & _ & T).
  destruct (encode_rune_form r' V') as (c' & t' & E2 & N & _). rewrite E1, E2 in *.
  destruct l as [|x l]; [reflexivity|exfalso]. cbn [app length] in *. injection E as _ E.
  apply N. apply (proj1 (Forall_forall _ _) T). apply (nth_error_In t (length l)).
  rewrite <- (nth_error_app1 t s) by lia. rewrite E, nth_error_app2 by lia. rewrite Nat.sub_diag. reflexivity.
Qed.

Lemma fill_unique m s ps : fill m s ps -> forall qs, fill m s qs -> qs = ps.
Proof.
  induction 1 as [m s A|m p r s ps V A B F IH]; intros qs G.
  - inversion G; subst; [reflexivity|]. rewrite !app_length in A. lia.
  - inversion G as [? ? L|? p' r' s' ps' V' A' B' F' Em E Eq]; subst; [rewrite !app_length in L; lia|].
    assert (P : p = p').
    { symmetry in E. destruct (app_eq_app _ _ _ _ E) as (l & [[-> X]|[-> X]]).
      - rewrite app_length in A. rewrite (encode_rune_inside r' r l s' s V' V X) by lia. rewrite app_nil_r. reflexivity.
      - rewrite app_length in A'. rewrite (encode_rune_inside r r' l s s' V V' X) by lia. rewrite app_nil_r. reflexivity. }
    subst p'. apply app_inv_head in E. rewrite E in F'. rewrite (IH _ F'). reflexivity.
Qed.

Lemma folded_late_unique ls out out' : folded_late ls out -> folded_late ls out' -> out = out'.
Proof.
  intros (pss & F & ->) (pss' & F' & ->). f_equal. f_equal. revert pss' F'.
  induction F as [|l ps ls pss P _ IH]; intros pss' F'; inversion F' as [|? ps' ? pss'' P' Q]; subst; [reflexivity|].
  rewrite (fill_unique _ _ _ P _ P'), (IH _ Q). reflexivity.
Qed.

(** ** Full lines *)

Fixpoint full_before (ls : list bytes) : Prop :=
  match ls with
  | [] => True
  | l :: ls' => match ls' with (c :: _) :: _ => c = SP -> (72 <= length l)%nat | _ => True end /\ full_before ls'
  end.

Lemma full_before_at a : forall ls l l' b, full_before ls -> ls = a ++ l :: (SP :: l') :: b -> (72 <= length l)%nat.
Proof.
  induction a as [|x a IH]; intros ls l l' b F ->; cbn [app full_before] in F.
  - apply (proj1 F). reflexivity.
  - apply (IH _ l l' b (proj2 F)). reflexivity.
Qed.

Lemma fill_full m s ps : fill m s ps ->
  match ps with [] => False | p :: qs => (qs <> [] -> (m <= length p + 3)%nat) /\ full_before (map (cons SP) qs) end.
Proof.
  intros H. induction H as [m s A|m p r s ps V A B F IH].
  - split; [intros X; destruct (X eq_refl)|exact Logic.I].
  - pose proof (encode_rune_len r). split; [intros _; lia|].
    destruct ps as [|q qs]; [destruct IH|]. destruct IH as [P Q]. cbn [map full_before]. split; [|exact Q].
    destruct qs; [exact Logic.I|]. cbn [map length]. intros _. specialize (P ltac:(discriminate)). lia.
Qed.

Lemma stand_full s ps : fill 75 s ps -> full_before (stand ps).
Proof.
  intros H. pose proof (fill_full _ _ _ H) as F. destruct ps as [|p qs]; [destruct F|].
  destruct F as [P Q]. cbn [stand full_before]. split; [|exact Q].
  destruct qs; [exact Logic.I|]. cbn [map]. intros _. specialize (P ltac:(discriminate)). lia.
Qed.

Lemma full_before_app a b : full_before a -> full_before b -> (forall l b', b <> (SP :: l) :: b') -> full_before (a ++ b).
Proof.
  intros A B N. induction a as [|l a IH]; [exact B|]. cbn [app full_before] in *. destruct A as [A1 A2].
  split; [|apply IH, A2]. destruct a as [|l' a]; cbn [app] in *; [|exact A1].
  destruct b as [|[|c l'] b]; auto. intros ->. destruct (N l' b eq_refl).
Qed.

Lemma stand_first s ps l ls : fill 75 s ps -> stand ps = (SP :: l) :: ls -> exists s', s = SP :: s'.
Proof.
  intros F E. inversion F; subst; cbn [stand] in E; injection E as E _; [eauto|]. subst p. eexists. reflexivity.
Qed.

Lemma late_full ls out : folded_late ls out -> no_space_first ls -> full_before out.
Proof.
  intros (pss & F & ->). induction F as [|l ps ls pss P F IH]; intros N; [exact Logic.I|].
  cbn [map concat]. apply full_before_app.
  - exact (stand_full _ _ P).
  - apply IH. intros l' I. apply N. cbn [tl]. destruct ls; [destruct I|right; exact I].
  - intros l' b E. destruct F as [|l1 ps1 ls pss P1 F]; [discriminate|]. cbn [map concat] in E.
    destruct (fill_nonnil _ _ _ P1) as (p & qs & ->). cbn [stand app] in E. injection E as E _.
    destruct (stand_first l1 (p :: qs) l' (map (cons SP) qs) P1) as [s' ->]; [cbn [stand]; rewrite E; reflexivity|].
    apply (N (SP :: s')) with (l' := s'); [left|]; reflexivity.
Qed.

Lemma encode_full {env : Env} cal e out a l l' b : Encode ok_writer [] cal = EncDone e out ->
  no_bare (content cal) -> Forall utf8 (pieces (sec_encode cal)) -> no_space_first (phys_lines (content cal)) ->
  phys_lines (concat out) = a ++ l :: (SP :: l') :: b -> (72 <= length l <= 75)%nat.
Proof.
  intros H B U N E. split.
  - apply (full_before_at a _ l l' b (late_full _ _ (encode_late cal e out H B U) N) E).
  - pose proof (encode_lines cal e out H B) as L. rewrite E in L. apply Forall_app in L as [_ L].
    apply Forall_cons_iff in L as [L _]. cbv beta in L. lia.
Qed.
