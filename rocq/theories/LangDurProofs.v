(** The texts that are read as durations and periods. *)
From Coq Require Import String Ascii ZArith Bool List Lia ZifyBool.
From Verif Require Import Base Lib Utf8 GoStrings Strtok Tokeniser GoTime Types SpecDuration SpecTime SpecLang.
From Verif Require Import NumProofs TokeniserProofs DurationProofs TimeProofs DateProofs LangProofs LangTimeProofs.
Import ListNotations.
Local Open Scope Z_scope.

(** ** One part *)
Definition set_part (d : duration) (p : dpart) : duration :=
  let n := dp_num p in
  match dp_unit p with
  | Week => Duration (d_neg d) n (d_days d) (d_hours d) (d_minutes d) (d_seconds d)
  | Day => Duration (d_neg d) (d_weeks d) n (d_hours d) (d_minutes d) (d_seconds d)
  | Hour' => Duration (d_neg d) (d_weeks d) (d_days d) n (d_minutes d) (d_seconds d)
  | Minute' => Duration (d_neg d) (d_weeks d) (d_days d) (d_hours d) n (d_seconds d)
  | Second' => Duration (d_neg d) (d_weeks d) (d_days d) (d_hours d) (d_minutes d) n
  end.

(** The parts that the loop takes from a level on. *)
Fixpoint steps (level : Z) (l : list dpart) : Prop :=
  match l with
  | [] => level <> 0
  | p :: l' =>
    let lv := if dp_T p then 1 else level in
    decimal (dp_digits p) (dp_num p) /\ dp_num p < 2 ^ 64 /\
    match dp_unit p with
    | Week => lv <= 0 /\ l' = []
    | Day => lv <= 0 /\ steps 1 l'
    | Hour' => lv <= 1 /\ steps 2 l'
    | Minute' => lv <= 2 /\ steps 3 l'
    | Second' => lv <= 3 /\ l' = [] /\ lv <> 0
    end
  end.

Lemma unit_letter_one u : exists c, unit_letter u = [c] /\ is_digit c = false.
Proof. destruct u; eexists; split; reflexivity. Qed.

Lemma part_length p : (1 <= length (part_text p))%nat.
Proof. unfold part_text. rewrite !app_length. destruct (dp_unit p); cbn [unit_letter bs list_ascii_of_string length]; lia. Qed.

(** One round reads one part. *)
Lemma round_part f d level b p r : decimal (dp_digits p) (dp_num p) -> dp_num p < 2 ^ 64 ->
  duration_loop (S f) d level (Tok b (part_text p ++ r)) =
  let lv := if dp_T p then 1 else level in
  match dp_unit p with
  | Week => if 0 <? lv then Err ErrInvalidDuration else match r with [] => Ok (set_part d p) | _ => Err ErrInvalidDuration end
  | Day => if 0 <? lv then Err ErrInvalidDuration else duration_loop f (set_part d p) 1 (Tok (bs "D") r)
  | Hour' => if 1 <? lv then Err ErrInvalidDuration else duration_loop f (set_part d p) 2 (Tok (bs "H") r)
  | Minute' => if 2 <? lv then Err ErrInvalidDuration else duration_loop f (set_part d p) 3 (Tok (bs "M") r)
  | Second' => if 3 <? lv then Err ErrInvalidDuration else
      match r with [] => duration_loop f (set_part d p) lv (Tok (bs "S") []) | _ => Err ErrInvalidDuration end
  end.
Proof.
  intros D L. unfold part_text. destruct p as [t ds n u]. cbn [dp_T dp_digits dp_num dp_unit] in *. cbv zeta.
  destruct (unit_letter_one u) as (c & EU & C).
  assert (HEAD : duration_loop (S f) d level (Tok b ((if t then bs "T" else []) ++ ds ++ c :: r)) =
     duration_loop (S f) d (if t then 1 else level) (Tok (if t then [] else b) (ds ++ c :: r))).
  { destruct (drop_T_digits ds n (c :: r) D) as [E N]. destruct t; [|reflexivity]. apply round_T; [exact N|]. rewrite E. reflexivity. }
  rewrite EU, <- !app_assoc. cbn [app]. rewrite HEAD, (round_plain _ _ _ _ ds n c r D L C).
  destruct u; cbn [unit_letter bs list_ascii_of_string] in EU; injection EU as <-; unfold set_part; cbn [dp_unit dp_num];
    vm_compute (beqc _ _); cbv iota; destruct r; reflexivity.
Qed.

Lemma loop_parts : forall f s d level b d', (length s < f)%nat ->
  duration_loop f d level (Tok b s) = Ok d' <-> exists l, s = concat (map part_text l) /\ steps level l /\ d' = fold_left set_part l d.
Proof.
  induction f as [|f IH]; intros s d level b d' LF; [lia|]. split.
  - intros H. destruct s as [|c0 s].
    { rewrite loop_S in H. destruct (Z.eqb_spec level 0) as [Z0|Z0]; [discriminate|]. apply Ok_inj in H. exists []. cbn [steps]. auto. }
    assert (PART : exists p r, c0 :: s = part_text p ++ r /\ decimal (dp_digits p) (dp_num p) /\ dp_num p < 2 ^ 64).
    { rewrite loop_S in H. destruct (drop_T (c0 :: s)) as [isT s1] eqn:DT. cbv zeta in H.
      assert (ES : c0 :: s = (if isT then bs "T" else []) ++ s1).
      { unfold drop_T in DT. destruct (beqc c0 "T") eqn:E; injection DT as <- <-; [apply beqc_eq in E; subst; reflexivity|reflexivity]. }
      pose proof (span_app is_digit s1) as SP. destruct (span is_digit s1) as [ds r]. destruct SP as (-> & _ & _).
      destruct (parse_uint 64 ds) as [num|] eqn:P; [|discriminate]. apply parse_uint_iff in P as [D L].
      destruct r as [|c r]; [discriminate|].
      assert (U : exists u, unit_letter u = [c]).
      { destruct (beqc c "W") eqn:E1; [apply beqc_eq in E1; subst; exists Week; reflexivity|].
        destruct (beqc c "D") eqn:E2; [apply beqc_eq in E2; subst; exists Day; reflexivity|].
        destruct (beqc c "H") eqn:E3; [apply beqc_eq in E3; subst; exists Hour'; reflexivity|].
        destruct (beqc c "M") eqn:E4; [apply beqc_eq in E4; subst; exists Minute'; reflexivity|].
        destruct (beqc c "S") eqn:E5; [apply beqc_eq in E5; subst; exists Second'; reflexivity|]. discriminate. }
      destruct U as (u & EU). exists (DPart isT ds num u), r. unfold part_text. cbn [dp_T dp_digits dp_num dp_unit]. rewrite EU, ES.
      split; [rewrite <- !app_assoc; reflexivity|auto]. }
    destruct PART as (p & r & E & D & L). rewrite E in H, LF. rewrite (round_part f d level b p r D L) in H. cbv zeta in H.
    rewrite app_length in LF. pose proof (part_length p) as PL. rewrite E.
    assert (STEP : forall lv2 b2, duration_loop f (set_part d p) lv2 (Tok b2 r) = Ok d' ->
       exists l, r = concat (map part_text l) /\ steps lv2 l /\ d' = fold_left set_part (p :: l) d).
    { intros lv2 b2 H2. apply IH in H2 as (l & E2 & S2 & F2); [|lia]. exists l. auto. }
    destruct (dp_unit p) eqn:U.
    + destruct (Z.ltb_spec 0 (if dp_T p then 1 else level)) as [LV|LV]; [discriminate|]. destruct r; [|discriminate]. apply Ok_inj in H. exists [p].
      split; [reflexivity|]. cbn [steps]. rewrite U. split; [|symmetry; exact H]. split; [exact D|]. split; [exact L|]. split; [exact LV|reflexivity].
    + destruct (Z.ltb_spec 0 (if dp_T p then 1 else level)) as [LV|LV]; [discriminate|]. apply STEP in H as (l & -> & S2 & F2). exists (p :: l).
      cbn [steps]. rewrite U. split; [reflexivity|]. split; [|exact F2]. split; [exact D|]. split; [exact L|]. split; [exact LV|exact S2].
    + destruct (Z.ltb_spec 1 (if dp_T p then 1 else level)) as [LV|LV]; [discriminate|]. apply STEP in H as (l & -> & S2 & F2). exists (p :: l).
      cbn [steps]. rewrite U. split; [reflexivity|]. split; [|exact F2]. split; [exact D|]. split; [exact L|]. split; [exact LV|exact S2].
    + destruct (Z.ltb_spec 2 (if dp_T p then 1 else level)) as [LV|LV]; [discriminate|]. apply STEP in H as (l & -> & S2 & F2). exists (p :: l).
      cbn [steps]. rewrite U. split; [reflexivity|]. split; [|exact F2]. split; [exact D|]. split; [exact L|]. split; [exact LV|exact S2].
    + destruct (Z.ltb_spec 3 (if dp_T p then 1 else level)) as [LV|LV]; [discriminate|]. destruct r; [|discriminate].
      destruct f as [|f']; [lia|]. rewrite loop_S in H. destruct (Z.eqb_spec (if dp_T p then 1 else level) 0); [discriminate|].
      apply Ok_inj in H. exists [p]. cbn [steps]. rewrite U. split; [reflexivity|]. split; [|symmetry; exact H]. split; [exact D|]. split; [exact L|]. split; [exact LV|]. split; [reflexivity|assumption].
  - intros (l & -> & S2 & ->). destruct l as [|p l].
    { cbn [steps] in S2. cbn [map concat fold_left]. rewrite loop_S. destruct (Z.eqb_spec level 0); [contradiction|reflexivity]. }
    cbn [map concat] in *. cbn [steps] in S2. destruct S2 as (D & L & S2). rewrite (round_part f d level b p _ D L). cbv zeta.
    rewrite app_length in LF. pose proof (part_length p) as PL.
    assert (STEP : forall lv2 b2, steps lv2 l -> duration_loop f (set_part d p) lv2 (Tok b2 (concat (map part_text l))) = Ok (fold_left set_part l (set_part d p))).
    { intros lv2 b2 H2. apply IH; [lia|]. exists l. auto. }
    cbn [fold_left]. destruct (dp_unit p).
    + destruct S2 as [LV ->]. destruct (Z.ltb_spec 0 (if dp_T p then 1 else level)); [lia|reflexivity].
    + destruct S2 as [LV S2]. destruct (Z.ltb_spec 0 (if dp_T p then 1 else level)); [lia|]. apply STEP, S2.
    + destruct S2 as [LV S2]. destruct (Z.ltb_spec 1 (if dp_T p then 1 else level)); [lia|]. apply STEP, S2.
    + destruct S2 as [LV S2]. destruct (Z.ltb_spec 2 (if dp_T p then 1 else level)); [lia|]. apply STEP, S2.
    + destruct S2 as (LV & -> & N). destruct (Z.ltb_spec 3 (if dp_T p then 1 else level)); [lia|]. cbn [map concat fold_left].
      destruct f as [|f']; [lia|]. rewrite loop_S. destruct (Z.eqb_spec (if dp_T p then 1 else level) 0); [contradiction|reflexivity].
Qed.

(** ** All parts *)
Lemma fold_value u l : forall d, 
  match u with Week => d_weeks | Day => d_days | Hour' => d_hours | Minute' => d_minutes | Second' => d_seconds end (fold_left set_part l d) =
  unit_value u l (match u with Week => d_weeks | Day => d_days | Hour' => d_hours | Minute' => d_minutes | Second' => d_seconds end d).
Proof.
  induction l as [|p l IH]; intros d; [reflexivity|]. cbn [fold_left unit_value]. rewrite IH. f_equal. unfold set_part.
  destruct u, (dp_unit p); reflexivity.
Qed.
Lemma fold_neg l : forall d, d_neg (fold_left set_part l d) = d_neg d.
Proof. induction l as [|p l IH]; intros d; [reflexivity|]. cbn [fold_left]. rewrite IH. unfold set_part. destruct (dp_unit p); reflexivity. Qed.

Definition num_ok (p : dpart) : Prop := decimal (dp_digits p) (dp_num p) /\ dp_num p < 2 ^ 64.
Definition level_chain (lv : Z) (l : list dpart) : Prop :=
  match l with [] => True | p :: _ => dp_T p = true \/ lv < unit_rank (dp_unit p) end.

Lemma steps_later : forall l lv, 1 <= lv <= 3 -> steps lv l <->
  Forall num_ok l /\ Forall (fun p => dp_unit p <> Week) l /\ Forall (fun p => dp_unit p <> Day) l /\ level_chain lv l /\ parts_chain l /\
  Forall (fun p => dp_unit p <> Second') (removelast l).
Proof.
  induction l as [|p l IH]; intros lv R.
  - cbn. split; [intros _; repeat split; constructor|lia].
  - assert (REC : forall u, dp_unit p = u -> (u = Hour' \/ u = Minute') -> 
       (steps (unit_rank u) l <-> Forall num_ok l /\ Forall (fun p => dp_unit p <> Week) l /\ Forall (fun p => dp_unit p <> Day) l /\ parts_chain (p :: l) /\
         Forall (fun p => dp_unit p <> Second') (removelast (p :: l)))).
    { intros u U HM. rewrite IH by (destruct HM; subst u; rewrite H; cbn; lia).
      assert (PC : parts_chain (p :: l) <-> level_chain (unit_rank u) l /\ parts_chain l).
      { destruct l as [|q l]; [cbn; tauto|]. cbn [parts_chain level_chain]. unfold part_follows. rewrite U. tauto. }
      assert (RL : Forall (fun p => dp_unit p <> Second') (removelast (p :: l)) <-> Forall (fun p => dp_unit p <> Second') (removelast l)).
      { destruct l as [|q l]; [cbn [removelast]; split; intros _; constructor|]. change (removelast (p :: q :: l)) with (p :: removelast (q :: l)).
        split; [intros H; inversion H; assumption|]. intros H. constructor; [|exact H]. rewrite U. destruct HM as [-> | ->]; discriminate. }
      rewrite PC, RL. tauto. }
    cbn [steps]. cbv zeta. cbn [level_chain]. rewrite !Forall_cons_iff. unfold num_ok at 1.
    destruct (dp_unit p) eqn:U.
    + split; [|intros (_ & (H & _) & _); contradiction]. intros (_ & _ & H & _). destruct (dp_T p); lia.
    + split; [|intros (_ & _ & (H & _) & _); contradiction]. intros (_ & _ & H & _). destruct (dp_T p); lia.
    + specialize (REC Hour' eq_refl (or_introl eq_refl)). cbn [unit_rank] in *. rewrite REC.
      assert (T1 : (if dp_T p then 1 else lv) <= 1 <-> dp_T p = true \/ lv < 2) by (destruct (dp_T p); [split; [auto|lia]|split; [lia|intros [H|H]; [discriminate|lia]]]).
      rewrite T1. intuition (try discriminate).
    + specialize (REC Minute' eq_refl (or_intror eq_refl)). cbn [unit_rank] in *. rewrite REC.
      assert (T1 : (if dp_T p then 1 else lv) <= 2 <-> dp_T p = true \/ lv < 3) by (destruct (dp_T p); [split; [auto|lia]|split; [lia|intros [H|H]; [discriminate|lia]]]).
      rewrite T1. intuition (try discriminate).
    + split.
      * intros (D & L & _ & -> & _). cbn [parts_chain removelast]. split; [split; [exact (conj D L)|constructor]|].
        split; [split; [discriminate|constructor]|]. split; [split; [discriminate|constructor]|].
        split; [right; cbn [unit_rank]; lia|]. split; [exact Logic.I|constructor].
      * intros ((D & _) & _ & _ & _ & _ & F). destruct D as [D L]. split; [exact D|]. split; [exact L|].
        split; [destruct (dp_T p); lia|]. split; [|destruct (dp_T p); lia]. destruct l as [|q l]; [reflexivity|].
        change (removelast (p :: q :: l)) with (p :: removelast (q :: l)) in F. inversion F as [|? ? F1 F2]. contradiction.
Qed.

Lemma steps_parts l : steps 0 l <-> parts_read l.
Proof.
  unfold parts_read. destruct l as [|p l].
  { cbn [steps]. split; [lia|]. intros [H _]. contradiction. }
  assert (NE : p :: l <> []) by discriminate.
  assert (PC : forall k, unit_rank (dp_unit p) = k -> (parts_chain (p :: l) <-> level_chain k l /\ parts_chain l)).
  { intros k U. destruct l as [|q l]; [cbn; tauto|]. cbn [parts_chain level_chain]. unfold part_follows. rewrite U. tauto. }
  assert (RL : dp_unit p <> Second' -> (Forall (fun p => dp_unit p <> Second') (removelast (p :: l)) <-> Forall (fun p => dp_unit p <> Second') (removelast l))).
  { intros U. destruct l as [|q l]; [cbn [removelast]; split; intros _; constructor|]. change (removelast (p :: q :: l)) with (p :: removelast (q :: l)).
    split; [intros H; inversion H; assumption|]. intros H. constructor; [exact U|exact H]. }
  assert (ND : Forall (fun p => dp_unit p <> Day) l -> Forall (fun p => dp_unit p = Day -> dp_T p = false) l).
  { intros H. eapply Forall_impl; [|exact H]. intros a N E. contradiction. }
  cbn [steps tl]. cbv zeta. fold (num_ok p). change (Forall _ (p :: l) /\ _) with (Forall num_ok (p :: l) /\
    ((exists p0, p :: l = [p0] /\ dp_unit p0 = Week /\ dp_T p0 = false) \/
     (Forall (fun p => dp_unit p <> Week) (p :: l) /\ parts_chain (p :: l) /\ Forall (fun p => dp_unit p = Day -> dp_T p = false) (p :: l) /\
      Forall (fun p => dp_unit p <> Day) l /\ Forall (fun p => dp_unit p <> Second') (removelast (p :: l)) /\
      (forall p0, p :: l = [p0] -> dp_unit p0 = Second' -> dp_T p0 = true)))).
  rewrite !Forall_cons_iff. rewrite <- and_assoc. change (decimal (dp_digits p) (dp_num p) /\ dp_num p < 2 ^ 64) with (num_ok p).
  destruct (dp_unit p) eqn:U.
  - split.
    + intros (N & LV & ->). split; [discriminate|]. split; [split; [exact N|constructor]|]. left. exists p.
      split; [reflexivity|]. split; [exact U|]. destruct (dp_T p); [lia|reflexivity].
    + intros (_ & (N & _) & [H|H]).
      * destruct H as (p0 & E & _ & T). injection E as <- ->. rewrite T. split; [exact N|]. split; [lia|reflexivity].
      * destruct H as ((H & _) & _). contradiction.
  - rewrite (steps_later l 1) by lia. rewrite (PC 1 eq_refl), (RL ltac:(discriminate)). split.
    + intros (N & LV & A & B & C & D & E & F). split; [discriminate|]. split; [auto|]. right. split; [split; [discriminate|exact B]|].
      split; [auto|]. split; [split; [intros _; destruct (dp_T p); [lia|reflexivity]|auto]|]. split; [exact C|]. split; [exact F|].
      intros p0 X Y. injection X as <- ->. congruence.
    + intros (_ & (N & A) & [H|H]).
      * destruct H as (p0 & X & Y & _). injection X as <- _. congruence.
      * destruct H as ((_ & B) & (D & E) & (T & _) & C & F & _). rewrite (T eq_refl). split; [exact N|]. split; [lia|]. auto 8.
  - rewrite (steps_later l 2) by lia. rewrite (PC 2 eq_refl), (RL ltac:(discriminate)). split.
    + intros (N & LV & A & B & C & D & E & F). split; [discriminate|]. split; [auto|]. right. split; [split; [discriminate|exact B]|].
      split; [auto|]. split; [split; [intros X; discriminate|auto]|]. split; [exact C|]. split; [exact F|].
      intros p0 X Y. injection X as <- ->. congruence.
    + intros (_ & (N & A) & [H|H]).
      * destruct H as (p0 & X & Y & _). injection X as <- _. congruence.
      * destruct H as ((_ & B) & (D & E) & (T & _) & C & F & _). split; [exact N|]. split; [destruct (dp_T p); lia|]. auto 8.
  - rewrite (steps_later l 3) by lia. rewrite (PC 3 eq_refl), (RL ltac:(discriminate)). split.
    + intros (N & LV & A & B & C & D & E & F). split; [discriminate|]. split; [auto|]. right. split; [split; [discriminate|exact B]|].
      split; [auto|]. split; [split; [intros X; discriminate|auto]|]. split; [exact C|]. split; [exact F|].
      intros p0 X Y. injection X as <- ->. congruence.
    + intros (_ & (N & A) & [H|H]).
      * destruct H as (p0 & X & Y & _). injection X as <- _. congruence.
      * destruct H as ((_ & B) & (D & E) & (T & _) & C & F & _). split; [exact N|]. split; [destruct (dp_T p); lia|]. auto 8.
  - split.
    + intros (N & LV & -> & T). split; [discriminate|]. split; [split; [exact N|constructor]|]. right.
      split; [split; [discriminate|constructor]|]. split; [exact Logic.I|]. split; [split; [intros X; discriminate|constructor]|].
      split; [constructor|]. split; [constructor|]. intros p0 X _. injection X as <-. destruct (dp_T p); [reflexivity|lia].
    + intros (_ & (N & A) & [H|H]).
      * destruct H as (p0 & X & Y & _). injection X as <- _. congruence.
      * destruct H as (_ & _ & _ & _ & F & T).
        assert (L0 : l = []).
        { destruct l as [|q l]; [reflexivity|]. change (removelast (p :: q :: l)) with (p :: removelast (q :: l)) in F. inversion F. contradiction. }
        subst l. rewrite (T p eq_refl U). split; [exact N|]. split; [lia|]. split; [reflexivity|lia].
Qed.

Theorem duration_iff s d : duration_decode s = Ok d <-> duration_text s d.
Proof.
  assert (CORE : forall neg r f, (length r < f)%nat -> duration_loop f (Duration neg 0 0 0 0 0) 0 (Tok (bs "P") r) = Ok d \/
     (exists b, duration_loop f (Duration neg 0 0 0 0 0) 0 (Tok b r) = Ok d) <->
     exists l, parts_read l /\ r = concat (map part_text l) /\ d_neg d = neg /\ d_weeks d = unit_value Week l 0 /\ d_days d = unit_value Day l 0 /\
       d_hours d = unit_value Hour' l 0 /\ d_minutes d = unit_value Minute' l 0 /\ d_seconds d = unit_value Second' l 0).
  { intros neg r f LF. split.
    - intros H. assert (H' : exists b, duration_loop f (Duration neg 0 0 0 0 0) 0 (Tok b r) = Ok d) by (destruct H as [H|H]; eauto).
      destruct H' as (b & H'). apply loop_parts in H' as (l & E & S & ->); [|exact LF]. exists l. split; [apply steps_parts; exact S|].
      split; [exact E|]. rewrite fold_neg. split; [reflexivity|].
      split; [apply (fold_value Week)|]. split; [apply (fold_value Day)|]. split; [apply (fold_value Hour')|]. split; [apply (fold_value Minute')|apply (fold_value Second')].
    - intros (l & P & E & NG & W & D & H & M & S). right. exists []. apply loop_parts; [exact LF|]. exists l. split; [exact E|].
      split; [apply steps_parts; exact P|].
      pose proof (fold_value Week l (Duration neg 0 0 0 0 0)) as W'. pose proof (fold_value Day l (Duration neg 0 0 0 0 0)) as D'.
      pose proof (fold_value Hour' l (Duration neg 0 0 0 0 0)) as H'. pose proof (fold_value Minute' l (Duration neg 0 0 0 0 0)) as M'.
      pose proof (fold_value Second' l (Duration neg 0 0 0 0 0)) as S'. pose proof (fold_neg l (Duration neg 0 0 0 0 0)) as N'.
      cbn [d_neg d_weeks d_days d_hours d_minutes d_seconds] in *. destruct (fold_left set_part l _) as [x1 x2 x3 x4 x5 x6], d as [y1 y2 y3 y4 y5 y6].
      cbn [d_neg d_weeks d_days d_hours d_minutes d_seconds] in *. congruence. }
  unfold duration_decode, new_tok. split.
  - intros H.
    assert (X : exists sign r neg b, s = sign ++ bs "P" ++ r /\ ((sign = bs "-" /\ neg = true) \/ ((sign = bs "+" \/ sign = []) /\ neg = false)) /\
       duration_loop (S (length s)) (Duration neg 0 0 0 0 0) 0 (Tok b r) = Ok d).
    { destruct s as [|c s]; [discriminate|]. destruct (beqc c "-") eqn:E1.
      { apply beqc_eq in E1. subst c. rewrite accept_hit in H by reflexivity. cbv iota in H.
        destruct s as [|c s]; [discriminate|]. destruct (beqc c "P") eqn:E2.
        - apply beqc_eq in E2. subst c. rewrite accept_hit in H by reflexivity. exists (bs "-"), s, true. eexists. split; [reflexivity|]. split; [auto|exact H].
        - rewrite accept_plain in H by (unfold inset; cbn [bs list_ascii_of_string existsb]; rewrite E2; reflexivity). discriminate. }
      rewrite accept_plain in H by (unfold inset; cbn [bs list_ascii_of_string existsb]; rewrite E1; reflexivity). cbv iota in H.
      destruct (beqc c "+") eqn:E3.
      { apply beqc_eq in E3. subst c. rewrite accept_hit in H by reflexivity. cbv iota in H.
        destruct s as [|c s]; [discriminate|]. destruct (beqc c "P") eqn:E2.
        - apply beqc_eq in E2. subst c. rewrite accept_hit in H by reflexivity. exists (bs "+"), s, false. eexists. split; [reflexivity|]. split; [auto|exact H].
        - rewrite accept_plain in H by (unfold inset; cbn [bs list_ascii_of_string existsb]; rewrite E2; reflexivity). discriminate. }
      rewrite accept_plain in H by (unfold inset; cbn [bs list_ascii_of_string existsb]; rewrite E3; reflexivity). cbv iota in H.
      destruct (beqc c "P") eqn:E2.
      - apply beqc_eq in E2. subst c. rewrite accept_hit in H by reflexivity. exists [], s, false. eexists. split; [reflexivity|]. split; [auto|exact H].
      - rewrite accept_plain in H by (unfold inset; cbn [bs list_ascii_of_string existsb]; rewrite E2; reflexivity). discriminate. }
    destruct X as (sign & r & neg & b & E & SG & L).
    destruct (proj1 (CORE neg r (S (length s)) ltac:(rewrite E, !app_length; lia)) (or_intror (ex_intro _ b L))) as (l & P & -> & NG & V).
    exists sign, l. split; [exact P|]. split; [exact E|]. rewrite NG. split; [exact SG|exact V].
  - intros (sign & l & P & E & SG & V).
    assert (SG' : exists neg, d_neg d = neg /\ ((sign = bs "-" /\ neg = true) \/ ((sign = bs "+" \/ sign = []) /\ neg = false))) by (exists (d_neg d); auto).
    destruct SG' as (neg & NG & SG'). clear SG.
    assert (LOOP : exists b, duration_loop (S (length s)) (Duration neg 0 0 0 0 0) 0 (Tok b (concat (map part_text l))) = Ok d).
    { destruct (proj2 (CORE neg (concat (map part_text l)) (S (length s)) ltac:(rewrite E, !app_length; lia))) as [H|H]; [exists l; auto|eauto|exact H]. }
    destruct LOOP as (b & LOOP).
    assert (ANY : forall b', duration_loop (S (length s)) (Duration neg 0 0 0 0 0) 0 (Tok b' (concat (map part_text l))) = Ok d).
    { intros b'. rewrite loop_S. rewrite loop_S in LOOP. exact LOOP. }
    rewrite E. rewrite E in ANY. destruct SG' as [SG|SG].
    + destruct SG as [-> ->]. change (bs "-" ++ bs "P" ++ ?r) with ("-"%char :: "P"%char :: r). rewrite accept_hit by reflexivity. cbv iota.
      rewrite accept_hit by reflexivity. apply ANY.
    + destruct SG as [SG ->]. destruct SG as [SG|SG]; subst sign.
      * change (bs "+" ++ bs "P" ++ ?r) with ("+"%char :: "P"%char :: r). rewrite (accept_miss (bs "-")) by reflexivity. cbv iota.
        rewrite accept_hit by reflexivity. rewrite accept_hit by reflexivity. apply ANY.
      * cbn [app]. change (bs "P" ++ ?r) with ("P"%char :: r). rewrite (accept_miss (bs "-")) by reflexivity. cbv iota.
        rewrite (accept_miss (bs "+")) by reflexivity. rewrite accept_hit by reflexivity. apply ANY.
Qed.

Section LangDur.
Context {env : Env}.

Theorem duration_lang m s v : value_decode KDuration m s = Ok v <-> exists d, duration_text s d /\ v = VDuration d.
Proof.
  unfold value_decode. rewrite rmap_ok. split; intros (d & H & E); exists d; (split; [|exact E]); apply duration_iff; exact H.
Qed.

(** ** Periods *)
Lemma digits_plain ds n c : decimal ds n -> In c ds -> is_digit c = true.
Proof. intros D I. apply decimal_bytes in D as (F & _ & _). apply (proj1 (forallb_forall _ _) F c I). Qed.

Lemma digit_slash c : is_digit c = true -> c <> "/"%char.
Proof. intros D ->. discriminate D. Qed.

Lemma clock_no_slash c h mi x ns : clock_text c h mi x ns -> ~ In "/"%char c.
Proof.
  intros (a & f & -> & (hh & mm & ss & -> & [DH _] & [DM _] & [DX _]) & _ & _ & _ & F) I.
  assert (DIG : forall ds n, decimal ds n -> ~ In "/"%char ds) by (intros ds n D J; apply (digits_plain ds n _ D) in J; discriminate J).
  rewrite !in_app_iff in I. destruct I as [I|I].
  - destruct I as [I|[I|I]]; [exact (DIG _ _ DH I)|exact (DIG _ _ DM I)|exact (DIG _ _ DX I)].
  - destruct F as [F|F]; [destruct F as [-> _]; exact I|]. destruct F as (p & ds & n & -> & P & D & _).
    destruct I as [I|I]; [|exact (DIG _ _ D I)]. destruct P as [-> | ->]; discriminate I.
Qed.

Lemma datetime_no_slash id tz s t : datetime_text id tz s t -> ~ In "/"%char s.
Proof.
  intros (d & c & y & mo & da & h & mi & x & ns & l & P & DT & _ & C & _).
  assert (DIG : forall ds n, decimal ds n -> ~ In "/"%char ds) by (intros ds n D J; apply (digits_plain ds n _ D) in J; discriminate J).
  assert (N : ~ In "/"%char (d ++ bs "T" ++ c)).
  { destruct DT as (dy & dm & dd & -> & _ & _ & _ & Dy & Dm & Dd). rewrite !in_app_iff. intros I.
    destruct I as [I|[I|I]]; [destruct I as [I|[I|I]]; [exact (DIG _ _ Dy I)|exact (DIG _ _ Dm I)|exact (DIG _ _ Dd I)]| |exact (clock_no_slash c h mi x ns C I)].
    destruct I as [I|[]]. discriminate I. }
  unfold placed in P. destruct tz; [destruct P as [-> _]; exact N|]. destruct P as [P|P]; destruct P as [-> _]; [|exact N].
  rewrite in_app_iff. intros [I|I]; [exact (N I)|]. destruct I as [I|[]]. discriminate I.
Qed.

Lemma datetime_digit id tz s t : datetime_text id tz s t -> exists c r, s = c :: r /\ is_digit c = true.
Proof.
  intros (d & c & y & mo & da & h & mi & x & ns & l & P & (dy & dm & dd & -> & _ & _ & _ & Dy & _) & _).
  destruct (digit_head dy y Dy) as (a & r & -> & A). unfold placed in P.
  destruct tz; [destruct P as [-> _]|destruct P as [P|P]; destruct P as [-> _]]; cbn [app]; eauto.
Qed.

Theorem period_lang m s v : value_decode KPeriod m s = Ok v <-> exists p, period_text (pmap_get m (bs "TZID")) s p /\ v = VPeriod p.
Proof.
  unfold value_decode. rewrite rmap_ok.
  assert (IFF : forall p, period_decode m s = Ok p <-> period_text (pmap_get m (bs "TZID")) s p).
  { intros p. unfold period_decode, period_text. split.
    - intros H. destruct (cut "/"%char s) as [[a b]|] eqn:C; [|discriminate]. apply cut_some in C as [-> _].
      destruct b as [|c b]; [discriminate|]. apply bind_ok in H as (st & HA & H). apply datetime_iff in HA.
      exists a, (c :: b). split; [reflexivity|]. destruct (beqc c "P" || beqc c "+") eqn:E.
      + apply bind_ok in H as (d & HD & H). apply Ok_inj in H. subst p. cbn [p_start p_end p_dur]. split; [exact HA|]. left.
        apply duration_iff in HD. split; [exact HD|]. split; [|reflexivity]. destruct HD as (sign & l & _ & ES & [SG|SG] & _).
        * destruct SG as [-> _]. injection ES as -> _. discriminate E.
        * apply SG.
      + apply bind_ok in H as (en & HE & H). apply Ok_inj in H. subst p. cbn [p_start p_end p_dur]. split; [exact HA|]. right.
        split; [apply datetime_iff; exact HE|reflexivity].
    - intros (a & b & -> & HA & H). change (bs "/" ++ b) with ("/"%char :: b). rewrite cut_app by exact (datetime_no_slash _ _ _ _ HA).
      destruct H as [H|H].
      + destruct H as (HD & NG & EN). pose proof HD as HD'. destruct HD' as (sign & l & _ & ES & [SG|SG] & _); [destruct SG; congruence|].
        assert (HB : exists c r, b = c :: r /\ beqc c "P" || beqc c "+" = true).
        { destruct SG as [SG _]. destruct SG as [-> | ->]; rewrite ES; eexists; eexists; split; reflexivity. }
        destruct HB as (c & r & EB & HC). rewrite EB in *. rewrite (proj2 (datetime_iff 0 m a (p_start p)) HA). cbn [bind]. rewrite HC.
        rewrite (proj2 (duration_iff _ _) HD). cbn [bind]. rewrite <- EN. destruct p. reflexivity.
      + destruct H as (HE & ED). destruct (datetime_digit _ _ _ _ HE) as (c & r & EB & HC). rewrite EB in *.
        rewrite (proj2 (datetime_iff 0 m a (p_start p)) HA). cbn [bind].
        replace (beqc c "P" || beqc c "+") with false.
        2:{ symmetry. apply orb_false_iff. split; [|apply (digit_not_sign c HC)]. destruct (beqc c "P") eqn:E; [apply beqc_eq in E; subst c; discriminate HC|reflexivity]. }
        rewrite (proj2 (datetime_iff 1 m _ (p_end p)) HE). cbn [bind]. rewrite <- ED. destruct p. reflexivity. }
  split; intros (p & H & E); exists p; (split; [|exact E]); apply IFF; exact H.
Qed.
End LangDur.
