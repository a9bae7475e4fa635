(** Scanning by characters and by bytes. *)
From Coq Require Import String Ascii ZArith Bool List Lia.
From Verif Require Import Base Lib Utf8 Utf8Proofs GoStrings Strtok Tokeniser GoTime Types Params PropTable Props SecTable Sections Codec OnDemand DemandProofs RuneTok SpecRune.
Import ListNotations.
Local Open Scope Z_scope.

Lemma runes_ascii set : all_ascii set -> runes set = map code set.
Proof.
  unfold runes. intros H. induction H as [|c l C _ IH]; [reflexivity|]. cbn [length runes_fuel map].
  rewrite decode_rune_ascii by exact C. cbn [skipn]. rewrite IH. reflexivity.
Qed.

Lemma rune_in_ascii set c : all_ascii set -> rune_in (code c) set = inset c set.
Proof.
  intros A. unfold rune_in, inset. rewrite runes_ascii by exact A. clear A. induction set as [|d set IH]; [reflexivity|].
  cbn [map existsb]. rewrite IH. f_equal. apply eq_true_iff_eq. rewrite Z.eqb_eq, beqc_eq. split; [apply code_inj|congruence].
Qed.

Lemma rune_in_high set r : all_ascii set -> 128 <= r -> rune_in r set = false.
Proof.
  intros A R. unfold rune_in. rewrite runes_ascii by exact A. induction A as [|d set D _ IH]; [reflexivity|].
  cbn [map existsb]. rewrite IH. replace (r =? code d) with false by lia. reflexivity.
Qed.

Lemma inset_high set c : all_ascii set -> 128 <= code c -> inset c set = false.
Proof. intros A C. rewrite <- rune_in_ascii by exact A. apply rune_in_high; assumption. Qed.

Lemma peek_looks t : looks (r_peek t) (peek t).
Proof.
  unfold r_peek, peek. destruct (trest t) as [|c l]; [exact Logic.I|]. cbn [looks].
  destruct (Z_lt_dec (code c) 128) as [L|L]; [rewrite decode_rune_ascii by exact L; left; reflexivity|].
  right. pose proof (decode_rune_high c l ltac:(lia)) as H. destruct (decode_rune (c :: l)) as [r w].
  cbn [fst]. split; [apply H|lia].
Qed.

Lemma accept_same set t : all_ascii set -> r_accept set t = accept set t.
Proof.
  intros A. unfold r_accept, accept, r_peek, r_step. destruct t as [b [|c l]]; [reflexivity|]. cbn [trest tbuf].
  destruct (Z_lt_dec (code c) 128) as [L|L].
  - rewrite decode_rune_ascii by exact L. cbn [fst snd]. rewrite rune_in_ascii by exact A. destruct (inset c set); reflexivity.
  - pose proof (decode_rune_high c l ltac:(lia)) as H. destruct (decode_rune (c :: l)) as [r w] eqn:E. cbn [fst].
    rewrite rune_in_high by (try exact A; lia). rewrite inset_high by (try exact A; lia). reflexivity.
Qed.

Lemma span_app (p : byte -> bool) x y : forallb p x = true -> span p (x ++ y) = let '(a, r) := span p y in (x ++ a, r).
Proof.
  induction x as [|c x IH]; intros H; cbn [app]; [destruct (span p y); reflexivity|].
  cbn [forallb] in H. apply andb_true_iff in H as [H1 H2]. cbn [span]. rewrite H1, IH by exact H2. destruct (span p y). reflexivity.
Qed.

Definition run_bytes (want : bool) (set : bytes) (t : tok) : option byte * tok :=
  let '(a, r) := span (fun c => Bool.eqb (inset c set) want) (trest t) in
  let t' := Tok (tbuf t ++ a) r in (peek t', t').

Lemma run_same want set : all_ascii set -> forall n t, (length (trest t) <= n)%nat ->
  looks (fst (r_run n want set t)) (fst (run_bytes want set t)) /\ snd (r_run n want set t) = snd (run_bytes want set t).
Proof.
  intros A. induction n as [|n IH]; intros [b l] L; cbn [trest] in L.
  - destruct l; [|cbn in L; lia]. cbn. rewrite app_nil_r. auto.
  - destruct l as [|c l]; [cbn; rewrite app_nil_r; auto|]. cbn [r_run].
    assert (H : (exists r w, decode_rune (c :: l) = (r, w) /\ (1 <= w <= length (c :: l))%nat /\
      forallb (fun x => Bool.eqb (inset x set) (rune_in r set)) (firstn w (c :: l)) = true /\ rune_in r set = inset c set)).
    { destruct (Z_lt_dec (code c) 128) as [C|C].
      - exists (code c), 1%nat. split; [apply decode_rune_ascii, C|]. split; [cbn; lia|].
        cbn [firstn forallb]. rewrite rune_in_ascii by exact A. rewrite eqb_reflx. auto.
      - pose proof (decode_rune_high c l ltac:(lia)) as H. pose proof (decode_rune_width c l) as W.
        destruct (decode_rune (c :: l)) as [r w]. exists r, w. destruct H as [H1 H2]. split; [reflexivity|]. split; [lia|].
        rewrite (rune_in_high set r) by (try exact A; lia). rewrite (inset_high set c) by (try exact A; lia).
        split; [|reflexivity]. apply forallb_forall. intros x I. rewrite inset_high; [reflexivity|exact A|].
        exact (proj1 (Forall_forall _ _) H2 x I). }
    destruct H as (r & w & D & W & F & R). unfold r_peek at 1 2. cbn [trest]. rewrite D. cbn [fst].
    destruct (Bool.eqb (rune_in r set) want) eqn:Q.
    + apply eqb_prop in Q. unfold r_step. cbn [trest tbuf]. rewrite D. cbn [snd].
      specialize (IH (Tok (b ++ firstn w (c :: l)) (skipn w (c :: l)))). cbn [trest] in IH.
      rewrite skipn_length in IH. specialize (IH ltac:(cbn [length] in *; lia)).
      replace (run_bytes want set (Tok b (c :: l))) with
        (run_bytes want set (Tok (b ++ firstn w (c :: l)) (skipn w (c :: l)))); [exact IH|].
      unfold run_bytes. cbn [trest tbuf]. rewrite Q in F.
      assert (E : span (fun x => Bool.eqb (inset x set) want) (c :: l) =
        let '(a, s) := span (fun x => Bool.eqb (inset x set) want) (skipn w (c :: l)) in (firstn w (c :: l) ++ a, s)).
      { rewrite <- (firstn_skipn w (c :: l)) at 1. apply span_app, F. }
      rewrite E. destruct (span _ (skipn w (c :: l))) as [a s]. rewrite app_assoc. reflexivity.
    + unfold run_bytes. cbn [trest tbuf span]. rewrite <- R, Q. rewrite app_nil_r. split; [|reflexivity].
      cbn [fst]. pose proof (peek_looks (Tok b (c :: l))) as P. unfold r_peek in P. cbn [trest] in P. rewrite D in P. exact P.
Qed.

Lemma span_ext (p q : byte -> bool) l : (forall c, p c = q c) -> span p l = span q l.
Proof. intros H. induction l as [|c l IH]; [reflexivity|]. cbn [span]. rewrite H, IH. reflexivity. Qed.

Lemma accept_run_same set t : all_ascii set ->
  looks (fst (r_accept_run set t)) (fst (accept_run set t)) /\ snd (r_accept_run set t) = snd (accept_run set t).
Proof.
  intros A. unfold r_accept_run. destruct (run_same true set A (length (trest t)) t ltac:(lia)) as [P Q].
  assert (E : accept_run set t = run_bytes true set t); [|rewrite E; auto].
  unfold accept_run, run_bytes. rewrite (span_ext _ (fun c => Bool.eqb (inset c set) true)); [reflexivity|].
  intros c. destruct (inset c set); reflexivity.
Qed.

Lemma except_run_same set t : all_ascii set ->
  looks (fst (r_except_run set t)) (fst (except_run set t)) /\ snd (r_except_run set t) = snd (except_run set t).
Proof.
  intros A. unfold r_except_run. destruct (run_same false set A (length (trest t)) t ltac:(lia)) as [P Q].
  assert (E : except_run set t = run_bytes false set t); [|rewrite E; auto].
  unfold except_run, run_bytes. rewrite (span_ext _ (fun c => Bool.eqb (inset c set) false)); [reflexivity|].
  intros c. destruct (inset c set); reflexivity.
Qed.

Lemma sets_ascii : Forall all_ascii sets_used.
Proof.
  apply Forall_forall. intros s I. apply Forall_forall. intros c J.
  assert (H : forallb (forallb (fun c => code c <? 128)) sets_used = true) by (vm_compute; reflexivity).
  rewrite forallb_forall in H. specialize (H s I). rewrite forallb_forall in H. specialize (H c J). lia.
Qed.
(** ** The callers *)
Lemma used set : In set sets_used -> all_ascii set.
Proof. exact (proj1 (Forall_forall _ _) sets_ascii set). Qed.
Lemma acc_used set t : In set sets_used -> r_accept set t = accept set t.
Proof. intros H. apply accept_same, used, H. Qed.
Lemma peek_used t : r_peek t = None /\ peek t = None \/ exists r c, looks (Some r) (Some c) /\ r_peek t = Some r /\ peek t = Some c.
Proof. pose proof (peek_looks t) as L. destruct (r_peek t), (peek t); try contradiction; eauto 8. Qed.
Lemma run_used set t : In set sets_used -> exists t', r_accept_run set t = (None, t') /\ accept_run set t = (None, t') \/
  exists r c, looks (Some r) (Some c) /\ r_accept_run set t = (Some r, t') /\ accept_run set t = (Some c, t').
Proof.
  intros H. destruct (accept_run_same set t (used set H)) as [A B].
  destruct (r_accept_run set t) as [r t'], (accept_run set t) as [c t'']. cbn [fst snd] in *. subst. exists t''.
  destruct r, c; try contradiction; eauto 8.
Qed.
Lemma exc_used set t : In set sets_used -> exists t', r_except_run set t = (None, t') /\ except_run set t = (None, t') \/
  exists r c, looks (Some r) (Some c) /\ r_except_run set t = (Some r, t') /\ except_run set t = (Some c, t').
Proof.
  intros H. destruct (except_run_same set t (used set H)) as [A B].
  destruct (r_except_run set t) as [r t'], (except_run set t) as [c t'']. cbn [fst snd] in *. subst. exists t''.
  destruct r, c; try contradiction; eauto 8.
Qed.
Lemma looks_eqb r c d n : looks (Some r) (Some c) -> code d = n -> n < 128 -> (r =? n) = beqc c d.
Proof.
  cbn [looks]. intros L <- N. apply eq_true_iff_eq. rewrite Z.eqb_eq, beqc_eq. split; [intros ->; apply code_inj; lia|intros ->; lia].
Qed.
Ltac member := unfold sets_used; cbn [In]; repeat (first [left; reflexivity|right]).
Ltac comps := repeat match goal with
  | L : looks (Some ?r) (Some ?c) |- context [?r =? ?n] => let d := eval vm_compute in (chr n) in rewrite (looks_eqb r c d n L eq_refl eq_refl)
  end.
Ltac step :=
  match goal with
  | |- context [r_accept ?s ?t] => rewrite (acc_used s t) by member; destruct (accept s t) as [? ?]
  | |- context [r_accept_run ?s ?t] => destruct (run_used s t ltac:(member)) as (? & [(-> & ->)|(? & ? & ? & -> & ->)])
  | |- context [r_except_run ?s ?t] => destruct (exc_used s t ltac:(member)) as (? & [(-> & ->)|(? & ? & ? & -> & ->)])
  | |- context [r_peek ?t] => destruct (peek_used t) as [(-> & ->)|(? & ? & ? & -> & ->)]
  | |- context [get ?t] => destruct (get t) as [? ?]
  | |- (if ?b then _ else _) = (if ?b then _ else _) => destruct b
  end; comps; try reflexivity.

Lemma name_same t : r_parseName t = parseName t.
Proof. unfold r_parseName, parseName. repeat step. Qed.
Lemma param_name_same t : r_parseParamName t = parseParamName t.
Proof. unfold r_parseParamName, parseParamName. repeat step. Qed.
Lemma after_same tk t : r_afterParamValue tk t = afterParamValue tk t.
Proof. unfold r_afterParamValue, afterParamValue. repeat step. Qed.
Lemma param_value_same t : r_parseParamValue t = parseParamValue t.
Proof. unfold r_parseParamValue, parseParamValue. repeat (step; rewrite ?after_same). Qed.
Lemma parse_value_same t : r_parseValue t = parseValue t.
Proof. unfold r_parseValue, parseValue. repeat step. Qed.
Lemma next_token_same z : r_next_token z = next_token z.
Proof. unfold r_next_token, next_token. destruct (z_state z); rewrite ?name_same, ?param_name_same, ?param_value_same, ?parse_value_same; reflexivity. Qed.
Lemma phrase_rest_same f : forall inval acc z, r_phrase_rest f inval acc z = phrase_rest f inval acc z.
Proof.
  induction f as [|f IH]; intros inval acc z; [reflexivity|]. cbn [r_phrase_rest phrase_rest]. rewrite next_token_same.
  destruct (next_token z) as [tk z1]. destruct (t_type tk); try reflexivity.
  - rewrite next_token_same. destruct (next_token z1) as [tv z2]. destruct (t_type tv); try reflexivity; apply IH.
  - destruct inval; [apply IH|reflexivity].
  - destruct inval; [apply IH|reflexivity].
Qed.
Lemma phrase_same z : r_get_phrase z = get_phrase z.
Proof.
  unfold r_get_phrase, get_phrase, r_get_phrase_fuel, get_phrase_fuel. rewrite next_token_same. destruct (next_token z) as [tk z1].
  destruct (t_type tk); try reflexivity. apply phrase_rest_same.
Qed.

Section V.
Context {env : Env}.
Lemma duration_loop_same f : forall d level t, r_duration_loop f d level t = duration_loop f d level t.
Proof.
  induction f as [|f IH]; intros d level t; [reflexivity|]. cbn [r_duration_loop duration_loop].
  step. step. step. step; step; (destruct (parse_uint 64 _); [|reflexivity]); try reflexivity. comps.
  repeat (step; rewrite ?IH; try reflexivity).
Qed.
Lemma duration_same s : r_duration_decode s = duration_decode s.
Proof.
  unfold r_duration_decode, duration_decode. step.
  match goal with |- context [if ?b then (true, ?t) else r_accept ?s ?t] => rewrite (acc_used s t) by member; destruct (if b then (true, t) else accept s t) end.
  step. destruct b0 eqn:?; rewrite ?duration_loop_same; try reflexivity.
Qed.
Lemma text_loop_same f : forall d t, r_decode_text f d t = decode_text f d t.
Proof.
  induction f as [|f IH]; intros d t; [reflexivity|]. cbn [r_decode_text decode_text]. step; step.
  match goal with |- (if ?b then _ else _) = (if ?b then _ else _) => destruct b; [|reflexivity] end.
  step. destruct (next _) as [r t2]. destruct (get t2). apply IH.
Qed.
Lemma text_same s : r_text_decode s = text_decode s.
Proof.
  unfold r_text_decode, text_decode. rewrite text_loop_same. destruct (decode_text _ _ _) as [[d t]| | |]; try reflexivity.
  cbn [bind]. step.
Qed.
Lemma mtext_loop_same f : forall n acc t, r_mtext_loop f n acc t = mtext_loop f n acc t.
Proof.
  induction f as [|f IH]; intros n acc t; [reflexivity|]. cbn [r_mtext_loop mtext_loop]. rewrite text_loop_same.
  destruct (decode_text _ _ _) as [[d t']| | |]; try reflexivity. cbn [bind]. repeat (step; rewrite ?IH; try reflexivity).
Qed.
Lemma mtext_same s : r_mtext_decode s = mtext_decode s.
Proof. apply mtext_loop_same. Qed.
Lemma utcoffset_same s : r_utcoffset_decode s = utcoffset_decode s.
Proof.
  unfold r_utcoffset_decode, utcoffset_decode. cbv zeta.
  repeat first
    [ reflexivity
    | match goal with
      | |- context [r_accept ?s ?t] => rewrite (acc_used s t) by member; destruct (accept s t) as [[] ?]
      | |- context [accept ?s ?t] => destruct (accept s t) as [[] ?]
      | |- context [r_peek ?t] => destruct (peek_used t) as [(-> & ->)|(? & ? & ? & -> & ->)]
      | |- context [get ?t] => destruct (get t) as [? ?]
      | |- (if ?b then _ else _) = (if ?b then _ else _) => destruct b
      end ].
Qed.
Lemma decode6868_loop_same f : forall d t, r_decode6868_loop f d t = decode6868_loop f d t.
Proof.
  induction f as [|f IH]; intros d t; [reflexivity|]. cbn [r_decode6868_loop decode6868_loop]. step; step. step.
  destruct (next _) as [[r|] t2]; [|reflexivity]. repeat (match goal with |- (if ?b then _ else _) = _ => destruct b end); apply IH.
Qed.
Lemma decode6868_same s : r_decode6868 s = decode6868 s.
Proof. apply decode6868_loop_same. Qed.
Lemma encode6868_loop_same f : forall d t, r_encode6868_loop f d t = encode6868_loop f d t.
Proof.
  induction f as [|f IH]; intros d t; [reflexivity|]. cbn [r_encode6868_loop encode6868_loop]. step; step.
  rewrite !IH. reflexivity.
Qed.
Lemma encode6868_same s : r_encode6868 s = encode6868 s.
Proof. apply encode6868_loop_same. Qed.

(** ** Decode *)
Section Ext.
Context {St : Type} (g h : St -> res (phrase * St)) (EQ : forall z, g z = h z).
Lemma g_get_ext s : g_get g s = g_get h s.
Proof. destruct s as [z|[|p l]]; [|reflexivity|reflexivity]. cbn [g_get]. rewrite EQ. reflexivity. Qed.
Lemma g_dummy_ext f : forall n s, g_dummy g f n s = g_dummy h f n s.
Proof.
  induction f as [|f IH]; intros n s; [reflexivity|]. cbn [g_dummy]. rewrite g_get_ext.
  destruct (g_get h s) as [[[d|] t]| | |]; cbn [bind]; try reflexivity.
  destruct (parts d) as [[[name ps] value]| | |]; cbn [bind]; try reflexivity.
  destruct (beq (upper name) (bs "BEGIN")).
  - rewrite IH. destruct (g_dummy h f value t); cbn [bind]; try reflexivity. apply IH.
  - destruct (beq (upper name) (bs "END")); [reflexivity|apply IH].
Qed.
Lemma g_gather_ext f : forall ty acc s, g_gather g f ty acc s = g_gather h f ty acc s.
Proof.
  induction f as [|f IH]; intros ty acc s; [reflexivity|]. cbn [g_gather]. rewrite g_get_ext.
  destruct (g_get h s) as [[[d|] t]| | |]; cbn [bind]; try reflexivity.
  destruct (parts d) as [[[name ps] value]| | |]; cbn [bind]; try reflexivity.
  destruct (beq name (bs "BEGIN")); [reflexivity|]. destruct (beq name (bs "ACTION")); [destruct ty; [reflexivity|apply IH]|].
  destruct (beq name (bs "END")); [reflexivity|apply IH].
Qed.
Lemma g_sec_ext f : forall id fs s, g_sec g f id fs s = g_sec h f id fs s.
Proof.
  induction f as [|f IH]; intros id fs s; [reflexivity|]. cbn [g_sec]. rewrite g_get_ext.
  destruct (g_get h s) as [[[d|] t]| | |]; cbn [bind]; try reflexivity.
  destruct (parts d) as [[[name ps] value]| | |]; cbn [bind]; try reflexivity.
  destruct (beq (upper name) (bs "BEGIN")).
  - destruct (find_field _ _) as [[i fd]|].
    + destruct (full fd i fs); [reflexivity|]. destruct (fd_type fd); [reflexivity| |].
      * rewrite IH. destruct (g_sec h f _ _ t) as [[x t1]| | |]; cbn [bind]; try reflexivity. apply IH.
      * rewrite g_gather_ext. destruct (g_gather h f None [] t) as [[[pt ty] t1]| | |]; cbn [bind]; try reflexivity.
        destruct ty as [sid|]; [|reflexivity]. rewrite IH. destruct (g_sec h f sid _ _) as [[x t2]| | |]; cbn [bind]; try reflexivity. apply IH.
    + rewrite g_dummy_ext. destruct (g_dummy h f _ t); cbn [bind]; try reflexivity. apply IH.
  - destruct (find_field _ _) as [[i fd]|].
    + destruct (full fd i fs); [reflexivity|]. destruct (fd_type fd); try reflexivity.
      destruct (prop_decode _ ps value); cbn [bind]; try reflexivity. apply IH.
    + destruct (beq (upper name) (bs "END")); [reflexivity|apply IH].
Qed.
Lemma g_decode_ext f s : g_decode g f s = g_decode h f s.
Proof.
  unfold g_decode. rewrite g_get_ext. destruct (g_get h s) as [[[d|] t]| | |]; cbn [bind]; try reflexivity.
  destruct (parts d) as [[[name ps] value]| | |]; cbn [bind]; try reflexivity. destruct (_ && _); [apply g_sec_ext|reflexivity].
Qed.
End Ext.
Theorem decode_same s : r_decode_bytes s = decode_bytes s.
Proof. unfold r_decode_bytes, decode_bytes. rewrite decode_conv. rewrite (g_decode_ext _ _ phrase_same). reflexivity. Qed.
End V.
