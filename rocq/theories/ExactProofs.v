(** Decoding of bytes: exactness, no fuel shortage, where panics come from. *)
From Coq Require Import String Ascii ZArith Bool List Lia.
From Verif Require Import Base Lib Strtok Tokeniser SpecContent TokeniserProofs GoTime Types Params ParamTable PropTable Props SecTable Sections Codec SpecTree TreeProofs.
Import ListNotations.

Section Exact.
Context {env : Env}.

Lemma lines_text_cons l ls : lines_text (l :: ls) = cline_render l ++ CRLF ++ lines_text ls.
Proof. unfold lines_text. cbn [map concat]. rewrite <- app_assoc. reflexivity. Qed.
Lemma lines_text_app a b : lines_text (a ++ b) = lines_text a ++ lines_text b.
Proof. unfold lines_text. rewrite map_app, concat_app. reflexivity. Qed.

(** Reading lines off a text, and the text of the lines read. *)
Lemma reads_text : forall ls e z s s', ready z s -> reads (SrcTok z) (ls ++ [e]) s' ->
  exists tail z', s' = SrcTok z' /\ line_end tail z' /\ s = lines_text ls ++ cline_render e ++ tail.
Proof.
  assert (STEP : forall z s l s1, ready z s -> get_ph (SrcTok z) = Ok (PhraseLine (cline_tokens l), s1) ->
    exists tail z', s1 = SrcTok z' /\ line_end tail z' /\ s = cline_render l ++ tail).
  { intros z s l s1 R G. cbn [get_ph] in G. pose proof (get_phrase_sound z s R) as P.
    destruct (get_phrase z) as [[[data|] z']| | |]; cbn [bind] in G; try discriminate G.
    apply Ok_inj in G. injection G as G <-. destruct P as (l' & e & W & D & L & T). rewrite G in D. apply cline_tokens_inj in D. subst l'. eauto. }
  induction ls as [|l ls IH]; intros e z s s' R H; cbn [app] in H.
  - apply reads_one in H. destruct (STEP z s e s' R H) as (tail & z' & A & B & C). exists tail, z'. auto.
  - inversion H as [|? ? s1 ? ? G R1]; subst. destruct (STEP z s l s1 R G) as (tail & z' & -> & B & ->). destruct B as [r|].
    + destruct (IH e _ r s' (R_name r) R1) as (t2 & z2 & A2 & B2 & ->). exists t2, z2. split; [exact A2|]. split; [exact B2|].
      rewrite lines_text_cons, <- app_assoc. reflexivity.
    + exfalso. destruct ls; cbn [app] in R1; inversion R1 as [|? ? s3 ? ? G3 R3]; subst; discriminate G3.
Qed.

Lemma text_reads : forall ls e tail z', wf_lines (ls ++ [e]) -> line_end tail z' ->
  reads (SrcTok (Tkz SName (Tok [] (lines_text ls ++ cline_render e ++ tail)))) (ls ++ [e]) (SrcTok z').
Proof.
  induction ls as [|l ls IH]; intros e tail z' W L; cbn [app].
  - apply reads_one_intro. inversion W; subst. cbn [get_ph lines_text map concat app].
    rewrite (get_phrase_complete e tail z') by assumption. reflexivity.
  - inversion W as [|? ? W0 W1]; subst. rewrite lines_text_cons. econstructor; [|apply IH; [exact W1|exact L]].
    cbn [get_ph]. rewrite <- !app_assoc. change (CRLF ++ lines_text ls ++ cline_render e ++ tail) with (CR :: LF :: lines_text ls ++ cline_render e ++ tail).
    rewrite (get_phrase_complete l _ _ W0 (LE_crlf _)). reflexivity.
Qed.

Lemma lines_text_long ls : length ls <= length (lines_text ls).
Proof. induction ls as [|l ls IH]; [reflexivity|]. rewrite lines_text_cons, !app_length. cbn [length CRLF]. lia. Qed.

Lemma line_end_tail tail z : line_end tail z -> tail = [] \/ exists r, tail = CRLF ++ r.
Proof. intros [r|]; [right; exists r; reflexivity|left; reflexivity]. Qed.
Lemma tail_line_end tail : tail = [] \/ (exists r, tail = CRLF ++ r) -> exists z, line_end tail z.
Proof. intros [->|[r ->]]; eexists; constructor. Qed.

Lemma decode_bytes_exact s cal : decode_bytes s = Ok cal <-> spells s cal.
Proof.
  unfold decode_bytes, decode_src. split.
  - intros H. destruct (get_ph (SrcTok (new_tokeniser s))) as [[[data|] s1]| | |] eqn:G; cbn [bind] in H; try discriminate H.
    assert (O : src_ok (SrcTok (new_tokeniser s))) by (econstructor; constructor).
    destruct (get_ph_line _ data s1 O G) as (b & -> & W & O1). rewrite parts_tokens in H. cbn [bind] in H.
    destruct (beq (upper (cl_name b)) (bs "BEGIN") && beq (upper (cl_value b)) (bs "VCALENDAR")) eqn:B; [|discriminate].
    apply andb_true_iff in B as [B V]. apply beq_eq in B, V.
    destruct (dec_sec _ SCalendar (no_fields SCalendar) s1) as [[c s2]| | |] eqn:D; cbn [bind] in H; try discriminate H. apply Ok_inj in H. subst c.
    apply dec_sec_means in D as (items & e & R & W2 & _ & E & Ve & M); [|exact O1].
    assert (R' : reads (SrcTok (new_tokeniser s)) ((b :: flat_map ilines items) ++ [e]) s2) by (cbn [app]; econstructor; eassumption).
    destruct (reads_text _ e (new_tokeniser s) s s2 (R_name s) R') as (tail & z' & _ & L & T).
    exists b, items, e, tail. split; [exact B|]. split; [exact V|]. split; [exact M|]. split; [exact E|]. split; [exact Ve|].
    split; [constructor; assumption|]. split; [exact T|]. eapply line_end_tail; eauto.
  - intros (b & items & e & tail & B & V & M & E & Ve & W & -> & T). apply tail_line_end in T as [z T].
    assert (R := text_reads (b :: flat_map ilines items) e tail z W T). cbn [app] in R.
    inversion R as [|? ? s1 ? ? G R1]; subst. change (new_tokeniser ?x) with (Tkz SName (Tok [] x)). rewrite G. cbn [bind].
    rewrite parts_tokens. cbn [bind]. unfold is_begin, line_is in B. rewrite B, V, !beq_refl. cbn [andb].
    rewrite (means_dec_sec _ SCalendar items e s1 (SrcTok z) cal); try assumption; [reflexivity|].
    rewrite app_length. pose proof (lines_text_long (b :: flat_map ilines items)) as L. cbn [length] in L. lia.
Qed.

(** ** Sizes *)
Definition size (s : src) : nat := match s with SrcTok z => length (trest (z_tok z)) | SrcList l => length l end.
Lemma get_ph_size s d s1 : src_ok s -> get_ph s = Ok (PhraseLine d, s1) -> size s1 < size s.
Proof.
  intros O G. destruct O as [z s R|ls W].
  - cbn [get_ph] in G. pose proof (get_phrase_sound z s R) as P. destruct (get_phrase z) as [[[data|] z']| | |]; cbn [bind] in G; try discriminate G.
    apply Ok_inj in G. injection G as _ <-. destruct P as (l & e & _ & _ & L & T). cbn [size].
    assert (Z : trest (z_tok z) = s) by (destruct R; reflexivity). rewrite Z, T. rewrite app_length. unfold cline_render. rewrite !app_length. cbn [length bs list_ascii_of_string].
    destruct L; cbn [z_tok trest length]; lia.
  - destruct ls; cbn [map get_ph] in G; [discriminate|]. apply Ok_inj in G. injection G as _ <-. cbn [size length map]. lia.
Qed.
Lemma reads_size : forall s ls s1, reads s ls s1 -> src_ok s -> size s1 + length ls <= size s /\ src_ok s1.
Proof.
  induction 1 as [s|s l s1 ls s2 G R IH]; intros O; [cbn [length]; split; [lia|exact O]|]. cbn [length].
  pose proof (get_ph_size _ _ _ O G). destruct (get_ph_line _ _ _ O G) as (l' & _ & _ & O1). destruct (IH O1). split; [lia|assumption].
Qed.

Lemma get_ph_total s : src_ok s -> get_ph s <> NoFuel /\ get_ph s <> Panic.
Proof.
  intros O. destruct O as [z s R|ls W].
  - cbn [get_ph]. pose proof (get_phrase_sound z s R) as P. destruct (get_phrase z) as [[[data|] z']| | |]; cbn [bind]; first [split; discriminate|destruct P].
  - destruct ls; cbn [map get_ph]; split; discriminate.
Qed.
End Exact.
