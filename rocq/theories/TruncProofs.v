(** Calendars that are cut off. *)
From Coq Require Import String Ascii ZArith Bool List Lia.
From Verif Require Import Base Lib Strtok Tokeniser SpecContent TokeniserProofs GoTime Types Params ParamTable PropTable Props SecTable Sections Codec SpecTree TreeProofs ExactProofs SpecBadLine SpecFail FailProofs FailTextProofs SpecTrunc.
Import ListNotations.

Section Trunc.
Context {env : Env}.

(** Every first part of the lines is such a cut. *)
Lemma prefix_split {A} (a b c d : list A) : a ++ b = c ++ d -> (exists k, c = a ++ k /\ b = k ++ d) \/ (exists x k, a = c ++ x :: k).
Proof.
  revert c. induction a as [|x a IH]; intros c H; cbn [app] in H; [left; exists c; auto|]. destruct c as [|y c]; [right; exists x, a; reflexivity|].
  cbn [app] in H. injection H as -> H. destruct (IH c H) as [(k & -> & ->)|(z & k & ->)]; [left; exists k; auto|right; exists z, k; reflexivity].
Qed.

Lemma cut_prepend i items pre al : cut_at items pre al -> cut_at (i :: items) (ilines i ++ pre) al.
Proof.
  intros [it more|it b body e more pre' al' H|it b body e more pre' post H|it b pre' post e more].
  - apply (Cut_here (i :: it) more).
  - rewrite app_assoc. apply (Cut_comp (i :: it) b body e more pre' al' H).
  - rewrite app_assoc. apply (Cut_other (i :: it) b body e more pre' post H).
  - rewrite app_assoc. apply (Cut_alarm (i :: it) b pre' post e more).
Qed.
Fixpoint isize (i : item) : nat := match i with IComp _ body _ => S (list_sum (map isize body)) | _ => 1 end.
Lemma cut_exists : forall n items pre post, list_sum (map isize items) < n -> flat_map ilines items = pre ++ post -> exists al, cut_at items pre al.
Proof.
  induction n as [|n IH]; intros items pre post Ln H; [lia|]. destruct items as [|i items].
  - cbn [flat_map] in H. destruct pre; [|discriminate]. exists false. apply (Cut_here [] []).
  - assert (HERE : forall p al, cut_at [i] p al -> exists al', cut_at (i :: items) p al').
    { intros p al C. exists al. remember [i] as li eqn:Q. destruct C as [it more|it b body e more p' al' C|it b body e more p' q' C|it b p' q' e more].
      - destruct it as [|j it]; [apply (Cut_here [] (i :: items))|]. destruct it; cbn [app] in Q; [|discriminate Q]. injection Q as -> ->. apply (Cut_here [i] items).
      - destruct it as [|j it]; [|destruct it; discriminate Q]. injection Q as <- ->. apply (Cut_comp [] b body e items p' al' C).
      - destruct it as [|j it]; [|destruct it; discriminate Q]. injection Q as <- ->. apply (Cut_other [] b body e items p' q' C).
      - destruct it as [|j it]; [|destruct it; discriminate Q]. injection Q as <- ->. apply (Cut_alarm [] b p' q' e items). }
    cbn [flat_map] in H. cbn [map list_sum fold_right] in Ln. fold (list_sum (map isize items)) in Ln. apply prefix_split in H as [(k & -> & H)|(x & k & H)].
    + assert (L2 : list_sum (map isize items) < n) by (destruct i; cbn [isize] in Ln; lia).
      destruct (IH items k post L2 H) as [al C]. exists al. apply cut_prepend. exact C.
    + destruct pre as [|b0 pre]; [exists false; apply (Cut_here [] (i :: items))|]. destruct i as [l|b body e|b body e|b body e]; cbn [ilines app] in H.
      * injection H as -> H. destruct pre; discriminate H.
      * injection H as -> H. assert (T : exists q, flat_map ilines body = pre ++ q).
        { apply prefix_split in H as [(k' & -> & H)|(y & k' & H)]; [|exists (y :: k'); exact H]. destruct k'; [exists []; rewrite app_nil_r; rewrite app_nil_r; reflexivity|]. destruct k'; discriminate H. }
        destruct T as [q T]. assert (Lb : list_sum (map isize body) < n) by (cbn [isize] in Ln; lia). destruct (IH body pre q Lb T) as [al C]. apply (HERE _ al). apply (Cut_comp [] b0 body e [] pre al C).
      * injection H as -> H. assert (T : exists q, body = pre ++ q).
        { apply prefix_split in H as [(k' & -> & H)|(y & k' & H)]; [|exists (y :: k'); exact H]. destruct k'; [exists []; rewrite app_nil_r; rewrite app_nil_r; reflexivity|]. destruct k'; discriminate H. }
        destruct T as [q ->]. apply (HERE _ true). apply (Cut_alarm [] b0 pre q e []).
      * injection H as -> H. assert (T : exists q, flat_map dlines body = pre ++ q).
        { apply prefix_split in H as [(k' & -> & H)|(y & k' & H)]; [|exists (y :: k'); exact H]. destruct k'; [exists []; rewrite app_nil_r; rewrite app_nil_r; reflexivity|]. destruct k'; discriminate H. }
        destruct T as [q T]. apply (HERE _ false). apply (Cut_other [] b0 body e [] pre q T).
Qed.

(** ** What is left of a component *)
Lemma holds_app fd a : forall b vs, holds fd (a ++ b) vs -> exists v1 v2, vs = v1 ++ v2 /\ holds fd a v1 /\ holds fd b v2.
Proof.
  induction a as [|i a IH]; intros b vs H; cbn [app] in H; [exists [], vs; split; [reflexivity|]; split; [constructor|exact H]|].
  inversion H as [|? ? ? ? NB H'|? ? ? v vs' B IM H']; subst; destruct (IH _ _ H') as (v1 & v2 & -> & H1 & H2).
  - exists v1, v2. split; [reflexivity|]. split; [constructor; assumption|exact H2].
  - exists (v :: v1), v2. split; [reflexivity|]. split; [constructor; assumption|exact H2].
Qed.
Lemma collect (P : field -> list fval -> Prop) : forall l, (forall fd, In fd l -> exists v, P fd v) ->
  exists fs, length fs = length l /\ forall i fd, nth_error l i = Some fd -> P fd (nth i fs []).
Proof.
  induction l as [|g l IH]; intros H; [exists []; split; [reflexivity|]; intros [|i] fd E; discriminate|].
  destruct (H g (in_eq _ _)) as [v V]. destruct (IH (fun fd I => H fd (in_cons _ _ _ I))) as (fs & L & N). exists (v :: fs). cbn [length]. split; [congruence|].
  intros [|i] fd E; cbn [nth_error nth] in *; [injection E as <-; exact V|apply N; exact E].
Qed.

Lemma means_so_far id items x more : means id (items ++ more) x -> exists fs, so_far id items fs.
Proof.
  intros M. inversion M as [id' its fs I L H X]; subst. apply Forall_app in I as [I _].
  destruct (collect (fun fd v => holds fd items v /\ (fd_mode fd <> FMany -> length v <= 1)) (fields_of id)) as (fs' & L' & N).
  { intros fd Ifd. apply In_nth_error in Ifd as [i Ni]. destruct (H i fd Ni) as [Hh C]. apply holds_app in Hh as (v1 & v2 & E & H1 & H2). exists v1. split; [exact H1|].
    intros Mo. rewrite E, app_length in C. destruct (fd_mode fd); cbn [count_ok] in C; [lia|lia|congruence]. }
  exists fs'. split; [exact I|]. split; [exact L'|exact N].
Qed.

Lemma means_at id items i more x fd : means id (items ++ i :: more) x -> In fd (fields_of id) -> belongs fd i -> exists v, item_means (fd_type fd) i v.
Proof.
  intros M Ifd B. inversion M as [id' its fs I L H X]; subst. apply In_nth_error in Ifd as [k Nk]. destruct (H k fd Nk) as [Hh _].
  apply holds_app in Hh as (v1 & v2 & _ & _ & H2). inversion H2 as [|? ? ? ? NB _|? ? ? v vs' _ IM _]; subst; [contradiction|]. eauto.
Qed.
Lemma means_ok id items i more x : means id (items ++ i :: more) x -> item_ok id i.
Proof. intros M. inversion M as [id' its fs I L H X]; subst. apply Forall_app in I as [_ I]. inversion I; assumption. Qed.

(** Skipped components *)
Lemma skip_cut : forall m n ds pre post, length pre < m -> Forall skippable ds -> flat_map dlines ds = pre ++ post -> skip_fault n pre AtEnd (Failed ErrUnexpectedEOF).
Proof.
  induction m as [|m IH]; intros n ds pre post Lm K H; [lia|]. destruct K as [|d ds K0 K1].
  - destruct pre; [|discriminate H]. apply (Sf_end n [] AtEnd). constructor.
  - cbn [flat_map] in H. destruct pre as [|b0 pre]; [apply (Sf_end n [] AtEnd); constructor|]. apply prefix_split in H as [(k & Q & H)|(x & k & H)].
    + assert (Lk : length k < m).
      { apply (f_equal (@length cline)) in Q. rewrite app_length in Q. cbn [length] in Q, Lm. destruct d; cbn [dlines length] in Q; lia. }
      pose proof (IH n ds k post Lk K1 H) as S. rewrite Q. destruct K0 as [l P|b body e B E V Kb]; cbn [dlines].
      * apply skip_fault_line; assumption.
      * rewrite <- app_comm_cons. apply skip_fault_comp; assumption.
    + destruct K0 as [l P|b body e B E V Kb]; cbn [dlines app] in H.
      * injection H as -> H. destruct pre; discriminate H.
      * injection H as -> H. assert (T : exists q, flat_map dlines body = pre ++ q).
        { apply prefix_split in H as [(k' & -> & H)|(y & k' & H)]; [|exists (y :: k'); exact H]. destruct k'; [exists []; rewrite app_nil_r; rewrite app_nil_r; reflexivity|]. destruct k'; discriminate H. }
        destruct T as [q T]. cbn [length] in Lm. apply (Sf_in n [] b0 pre AtEnd); [constructor|exact B|]. eapply IH; [|exact Kb|exact T]. lia.
Qed.

(** Alarms *)
Lemma values_named_app n a b : values_named n (a ++ b) = values_named n a ++ values_named n b.
Proof. unfold values_named. rewrite filter_app, map_app. reflexivity. Qed.
Lemma action_prefix pre post us w sid : values_named (bs "ACTION") (pre ++ post) = us ++ [w] -> Forall (fun u => forall id, ~ action_is u id) us -> action_is w sid ->
  exists ty, action_so_far pre ty.
Proof.
  intros H F A. rewrite values_named_app in H. destruct (values_named (bs "ACTION") post) as [|v post'] eqn:Q.
  - rewrite app_nil_r in H. exists (Some sid), us, w. auto.
  - exists None. unfold action_so_far. destruct (exists_last (l := v :: post')) as (p & u & E); [discriminate|]. rewrite E, app_assoc in H. apply app_inj_tail in H as [H _].
    rewrite <- H in F. apply Forall_app in F as [F _]. exact F.
Qed.

Theorem cut_fault : forall items pre al, cut_at items pre al -> forall id x, means id items x ->
  fault id pre AtEnd (if al then Panicked else Failed ErrUnexpectedEOF).
Proof.
  induction 1 as [items more|items b body e more pre al C IH|items b body e more pre post Q|items b pre post e more]; intros id x M.
  - apply means_so_far in M as [fs SF]. rewrite <- (app_nil_r (flat_map ilines items)). apply (Fault id items fs [] AtEnd _ SF (Br_end id fs AtEnd)).
  - pose proof (means_ok _ _ _ _ _ M) as (B & fd & sid & Ifd & Ty & Bl). destruct (means_at _ _ _ _ _ fd M Ifd Bl) as [v IM].
    rewrite Ty in IM. inversion IM as [|? ? ? ? y M2 _ _|]; subst. apply means_so_far in M as [fs SF].
    apply (Fault id items fs (b :: pre) AtEnd _ SF). eapply Br_comp; try eassumption; [unfold belongs in Bl; rewrite Ty in Bl; exact Bl|]. eapply IH; eauto.
  - pose proof (means_ok _ _ _ _ _ M) as (B & E & V & K & NF). apply means_so_far in M as [fs SF].
    apply (Fault id items fs (b :: pre) AtEnd _ SF). apply Br_skip; [exact B|exact NF|]. eapply skip_cut; [|exact K|exact Q]. apply Nat.lt_succ_diag_r.
  - pose proof (means_ok _ _ _ _ _ M) as (B & fd & Ifd & Ty & Bl). destruct (means_at _ _ _ _ _ fd M Ifd Bl) as [v IM].
    rewrite Ty in IM. inversion IM as [| |? ? ? us w sid sub e' more' y Fb Ne A1 A2 A3 _ _ _ _]; subst. apply means_so_far in M as [fs SF].
    apply (Fault id items fs (b :: pre) AtEnd _ SF). eapply Br_alarm; try eassumption; [unfold belongs in Bl; rewrite Ty in Bl; exact Bl|].
    destruct (action_prefix pre post us w sid A1 A2 A3) as [ty A]. apply Forall_app in Fb as [Fb _]. apply (Al_end pre ty AtEnd Fb A).
Qed.

Theorem every_cut items pre post : flat_map ilines items = pre ++ post -> exists al, cut_at items pre al.
Proof. apply (cut_exists (S (list_sum (map isize items)))). lia. Qed.
Theorem decode_cut_off s b items cal pre al : opens_calendar b -> means SCalendar items cal -> cut_at items pre al -> cut_into s (b :: pre) AtEnd ->
  decode_bytes s = if al then Panic else Err ErrUnexpectedEOF.
Proof.
  intros Op M C Cu. pose proof (Fl_inside _ _ _ _ _ Cu Op (cut_fault items pre al C SCalendar cal M)) as F. apply decode_fails in F. destruct al; exact F.
Qed.
End Trunc.
