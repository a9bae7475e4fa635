(** genProperties.sh and its descriptions. *)
From Coq Require Import String Ascii ZArith Bool List Lia.
From Verif Require Import Base Lib Utf8 GoStrings Types Params ParamTable PropTable SecTable LabelTable Generator GenFiles SpecGen GenProofs.
Import ListNotations.

(** Lines of letters, digits, and the signs of the language *)
Definition head_line (d : pdesc) : bytes := pd_head d ++ bs ":" ++ (if pd_types d then bs "!" else []) ++ join (bs "|") (pd_values d).
Lemma join_words c ws (P : byte -> Prop) : P c -> Forall (Forall P) ws -> Forall P (join [c] ws).
Proof.
  intros Pc F. induction F as [|w ws Fw F IH]; [constructor|]. destruct ws as [|w2 ws]; [exact Fw|]. change (join [c] (w :: w2 :: ws)) with (w ++ c :: join [c] (w2 :: ws)).
  apply Forall_app. split; [exact Fw|]. constructor; [exact Pc|exact IH].
Qed.
Lemma head_not c d : word_char c = false -> c <> "#"%char -> good_prop d -> Forall (fun x => x <> c) (pd_head d).
Proof.
  intros N N2 (W & Al & _). unfold pd_head. apply Forall_app. split; [|apply word_not; [exact N|exact (proj2 W)]]. destruct (pd_alias d) as [a|]; [|constructor].
  apply Forall_app. split; [apply word_not; [exact N|exact (proj2 (Al a eq_refl))]|]. constructor; [congruence|constructor].
Qed.
Lemma values_not c d : word_char c = false -> c <> "|"%char -> good_prop d -> Forall (fun x => x <> c) (join (bs "|") (pd_values d)).
Proof. intros N N2 (_ & _ & _ & V & _). apply join_words; [congruence|]. eapply Forall_impl; [|exact V]. intros w [_ W]. apply word_not; assumption. Qed.
Lemma line_not c d : word_char c = false -> ~ In c (bs "#:!|") -> good_prop d -> Forall (fun x => x <> c) (head_line d).
Proof.
  intros N N2 G. unfold head_line. apply Forall_app. split; [apply head_not; [exact N|intros ->; apply N2; cbn; tauto|exact G]|]. apply Forall_app. split; [constructor; [intros Q; apply N2; rewrite <- Q; cbn; tauto|constructor]|].
  apply Forall_app. split; [|apply values_not; [exact N|intros ->; apply N2; cbn; tauto|exact G]]. destruct (pd_types d); [|constructor]. constructor; [intros Q; apply N2; rewrite <- Q; cbn; tauto|constructor].
Qed.
Lemma prop_line_of d : good_prop d -> prop_line (head_line d) = GProp (pd_head d) (pd_types d) (pd_values d) [].
Proof.
  intros G. pose proof G as (_ & _ & Nv & V & _). pose proof (values_not ":"%char d eq_refl ltac:(discriminate) G) as Vn.
  assert (F1 : field1 ":" (head_line d) = pd_head d) by (unfold field1, head_line; change (bs ":" ++ ?x) with (":"%char :: x); rewrite (cut_at_first ":"%char (pd_head d) _ (head_not ":"%char d eq_refl ltac:(discriminate) G)); reflexivity).
  assert (F2 : field2 ":" (head_line d) = (if pd_types d then bs "!" else []) ++ join (bs "|") (pd_values d)).
  { unfold field2, head_line. change (bs ":" ++ ?x) with (":"%char :: x). rewrite (cut_at_first ":"%char (pd_head d) _ (head_not ":"%char d eq_refl ltac:(discriminate) G)).
    unfold field1. rewrite cut_no; [reflexivity|]. apply Forall_app; split; [destruct (pd_types d); repeat constructor; discriminate|exact Vn]. }
  unfold prop_line. rewrite F1, F2.
  assert (Wj : words "|" (join (bs "|") (pd_values d)) = pd_values d). { apply (words_join "|"%char); [exact Nv|]. eapply Forall_impl; [|exact V]. intros w [Nw W]. split; [exact Nw|apply word_not; [reflexivity|exact W]]. }
  destruct (pd_types d).
  - change (bs "!" ++ ?x) with ("!"%char :: x). cbn [starts tl]. change (beqc "!" "!") with true. cbv iota. rewrite Wj. reflexivity.
  - cbn [app]. assert (S0 : starts "!" (join (bs "|") (pd_values d)) = false).
    { destruct (pd_values d) as [|v vs]; [contradiction|]. apply Forall_inv in V. destruct vs as [|v2 vs]; [cbn [join]; pose proof (starts_word "!"%char v [] eq_refl V) as H; rewrite app_nil_r in H; exact H|].
      change (join (bs "|") (v :: v2 :: vs)) with (v ++ bs "|" ++ join (bs "|") (v2 :: vs)). apply starts_word; [reflexivity|exact V]. }
    rewrite S0, Wj. reflexivity.
Qed.
Lemma param_line_of p : is_word p -> prop_line p = GProp p false [p] [].
Proof.
  intros [N W]. unfold prop_line, field1, field2. rewrite (cut_no ":"%char p (word_not ":"%char p eq_refl W)). pose proof (starts_word "!"%char p [] eq_refl (conj N W)) as H. rewrite app_nil_r in H. rewrite H.
  rewrite (words_one "|"%char p N (word_not "|"%char p eq_refl W)). reflexivity.
Qed.
Definition pd_lines (d : pdesc) : list bytes := head_line d :: map (fun p => TABc :: p) (pd_params d).
Lemma prop_text_lines d s : good_prop d -> file_lines (prop_text d ++ s) = pd_lines d ++ file_lines s.
Proof.
  intros G. pose proof G as (_ & _ & _ & _ & Ps). unfold prop_text. assert (E : forall r, pd_head d ++ bs ":" ++ (if pd_types d then bs "!" else []) ++ join (bs "|") (pd_values d) ++ [LF] ++ r = head_line d ++ [LF] ++ r) by (intros r; unfold head_line; rewrite <- !app_assoc; reflexivity).
  rewrite E, <- !app_assoc, file_line; [|apply line_not; [reflexivity|cbn; intros H; repeat (destruct H as [H|H]; [discriminate H|]); exact H|exact G]].
  unfold pd_lines. rewrite <- app_comm_cons. f_equal. clear E G. induction Ps as [|p ps W _ IH]; [reflexivity|]. cbn [map concat]. rewrite <- !app_assoc.
  pose proof (file_line (TABc :: p) (concat (map (fun p => [TABc] ++ p ++ [LF]) ps) ++ s)) as H. rewrite <- app_comm_cons in H. change ([TABc] ++ ?x) with (TABc :: x). rewrite H, IH; [reflexivity|]. constructor; [discriminate|apply (word_lf _ W)].
Qed.
Lemma props_text_lines ds : Forall good_prop ds -> file_lines (props_text ds) = flat_map pd_lines ds.
Proof. unfold props_text. induction 1 as [|d ds G _ IH]; [reflexivity|]. cbn [map concat flat_map]. rewrite (prop_text_lines d _ G), IH. reflexivity. Qed.

(** The lines are read as they are if only line ends are removed; otherwise without the tabs. *)
Lemma head_read ifs d : forallb (fun x => negb (word_char x)) ifs = true -> ~ In "#"%char ifs -> good_prop d -> read_line ifs (head_line d) = head_line d.
Proof.
  intros F N G. pose proof G as (W & Al & Nv & V & _). assert (Hd : exists a x, head_line d = a :: x /\ word_char a = true).
  { unfold head_line, pd_head. destruct (pd_alias d) as [a|]; [destruct (word_first _ (Al a eq_refl)) as (c & x & -> & Wc)|destruct (word_first _ W) as (c & x & -> & Wc)]; eexists; eexists; (split; [reflexivity|exact Wc]). }
  assert (Hl : exists b y, rev (head_line d) = b :: y /\ word_char b = true).
  { assert (J : exists b y, rev (join (bs "|") (pd_values d)) = b :: y /\ word_char b = true).
    { clear Hd. induction V as [|v vs Wv V IH]; [contradiction|]. destruct vs as [|v2 vs].
      - cbn [join]. destruct (first_last v (proj1 Wv)) as (_ & _ & b & y & _ & R & _ & I). exists b, y. split; [exact R|]. destruct Wv as [_ Wv]. rewrite forallb_forall in Wv. auto.
      - destruct (IH ltac:(discriminate)) as (b & y & R & Wb). change (join (bs "|") (v :: v2 :: vs)) with (v ++ bs "|" ++ join (bs "|") (v2 :: vs)). rewrite !rev_app_distr, R. exists b. eexists. split; [rewrite <- !app_comm_cons; reflexivity|exact Wb]. }
    destruct J as (b & y & R & Wb). unfold head_line. rewrite !rev_app_distr, R. exists b. eexists. split; [rewrite <- !app_comm_cons; reflexivity|exact Wb]. }
  destruct Hd as (a & x & E & Wa), Hl as (b & y & R & Wb). apply (read_same ifs _ a x b y E R); apply word_in; assumption.
Qed.
Lemma map_read d : good_prop d -> map (read_line [LF]) (pd_lines d) = pd_lines d /\ map (read_line properties_ifs) (pd_lines d) = head_line d :: pd_params d.
Proof.
  intros G. pose proof G as (_ & _ & _ & _ & Ps). unfold pd_lines. cbn [map]. rewrite (head_read [LF] d eq_refl ltac:(intros [H|[]]; discriminate H) G), (head_read properties_ifs d eq_refl ltac:(cbn; intros H; repeat (destruct H as [H|H]; [discriminate H|]); exact H) G).
  split; f_equal; rewrite map_map.
  - clear G. induction Ps as [|p ps W _ IH]; [reflexivity|]. cbn [map]. rewrite IH. f_equal. destruct (first_last p (proj1 W)) as (a & x & b & y & E & R & _ & I). apply (read_same [LF] (TABc :: p) TABc p b (y ++ [TABc])); try reflexivity; [cbn [rev]; rewrite R; reflexivity|].
    apply word_in; [reflexivity|]. destruct W as [_ W]. rewrite forallb_forall in W. auto.
  - clear G. induction Ps as [|p ps W _ IH]; [reflexivity|]. cbn [map]. rewrite IH. f_equal. exact (read_word properties_ifs p eq_refl W).
Qed.
Lemma rows_params ps : Forall is_word ps -> forall g ls, prop_rows (Some g) (map (fun p => TABc :: p) ps ++ ls) = prop_rows (Some (GProp (gr_line g) (gr_value_type g) (gr_values g) (gr_params g ++ ps))) ls.
Proof.
  induction 1 as [|p ps W _ IH]; intros g ls.
  - cbn [map app]. rewrite app_nil_r. destruct g; reflexivity.
  - cbn [map app prop_rows starts tl]. change (beqc TABc TABc) with true. cbv iota. rewrite IH. cbn [gr_line gr_value_type gr_values gr_params]. rewrite <- app_assoc. reflexivity.
Qed.
Lemma head_no_tab d : good_prop d -> starts TABc (head_line d) = false.
Proof.
  intros (W & Al & _). unfold head_line, pd_head. destruct (pd_alias d) as [a|].
  - rewrite <- !app_assoc. apply starts_word; [reflexivity|exact (Al a eq_refl)].
  - rewrite app_nil_l. apply starts_word; [reflexivity|exact W].
Qed.
Theorem props_meant ds : Forall good_prop ds -> gen_props_with [LF] (props_text ds) = map prop_meant ds.
Proof.
  intros F. unfold gen_props_with. rewrite (props_text_lines ds F). assert (E : map (read_line [LF]) (flat_map pd_lines ds) = flat_map pd_lines ds).
  { induction F as [|d ds G _ IH]; [reflexivity|]. cbn [flat_map]. rewrite map_app, (proj1 (map_read d G)), IH. reflexivity. }
  rewrite E. clear E. assert (H : forall g, prop_rows (Some g) (flat_map pd_lines ds) = g :: map prop_meant ds).
  { induction F as [|d ds G _ IH]; intros g; [reflexivity|]. cbn [flat_map pd_lines app prop_rows]. rewrite (head_no_tab d G), (prop_line_of d G), (rows_params _ (proj2 (proj2 (proj2 (proj2 G))))). cbn [gr_line gr_value_type gr_values gr_params app]. rewrite IH. reflexivity. }
  destruct F as [|d ds G F]; [reflexivity|]. specialize (H (GProp [] false [] [])). cbn [flat_map pd_lines app prop_rows] in *. rewrite (head_no_tab d G) in *. cbn [map] in H. injection H as H. exact H.
Qed.
Theorem props_are_made ds : Forall good_prop ds -> gen_props (props_text ds) = flat_map props_made ds.
Proof.
  intros F. unfold gen_props, gen_props_with. rewrite (props_text_lines ds F). assert (E : map (read_line properties_ifs) (flat_map pd_lines ds) = flat_map (fun d => head_line d :: pd_params d) ds).
  { induction F as [|d ds G _ IH]; [reflexivity|]. cbn [flat_map]. rewrite map_app, (proj2 (map_read d G)), IH. reflexivity. }
  rewrite E. clear E. assert (Pp : forall ps, Forall is_word ps -> forall g ls, prop_rows (Some g) (ps ++ ls) = (match ps with [] => [] | _ => g :: map (fun p => GProp p false [p] []) (removelast ps) end) ++ prop_rows (Some (match ps with [] => g | _ => prop_line (last ps []) end)) ls).
  { induction 1 as [|p ps W F2 IH]; intros g ls; [reflexivity|]. cbn [app prop_rows]. pose proof (starts_word TABc p [] eq_refl W) as H. rewrite app_nil_r in H. rewrite H, IH. destruct ps as [|p2 ps]; [reflexivity|]. cbn [app removelast map last]. rewrite (param_line_of p W). reflexivity. }
  assert (H : forall g, prop_rows (Some g) (flat_map (fun d => head_line d :: pd_params d) ds) = g :: flat_map props_made ds).
  { induction F as [|d ds G _ IH]; intros g; [reflexivity|]. cbn [flat_map app prop_rows]. rewrite (head_no_tab d G), (prop_line_of d G). pose proof (proj2 (proj2 (proj2 (proj2 G)))) as Ps. rewrite (Pp _ Ps). rewrite IH. unfold props_made at 2. destruct (pd_params d) as [|p ps] eqn:Q; [reflexivity|].
    rewrite <- Q in *. assert (Nn : pd_params d <> []) by (rewrite Q; discriminate). destruct (exists_last Nn) as (l & z & El). rewrite El in Ps |- *. rewrite removelast_last, GenProofs.last_snoc, map_app. apply Forall_app in Ps as [_ Ps]. apply Forall_inv in Ps. rewrite (param_line_of z Ps).
    destruct (l ++ [z]) eqn:Z; [destruct l; discriminate Z|]. cbn [app map]. rewrite <- !app_assoc. reflexivity. }
  destruct F as [|d ds G F]; [reflexivity|]. specialize (H (GProp [] false [] [])). cbn [flat_map app prop_rows] in *. rewrite (head_no_tab d G) in *. injection H as H. exact H.
Qed.

(** Whatever the description is, no property has parameters. *)
Lemma drop_first ifs s : drop_in ifs s = [] \/ exists a x, drop_in ifs s = a :: x /\ inset a ifs = false.
Proof. induction s as [|c s IH]; [left; reflexivity|]. cbn [drop_in]. destruct (inset c ifs) eqn:I; [exact IH|]. right. exists c, s. auto. Qed.
Lemma drop_suffix ifs s : exists p, s = p ++ drop_in ifs s.
Proof. induction s as [|c s IH]; [exists []; reflexivity|]. cbn [drop_in]. destruct (inset c ifs); [|exists []; reflexivity]. destruct IH as (p & E). exists (c :: p). cbn [app]. rewrite <- E. reflexivity. Qed.
Lemma read_no_tab l : starts TABc (read_line properties_ifs l) = false.
Proof.
  unfold read_line. destruct (drop_first properties_ifs l) as [E|(a & x & E & N)]; [rewrite E; reflexivity|]. rewrite E. destruct (drop_suffix properties_ifs (rev (a :: x))) as (p & Q).
  apply (f_equal (@rev _)) in Q. rewrite rev_involutive, rev_app_distr in Q. destruct (rev (drop_in properties_ifs (rev (a :: x)))) as [|b y] eqn:R; [reflexivity|]. injection Q as <- _. cbn [starts]. apply beqc_ne. intros ->. discriminate N.
Qed.
Theorem no_params s g : In g (gen_props s) -> gr_params g = [].
Proof.
  unfold gen_props, gen_props_with. assert (H : forall ls c, Forall (fun l => starts TABc l = false) ls -> (forall g, c = Some g -> gr_params g = []) -> In g (prop_rows c ls) -> gr_params g = []).
  { induction ls as [|l ls IH]; intros c F C I; cbn [prop_rows] in I.
    - destruct c as [g0|]; [|contradiction]. destruct I as [<-|[]]. apply C. reflexivity.
    - rewrite (Forall_inv F) in I. assert (P0 : forall l, gr_params (prop_line l) = []). { intros l0. unfold prop_line. destruct (if starts "!" (field2 ":" l0) then (true, tl (field2 ":" l0)) else (false, field2 ":" l0)). reflexivity. }
      assert (Rest : In g (prop_rows (Some (prop_line l)) ls) -> gr_params g = []) by (apply IH; [exact (Forall_inv_tail F)|intros g0 [= <-]; apply P0]).
      destruct c as [g0|]; [|exact (Rest I)]. destruct I as [<-|I]; [apply C; reflexivity|exact (Rest I)]. }
  apply H; [|discriminate]. apply Forall_forall. intros l I. apply in_map_iff in I as (l0 & <- & _). apply read_no_tab.
Qed.
Theorem never_the_code names s : map (prop_row names) (gen_props s) <> map prop_code all_props.
Proof.
  intros E. assert (I : In (prop_code PrAttachment) (map (prop_row names) (gen_props s))) by (rewrite E; apply in_map; cbn; tauto).
  apply in_map_iff in I as (g & Q & I). apply no_params in I. apply (f_equal snd) in Q. cbn [prop_row prop_code prop_spec snd fst] in Q. rewrite I in Q. discriminate Q.
Qed.
