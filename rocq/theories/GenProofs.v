(** The scripts and the descriptions. *)
From Coq Require Import String Ascii ZArith Bool List Lia.
From Verif Require Import Base Lib Utf8 GoStrings Types Params ParamTable PropTable SecTable LabelTable Generator SpecGen.
Import ListNotations.

(** ** Words *)
Lemma word_not c w : word_char c = false -> forallb word_char w = true -> Forall (fun x => x <> c) w.
Proof. intros N W. rewrite forallb_forall in W. apply Forall_forall. intros x I ->. rewrite (W _ I) in N. discriminate N. Qed.
Lemma beqc_ne a b : a <> b -> beqc a b = false.
Proof. intros N. destruct (beqc a b) eqn:E; [apply beqc_eq in E; contradiction|reflexivity]. Qed.
Lemma beqc_self a : beqc a a = true.
Proof. apply beqc_eq. reflexivity. Qed.
Lemma file_line a s : Forall (fun x => x <> LF) a -> file_lines (a ++ [LF] ++ s) = a :: file_lines s.
Proof.
  intros F. unfold file_lines. assert (H : forall acc, lines_acc acc (a ++ [LF] ++ s) = (rev acc ++ a) :: lines_acc [] s); [|apply (H [])].
  induction F as [|x a N _ IH]; intros acc; cbn [app lines_acc].
  - rewrite beqc_self, app_nil_r. reflexivity.
  - rewrite (beqc_ne _ _ N). cbn [app] in IH. rewrite IH. cbn [rev]. rewrite <- app_assoc. reflexivity.
Qed.
Lemma cut_at_first c a b : Forall (fun x => x <> c) a -> cut c (a ++ c :: b) = Some (a, b).
Proof. induction 1 as [|x a N _ IH]; cbn [app cut]; [rewrite beqc_self; reflexivity|]. rewrite (beqc_ne _ _ N), IH. reflexivity. Qed.
Lemma cut_no c a : Forall (fun x => x <> c) a -> cut c a = None.
Proof. induction 1 as [|x a N _ IH]; cbn [cut]; [reflexivity|]. rewrite (beqc_ne _ _ N), IH. reflexivity. Qed.
Lemma split_no c a : Forall (fun x => x <> c) a -> split c a = [a].
Proof. induction 1 as [|x a N _ IH]; cbn [split]; [reflexivity|]. rewrite (beqc_ne _ _ N), IH. reflexivity. Qed.
Lemma split_first c a b : Forall (fun x => x <> c) a -> split c (a ++ c :: b) = a :: split c b.
Proof. induction 1 as [|x a N _ IH]; cbn [app split]; [rewrite beqc_self; reflexivity|]. rewrite (beqc_ne _ _ N), IH. reflexivity. Qed.
Lemma ne_nil (w : bytes) : w <> [] -> negb (beq w []) = true.
Proof. destruct w; [contradiction|reflexivity]. Qed.
Lemma words_one c w : w <> [] -> Forall (fun x => x <> c) w -> words c w = [w].
Proof. intros N F. unfold words. rewrite (split_no _ _ F). cbn [filter]. rewrite (ne_nil _ N). reflexivity. Qed.
Lemma words_more c w b : w <> [] -> Forall (fun x => x <> c) w -> words c (w ++ c :: b) = w :: words c b.
Proof. intros N F. unfold words. rewrite (split_first _ _ _ F). cbn [filter]. rewrite (ne_nil _ N). reflexivity. Qed.
Lemma words_join c ws : ws <> [] -> Forall (fun w => w <> [] /\ Forall (fun x => x <> c) w) ws -> words c (join [c] ws) = ws.
Proof.
  intros N F. induction F as [|w ws [Nw Fw] F IH]; [contradiction|]. destruct ws as [|w2 ws]; [cbn [join]; apply words_one; assumption|].
  change (join [c] (w :: w2 :: ws)) with (w ++ c :: join [c] (w2 :: ws)). rewrite (words_more _ _ _ Nw Fw), IH; [reflexivity|discriminate].
Qed.
Lemma has_no c a : Forall (fun x => x <> c) a -> has_char c a = false.
Proof. induction 1 as [|x a N _ IH]; [reflexivity|]. cbn [has_char existsb]. rewrite (beqc_ne _ _ N). exact IH. Qed.
Lemma has_mid c a s b : Forall (fun x => x <> c) a -> Forall (fun x => x <> c) b -> has_char c (a ++ s :: b) = beqc s c.
Proof. intros A B. unfold has_char in *. rewrite existsb_app. pose proof (has_no _ _ A) as H. unfold has_char in H. rewrite H. cbn [existsb orb]. pose proof (has_no _ _ B) as H2. unfold has_char in H2. rewrite H2. apply orb_false_r. Qed.
Lemma tr_no c a : Forall (fun x => x <> c) a -> tr c a = a.
Proof. induction 1 as [|x a N _ IH]; [reflexivity|]. unfold tr in *. cbn [map]. rewrite (beqc_ne _ _ N), IH. reflexivity. Qed.
Lemma tr_mid c a b : Forall (fun x => x <> c) a -> Forall (fun x => x <> c) b -> tr c (a ++ c :: b) = a ++ SP :: b.
Proof. intros A B. pose proof (tr_no _ _ A) as H1. pose proof (tr_no _ _ B) as H2. unfold tr in *. rewrite map_app. cbn [map]. rewrite beqc_self, H1, H2. reflexivity. Qed.
Lemma drop_no ifs a x : inset a ifs = false -> drop_in ifs (a :: x) = a :: x.
Proof. intros N. cbn [drop_in]. rewrite N. reflexivity. Qed.
Lemma read_same ifs l a x b y : l = a :: x -> rev l = b :: y -> inset a ifs = false -> inset b ifs = false -> read_line ifs l = l.
Proof. intros E R Na Nb. unfold read_line. rewrite E at 1. rewrite (drop_no _ _ _ Na), <- E, R, (drop_no _ _ _ Nb), <- R. apply rev_involutive. Qed.
Lemma word_in c (ifs : bytes) : forallb (fun x => negb (word_char x)) ifs = true -> word_char c = true -> inset c ifs = false.
Proof.
  intros F W. destruct (inset c ifs) eqn:I; [|reflexivity]. unfold inset in I. apply existsb_exists in I as (x & Ix & Q). apply beqc_eq in Q. subst x.
  rewrite forallb_forall in F. specialize (F _ Ix). rewrite W in F. discriminate F.
Qed.
Lemma first_last (l : bytes) : l <> [] -> exists a x b y, l = a :: x /\ rev l = b :: y /\ In a l /\ In b l.
Proof.
  intros N. destruct l as [|a x]; [contradiction|]. destruct (rev (a :: x)) as [|b y] eqn:R; [apply (f_equal (@length _)) in R; rewrite rev_length in R; discriminate R|].
  exists a, x, b, y. repeat split; [left; reflexivity|]. apply in_rev. rewrite R. left. reflexivity.
Qed.
Lemma read_word ifs w : forallb (fun x => negb (word_char x)) ifs = true -> is_word w -> read_line ifs w = w.
Proof.
  intros F [N W]. destruct (first_last _ N) as (a & x & b & y & E & R & Ia & Ib). rewrite forallb_forall in W.
  apply (read_same ifs w a x b y E R); apply word_in; auto.
Qed.
Lemma word_first w : is_word w -> exists a x, w = a :: x /\ word_char a = true.
Proof. intros [N W]. destruct w as [|a x]; [contradiction|]. exists a, x. cbn [forallb] in W. apply andb_true_iff in W as [W _]. auto. Qed.
Lemma starts_word c w y : word_char c = false -> is_word w -> starts c (w ++ y) = false.
Proof. intros N W. destruct (word_first _ W) as (a & x & -> & Wa). cbn [app starts]. apply beqc_ne. intros ->. congruence. Qed.

(** ** Sections *)
Section Names.
Context (names : list (bytes * bytes)).
Definition rtext (r : rule) : bytes := let '(k, a, b) := r in rule_word k ++ SP :: a ++ SP :: b.
Definition good_rule (r : rule) : Prop := let '(k, a, b) := r in is_word a /\ is_word b.
Lemma rule_text_of k a b : is_word a -> is_word b -> rule_text (a ++ [rule_sign k] ++ b) = Some (rtext (k, a, b)).
Proof.
  intros [_ A] [_ B]. assert (N : forall c, word_char c = false -> has_char c (a ++ [rule_sign k] ++ b) = beqc (rule_sign k) c /\ tr c (a ++ c :: b) = a ++ SP :: b).
  { intros c W. split; [apply has_mid|apply tr_mid]; apply word_not; assumption. }
  unfold rule_text. rewrite (proj1 (N "!"%char eq_refl)), (proj1 (N "+"%char eq_refl)), (proj1 (N ">"%char eq_refl)), (proj1 (N "|"%char eq_refl)).
  destruct k; cbn [rule_sign app]; [rewrite (proj2 (N "!"%char eq_refl))|rewrite (proj2 (N "+"%char eq_refl))|rewrite (proj2 (N ">"%char eq_refl))|rewrite (proj2 (N "|"%char eq_refl))]; reflexivity.
Qed.
Lemma row_of r : good_rule r -> rule_row names (rtext r) = rule_meant names r.
Proof.
  destruct r as [[k a] b]. intros [[Na A] [Nb B]]. unfold rule_row, rtext. rewrite words_more.
  - rewrite (words_more SP a b Na (word_not SP a eq_refl A)), (words_one SP b Nb (word_not SP b eq_refl B)). reflexivity.
  - destruct k; discriminate.
  - destruct k; repeat constructor; discriminate.
Qed.
Definition arr_of (rs : list rule) : arr :=
  match rs with [] => [] | [r] => [(0, rtext r)] | r :: l => [(0, rtext r); (length (rtext r), rtext (last l r))] end.
Lemma rtext_len r : length (rtext r) <> 0.
Proof. destruct r as [[k a] b]. unfold rtext. rewrite app_length. cbn [length]. lia. Qed.
Lemma last_snoc {A} (l : list A) x d : last (l ++ [x]) d = x.
Proof. induction l as [|a l IH]; [reflexivity|]. destruct l; [reflexivity|]. exact IH. Qed.
Lemma add_rule_of k a b rs : is_word a -> is_word b -> add_rule (a ++ [rule_sign k] ++ b) (arr_of rs) = arr_of (rs ++ [(k, a, b)]).
Proof.
  intros A B. unfold add_rule. rewrite (rule_text_of k a b A B). destruct rs as [|r [|r2 rs]]; [reflexivity| |].
  - cbn [app arr_of arr_len0 arr_set last]. pose proof (rtext_len r) as L. destruct (Nat.eqb (length (rtext r)) 0) eqn:E; [apply Nat.eqb_eq in E; contradiction|]. destruct (Nat.ltb (length (rtext r)) 0) eqn:E2; [apply Nat.ltb_lt in E2; lia|]. reflexivity.
  - cbn [app arr_of arr_len0 arr_set]. pose proof (rtext_len r) as L. destruct (Nat.eqb (length (rtext r)) 0) eqn:E; [apply Nat.eqb_eq in E; contradiction|]. destruct (Nat.ltb (length (rtext r)) 0) eqn:E2; [apply Nat.ltb_lt in E2; lia|].
    rewrite Nat.eqb_refl. change (r2 :: rs ++ [(k, a, b)]) with ((r2 :: rs) ++ [(k, a, b)]). rewrite last_snoc. reflexivity.
Qed.
Lemma rows_of_arr rs : Forall good_rule rs -> map (fun p => rule_row names (snd p)) (arr_of rs) = map (rule_meant names) (ends rs).
Proof.
  intros F. destruct rs as [|r [|r2 rs]]; [reflexivity| |].
  - apply Forall_inv in F. cbn [arr_of map snd ends]. rewrite (row_of _ F). reflexivity.
  - pose proof (Forall_inv F) as F1. apply Forall_inv_tail in F. cbn [arr_of ends map snd]. rewrite (row_of _ F1), row_of; [reflexivity|].
    destruct (exists_last (l := r2 :: rs) ltac:(discriminate)) as (l & x & Q). rewrite Q in *. rewrite last_snoc. apply Forall_app in F as [_ F]. apply Forall_inv in F. exact F.
Qed.
Lemma name_parts f : good_field f -> before_last "#" ((match fd_alias f with Some a => a ++ bs "#" | None => [] end) ++ fd_word f) = match fd_alias f with Some a => a | None => fd_word f end /\
  after_last "#" ((match fd_alias f with Some a => a ++ bs "#" | None => [] end) ++ fd_word f) = fd_word f.
Proof.
  intros [[_ W] Al]. unfold before_last, after_last. pose proof (word_not "#"%char _ eq_refl W) as N. apply Forall_rev in N. destruct (fd_alias f) as [a|].
  - rewrite <- app_assoc, rev_app_distr. cbn [bs list_ascii_of_string app rev]. rewrite <- app_assoc. cbn [app]. rewrite (cut_at_first _ _ _ N), !rev_involutive. auto.
  - cbn [app]. rewrite (cut_no _ _ N). auto.
Qed.
Lemma in_firstn {A} n (l : list A) x : In x (firstn n l) -> In x l.
Proof. intros I. rewrite <- (firstn_skipn n l). apply in_or_app. left. exact I. Qed.
Lemma nth_firstn_lt {A} n (l : list A) i d : i < n -> nth i (firstn n l) d = nth i l d.
Proof. revert n l. induction i as [|i IH]; intros [|n] [|a l] L; try reflexivity; try lia. cbn [firstn nth]. apply IH. lia. Qed.
Lemma head_word f : good_field f -> exists a x, (match fd_alias f with Some a => a ++ bs "#" | None => [] end) ++ fd_word f = a :: x /\ word_char a = true /\ firstn 6 (a :: x) <> bs "BEGIN:".
Proof.
  intros [W Al].
  assert (K : forall w y, is_word w -> (match y with [] => True | c :: _ => c = "#"%char end) -> firstn 6 (w ++ y) <> bs "BEGIN:").
  { intros w y [_ Wd] Y Q.
    assert (J2 : In ":"%char (firstn 6 (w ++ y))) by (rewrite Q; cbn; tauto).
    destruct (Nat.le_gt_cases 6 (length w)) as [L|L].
    - rewrite firstn_app in J2. replace (6 - length w) with 0 in J2 by lia. rewrite firstn_O, app_nil_r in J2. apply in_firstn in J2. rewrite forallb_forall in Wd. specialize (Wd _ J2). discriminate Wd.
    - destruct y as [|c y].
      + rewrite app_nil_r in J2. apply in_firstn in J2. rewrite forallb_forall in Wd. specialize (Wd _ J2). discriminate Wd.
      + subst c. assert (J3 : nth (length w) (firstn 6 (w ++ "#"%char :: y)) "a"%char = "#"%char). { rewrite nth_firstn_lt by lia. rewrite app_nth2, Nat.sub_diag by lia. reflexivity. }
        rewrite Q in J3. destruct (length w) as [|[|[|[|[|[|n]]]]]]; try discriminate J3. lia. }
  destruct (fd_alias f) as [a|].
  - rewrite <- app_assoc. pose proof (K a (bs "#" ++ fd_word f) (Al a eq_refl) eq_refl) as K1. destruct (word_first _ (Al a eq_refl)) as (c & x & -> & Wc). exists c, (x ++ bs "#" ++ fd_word f). auto.
  - cbn [app]. pose proof (K (fd_word f) [] W Logic.I) as K1. rewrite app_nil_r in K1. destruct (word_first _ W) as (c & x & E & Wc). rewrite E in *. exists c, x. auto.
Qed.
Lemma add_field_of f : good_field f -> add_field names (field_text f) = field_meant names f.
Proof.
  intros G. destruct (name_parts f G) as [P1 P2]. destruct (head_word f G) as (a & x & E & Wa & Nb). unfold add_field, field_text, field_meant.
  set (h := (match fd_alias f with Some a => a ++ bs "#" | None => [] end) ++ fd_word f) in *.
  assert (St : forall c y, word_char c = false -> c <> "B"%char -> starts c ((if fd_comp f then bs "BEGIN:" else []) ++ h ++ y) = false).
  { intros c y Wc Nc. destruct (fd_comp f).
    - cbn [bs list_ascii_of_string app starts]. apply beqc_ne. congruence.
    - rewrite E. cbn [app starts]. apply beqc_ne. intros ->. congruence. }
  assert (Rest : (let '(section, f0) := if beq (firstn 6 ((if fd_comp f then bs "BEGIN:" else []) ++ h)) (bs "BEGIN:") then (true, skipn 6 ((if fd_comp f then bs "BEGIN:" else []) ++ h)) else (false, (if fd_comp f then bs "BEGIN:" else []) ++ h) in (section, f0)) = (fd_comp f, h)).
  { destruct (fd_comp f).
    - cbn [bs list_ascii_of_string app firstn skipn]. rewrite (proj2 (beq_eq _ _) eq_refl). reflexivity.
    - cbn [app]. destruct (beq (firstn 6 h) (bs "BEGIN:")) eqn:Q; [|reflexivity]. apply beq_eq in Q. rewrite E in Q. contradiction. }
  assert (Q : forall r m t, t = (if fd_comp f then bs "BEGIN:" else []) ++ h -> (let '(section, f0) := if beq (firstn 6 t) (bs "BEGIN:") then (true, skipn 6 t) else (false, t) in GField (get_name names (before_last "#" f0)) (after_last "#" f0) r m section) =
    GField (get_name names (match fd_alias f with Some a => a | None => fd_word f end)) (fd_word f) r m (fd_comp f)).
  { intros r m t ->. destruct (if beq (firstn 6 ((if fd_comp f then bs "BEGIN:" else []) ++ h)) (bs "BEGIN:") then (true, skipn 6 ((if fd_comp f then bs "BEGIN:" else []) ++ h)) else (false, (if fd_comp f then bs "BEGIN:" else []) ++ h)) as [se f0]. injection Rest as -> ->. rewrite P1, P2. reflexivity. }
  assert (S1 : forall c, word_char c = false -> c <> "B"%char -> starts c ((if fd_comp f then bs "BEGIN:" else []) ++ h) = false) by (intros c Wc Nc; pose proof (St c [] Wc Nc) as H; rewrite app_nil_r in H; exact H).
  set (T := (if fd_comp f then bs "BEGIN:" else []) ++ h) in *. clearbody T. clear Rest St. destruct (fd_often f); cbn [often_sign bs list_ascii_of_string app].
  - cbn [starts]. rewrite beqc_self. apply (Q true false). reflexivity.
  - rewrite (S1 "!"%char eq_refl ltac:(discriminate)), (S1 "+"%char eq_refl ltac:(discriminate)), (S1 "*"%char eq_refl ltac:(discriminate)). apply (Q false false). reflexivity.
  - cbn [starts]. change (beqc "*" "!") with false. change (beqc "*" "+") with false. rewrite beqc_self. apply (Q false true). reflexivity.
  - cbn [starts]. change (beqc "+" "!") with false. rewrite beqc_self. apply (Q true true). reflexivity.
Qed.
Lemma field_no_rule f : good_field f -> starts "?" (field_text f) = false.
Proof.
  intros G. destruct (head_word f G) as (a & x & E & Wa & _). unfold field_text. rewrite E. destruct (fd_often f), (fd_comp f); try reflexivity. cbn [often_sign app starts]. apply beqc_ne. intros ->. discriminate Wa.
Qed.
Lemma entries_of es : Forall good_entry es -> forall w fs rs ls, sec_rows names w (map (field_meant names) fs) (arr_of rs) (map (fun x => [TABc] ++ entry_text x) es ++ ls) =
  sec_rows names w (map (field_meant names) (fs ++ fields_of es)) (arr_of (rs ++ rules_of es)) ls.
Proof.
  induction 1 as [|x es G _ IH]; intros w fs rs ls; [cbn [map app fields_of rules_of flat_map]; rewrite !app_nil_r; reflexivity|].
  cbn [map app sec_rows starts tl]. change (beqc TABc TABc) with true. cbv iota. destruct x as [f|[[k a] b]]; cbn [entry_text good_entry] in *.
  - rewrite (field_no_rule f G), (add_field_of f G). change [field_meant names f] with (map (field_meant names) [f]). rewrite <- map_app. etransitivity; [apply IH|]. cbn [fields_of rules_of flat_map app]. rewrite <- app_assoc. reflexivity.
  - destruct G as [A B]. cbn [bs list_ascii_of_string app starts tl]. change (beqc "?" "?") with true. cbv iota. pose proof (add_rule_of k a b rs A B) as R. cbn [app] in R. rewrite R. etransitivity; [apply IH|]. cbn [fields_of rules_of flat_map app]. rewrite <- app_assoc. reflexivity.
Qed.
Lemma rules_good es : Forall good_entry es -> Forall good_rule (rules_of es).
Proof. induction 1 as [|x es G _ IH]; [constructor|]. destruct x as [f|[[k a] b]]; cbn [rules_of flat_map app]; [exact IH|]. constructor; [exact G|exact IH]. Qed.
Definition section_lines (d : sdesc) : list bytes := fst d :: map (fun x => [TABc] ++ entry_text x) (snd d).
Lemma rows_of ds : Forall good_section ds -> forall w es, Forall good_entry es ->
  sec_rows names w [] [] (map (fun x => [TABc] ++ entry_text x) es ++ flat_map section_lines ds) = section_made names (w, es) :: map (section_made names) ds.
Proof.
  induction 1 as [|[w2 es2] ds [W2 G2] _ IH]; intros w es G.
  - pose proof (entries_of es G w [] [] []) as H. change (map (field_meant names) []) with (@nil gfield) in H. change (arr_of []) with (@nil (nat * bytes)) in H. cbn [flat_map]. etransitivity; [exact H|]. cbn [sec_rows app]. unfold sec_row. rewrite (rows_of_arr _ (rules_good _ G)). reflexivity.
  - pose proof (entries_of es G w [] [] (flat_map section_lines ((w2, es2) :: ds))) as H. change (map (field_meant names) []) with (@nil gfield) in H. change (arr_of []) with (@nil (nat * bytes)) in H. etransitivity; [exact H|]. cbn [flat_map section_lines fst snd app sec_rows].
    pose proof (starts_word TABc w2 [] eq_refl W2) as N. rewrite app_nil_r in N. rewrite N. unfold sec_row. cbn [app]. rewrite (rows_of_arr _ (rules_good _ G)). change (map (fun x => TABc :: entry_text x) es2) with (map (fun x => [TABc] ++ entry_text x) es2). rewrite (IH w2 es2 G2). reflexivity.
Qed.
Lemma word_lf w : is_word w -> Forall (fun x => x <> LF) w.
Proof. intros [_ W]. apply word_not; [reflexivity|exact W]. Qed.
Lemma entry_lf x : good_entry x -> Forall (fun x => x <> LF) ([TABc] ++ entry_text x).
Proof.
  intros G. constructor; [discriminate|]. destruct x as [f|[[k a] b]]; cbn [entry_text good_entry] in *.
  - destruct G as [W Al]. unfold field_text. apply Forall_app. split; [destruct (fd_often f); repeat constructor; discriminate|]. apply Forall_app. split; [destruct (fd_comp f); repeat constructor; discriminate|].
    apply Forall_app. split; [|exact (word_lf _ W)]. destruct (fd_alias f) as [a|]; [|constructor]. apply Forall_app. split; [exact (word_lf _ (Al a eq_refl))|]. repeat constructor; discriminate.
  - destruct G as [A B]. constructor; [discriminate|]. cbn [bs list_ascii_of_string app]. apply Forall_app. split; [exact (word_lf _ A)|]. constructor; [destruct k; discriminate|exact (word_lf _ B)].
Qed.
Lemma lines_of_section d s : good_section d -> file_lines (section_text d ++ s) = section_lines d ++ file_lines s.
Proof.
  destruct d as [w es]. intros [W G]. unfold section_text, section_lines. cbn [fst snd] in *. rewrite <- !app_assoc. rewrite (file_line w _ (word_lf _ W)), <- app_comm_cons. f_equal. clear W.
  induction G as [|x es G _ IH]; [reflexivity|]. cbn [map concat]. rewrite <- !app_assoc.
  pose proof (file_line ([TABc] ++ entry_text x) (concat (map (fun x => [TABc] ++ entry_text x ++ [LF]) es) ++ s) (entry_lf x G)) as H. rewrite <- app_assoc in H. rewrite H, IH. reflexivity.
Qed.
Theorem sections_made ds : ds <> [] -> Forall good_section ds -> gen_sections names (sections_text ds) = map (section_made names) ds.
Proof.
  intros N F. assert (L : file_lines (sections_text ds) = flat_map section_lines ds).
  { clear N. unfold sections_text. induction F as [|d ds G _ IH]; [reflexivity|]. cbn [map concat flat_map]. rewrite (lines_of_section d _ G), IH. reflexivity. }
  unfold gen_sections. rewrite L. destruct ds as [|[w es] ds]; [contradiction|]. cbn [flat_map section_lines fst snd app]. pose proof (Forall_inv F) as [W G]. cbn [fst snd] in *.
  rewrite (read_word default_ifs w eq_refl W). apply rows_of; [exact (Forall_inv_tail F)|exact G].
Qed.
End Names.
