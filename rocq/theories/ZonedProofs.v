(** Date-times in locations that the reader does not know, anywhere in a calendar. *)
From Coq Require Import String Ascii ZArith Bool List Lia.
From Verif Require Import Base Lib SpecLines Unfolder Tokeniser SpecContent GoTime Types Params ParamTable PropTable Props SecTable Sections Folder Codec UnfolderProofs DecodeProofs FolderProofs SpecTree TreeProofs ExactProofs SpecRules SpecEdits SpecProps SpecRfc SpecTime SpecLine LineProofs PropProofs RulesProofs ShapeProofs EncodeProofs PrefixProofs HangProofs GroupProofs SpecCal CalProofs RoundProofs AbroadProofs SpecLined LinedProofs.
Import ListNotations.
Section Z.
Context {env : Env}.
Definition zline (pid : propid) (n v : bytes) : cline := CLine (fst (prop_spec pid)) [CParam (bs "TZID") (Plain n) []] v.
Lemma zoned_pieces pid t p z i : zoned pid t p -> t_loc t = LZone z i ->
  prop_encode pid p = wrs [fst (prop_spec pid); bs ";TZID="; zone_name z; bs ":"; format_datetime t; CRLF].
Proof.
  intros (w & ks & R & A) L. pose proof (eq_refl (datetime_encode t)) as D. unfold datetime_encode at 2 in D. rewrite L in D.
  pose proof (eq_refl (write_timezone t)) as T. unfold write_timezone at 2 in T. rewrite L in T.
  destruct A as [[A ->]|[A ->]]; destruct pid; try discriminate R; try discriminate A; injection R as <- <-;
   match goal with
   | |- prop_encode ?q (PNew _) = _ => transitivity (Wr (fst (prop_spec q)) :: wrs ((write_timezone t ++ [bs ":"]) ++ datetime_encode t) ++ [Wr CRLF]); [reflexivity|]
   | |- prop_encode ?q _ = _ => transitivity (Wr (fst (prop_spec q)) :: (wrs ((write_timezone t ++ [bs ":"]) ++ datetime_encode t) ++ []) ++ [Wr CRLF]); [reflexivity|]
   end; rewrite D, T; reflexivity.
Qed.
Lemma zoned_render pid n v : concat [fst (prop_spec pid); bs ";TZID="; n; bs ":"; v; CRLF] = cline_render (zline pid n v) ++ CRLF.
Proof. unfold zline, cline_render. cbn [concat cl_name cl_params cl_value map]. generalize (fst (prop_spec pid)). intros b. cbn. rewrite <- !app_assoc. cbn [app]. rewrite <- !app_assoc. reflexivity. Qed.
Lemma zoned_wf pid t p z i : zoned pid t p -> t_loc t = LZone z i -> forallb safe_char (zone_name z) = true -> in_years t -> cline_wf (zline pid (zone_name z) (format_datetime t)) = true.
Proof.
  intros (w & ks & R & A) L SF Y. pose proof (ab_wf t z SF Y ltac:(rewrite L; discriminate)) as W. unfold cline_wf, ab_line, zline in *. cbn [cl_name cl_params cl_value] in *.
  apply andb_prop in W as [W W3]. apply andb_prop in W as [W1 W2]. rewrite W2, W3, !andb_true_r. destruct pid; try discriminate R; reflexivity.
Qed.
Lemma zoned_lined pid t p z i : zoned pid t p -> t_loc t = LZone z i -> forallb safe_char (zone_name z) = true -> in_years t -> prop_lined pid p (zline pid (zone_name z) (format_datetime t)).
Proof.
  intros ZD L SF Y. split; [|split; [exact (zoned_wf _ _ _ _ _ ZD L SF Y)|reflexivity]]. eexists. split; [exact (zoned_pieces _ _ _ _ _ ZD L)|]. apply zoned_render.
Qed.
Lemma lined_unique pid p l l' : prop_lined pid p l -> prop_lined pid p l' -> l = l'.
Proof.
  intros ((ws & E & C) & W & _) ((ws' & E' & C') & W' & _). rewrite E in E'. assert (Q : ws = ws').
  { clear - E'. revert ws' E'. induction ws as [|a ws IH]; intros [|b ws'] H; try discriminate H; [reflexivity|]. injection H as -> H. f_equal. exact (IH _ H). }
  subst ws'. rewrite C in C'. apply app_inv_tail in C'. apply (render_inj l l' [] []); try assumption; try (left; reflexivity). rewrite C'. reflexivity.
Qed.
Lemma zoned_decode pid t p n v q : zoned pid t p -> load_location 0 n = None -> prop_decode pid (params_tokens [CParam (bs "TZID") (Plain n) []]) v <> Ok q.
Proof.
  intros (w & ks & R & A) N. destruct A as [[A _]|[A _]]; destruct pid; try discriminate R; try discriminate A; cbn; rewrite N; discriminate.
Qed.
Theorem zoned_refused cal pid p t z i : sec_id cal = SCalendar -> sec_valid cal = None -> cal_lined cal -> has_prop cal pid p -> pid <> PrLastModified ->
  zoned pid t p -> t_loc t = LZone z i -> forallb safe_char (zone_name z) = true -> in_years t -> load_location 0 (zone_name z) = None ->
  exists out, Encode ok_writer [] cal = EncDone None out /\
  forall w sizes, (forall i, 1 <= sizes i) -> length (concat out) <= sizes 0 -> exists n, forall fuel c, n <= fuel -> Decode fuel sizes [concat out] w <> Ok c.
Proof.
  intros I V G H NL ZD L SF Y N. apply (unread_refused cal pid p I V G H NL). intros l q PL M.
  rewrite (lined_unique _ _ _ _ PL (zoned_lined _ _ _ _ _ ZD L SF Y)) in M. cbn [zline cl_params cl_value] in M.
  apply line_exact in M. exact (zoned_decode _ _ _ _ _ _ ZD N M).
Qed.
End Z.
