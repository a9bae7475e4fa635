(** Moments in zones that the system does not know, or knows otherwise. *)
From Coq Require Import String Ascii ZArith Bool List Lia.
From Verif Require Import DateProofs PropProofs Base Lib SpecLines Unfolder Tokeniser SpecContent GoTime Types Params ParamTable PropTable Props SecTable Sections Folder Codec UnfolderProofs DecodeProofs FolderProofs SpecTree TreeProofs ExactProofs SpecRules SpecEdits SpecTime TimeProofs SpecProps SpecRfc SpecLine LineProofs ShapeProofs EncodeProofs PrefixProofs GroupProofs SpecCal CalProofs RoundProofs Sample SampleTree SampleCal SampleRfc SampleOrder SpecComp SpecAlone SpecPlace PlaceProofs UnreadableProofs SpecClock ClockProofs SpecAbroad.
Import ListNotations.
Local Open Scope Z_scope.

Section A.
Context {env : Env}.

Definition ab_line (n v : bytes) : cline := CLine (bs "DTSTART") [CParam (bs "TZID") (Plain n) []] v.
Definition ab_place : place := InComp [ILine (ln "VERSION" "2.0"); ILine (ln "PRODID" "x")] (ln "BEGIN" "VEVENT") (Here [ILine (ln "DTSTAMP" "20240229T101500Z"); ILine (ln "UID" "1")] []) (ln "END" "VEVENT") [].
Definition ab_rest : sec :=
  Sec SCalendar [[FVProp PrVersion (PNew (VText (bs "2.0")))]; [FVProp PrProductID (PNew (VText (bs "x")))];
    [FVSec (Sec SEvent ([[FVProp PrDateTimeStamp (PNew nowZ)]; [FVProp PrUID (PNew (VText (bs "1")))]; []] ++ repeat [] 28))]; []; []; []; []].
Lemma ab_without : decode_bytes (frame_text t_begin (fill ab_place None) t_end ++ CRLF) = Ok ab_rest.
Proof. vm_compute. reflexivity. Qed.

Lemma ab_valid t : is_zero t = false -> sec_valid (cal_at t) = None.
Proof. intros Z. cbv -[is_zero]. rewrite Z. reflexivity. Qed.
Definition ab_start (t : time) : prop := PStruct [] [Some (VDateTime t); None].
Definition ab_before : list bytes := map (fun e => match e with Wr q => q | _ => [] end)
  (Wr (begin_line (bs "VCALENDAR")) :: prop_encode PrVersion (PNew (VText (bs "2.0"))) ++ prop_encode PrProductID (PNew (VText (bs "x"))) ++
   Wr (begin_line (bs "VEVENT")) :: prop_encode PrDateTimeStamp (PNew nowZ) ++ prop_encode PrUID (PNew (VText (bs "1")))).
Lemma ab_parts t : sec_encode (cal_at t) = wrs ab_before ++ prop_encode PrDateTimeStart (ab_start t) ++ wrs [end_line (bs "VEVENT"); last_piece].
Proof.
  assert (P1 : forall a b, fval_encode (FVProp a b) = prop_encode a b) by reflexivity. assert (P2 : forall x, fval_encode (FVSec x) = sec_encode x) by reflexivity.
  unfold cal_at. rewrite CalProofs.sec_encode_eq. cbn [flat_map]. rewrite P2, CalProofs.sec_encode_eq. cbn [repeat app flat_map]. rewrite !P1, !app_nil_r, <- !app_assoc. fold (ab_start t). generalize (prop_encode PrDateTimeStart (ab_start t)). intros P. vm_compute. reflexivity.
Qed.
Lemma ab_line_pieces t z i : t_loc t = LZone z i -> exists qs, prop_encode PrDateTimeStart (ab_start t) = wrs qs /\ concat qs = cline_render (ab_line (zone_name z) (format_datetime t)) ++ CRLF.
Proof.
  intros L. pose proof (eq_refl (datetime_encode t)) as D. unfold datetime_encode at 2 in D. rewrite L in D. exists [bs "DTSTART"; bs ";TZID="; zone_name z; bs ":"; format_datetime t; CRLF]. split.
  - unfold ab_start. transitivity (Wr (bs "DTSTART") :: (wrs ((write_timezone t ++ [bs ":"]) ++ datetime_encode t) ++ []) ++ [Wr CRLF]); [reflexivity|]. rewrite D. unfold write_timezone. rewrite L. reflexivity.
  - clear D. generalize (format_datetime t) (zone_name z). intros f n. unfold ab_line, cline_render. cbn. rewrite <- !app_assoc. reflexivity.
Qed.
Lemma ab_encode t z i : t_loc t = LZone z i -> exists qs, sec_encode (cal_at t) = wrs (qs ++ [last_piece]) /\
  concat qs = lines_text (begin_of (bs "VCALENDAR") :: flat_map ilines (fill ab_place (Some (ab_line (zone_name z) (format_datetime t))))).
Proof.
  intros L. destruct (ab_line_pieces t z i L) as (qs & E & C). exists (ab_before ++ qs ++ [end_line (bs "VEVENT")]). rewrite ab_parts, E. split.
  - unfold wrs. rewrite !map_app, <- !app_assoc. reflexivity.
  - rewrite !concat_app, C. unfold lines_text. cbn [ab_place fill app flat_map ilines map concat]. rewrite !app_nil_r, <- !app_assoc. generalize (cline_render (ab_line (zone_name z) (format_datetime t))). intros x. vm_compute. reflexivity.
Qed.
Lemma ab_framed n v : cline_wf (ab_line n v) = true -> framed t_begin (fill ab_place (Some (ab_line n v))) t_end.
Proof.
  intros W. split; [reflexivity|]. split; [reflexivity|]. split; [|split; [reflexivity|]].
  - apply Forall_forall. intros x I. apply (shape_b_ok _ _ _ (le_n _)). revert x I. apply forallb_forall. vm_compute. reflexivity.
  - cbn [ab_place fill app flat_map ilines]. repeat (constructor; [reflexivity || exact W|]). constructor.
Qed.
Lemma ab_wf t z : forallb safe_char (zone_name z) = true -> in_years t -> t_loc t <> LUTC -> cline_wf (ab_line (zone_name z) (format_datetime t)) = true.
Proof.
  intros S Y N. assert (V : forallb value_char (format_datetime t) = true).
  { pose proof (DateProofs.datetime_chars t Y) as D. unfold datetime_encode in D. destruct (t_loc t) eqn:L; [congruence| |]; cbn [concat] in D; rewrite app_nil_r in D; (eapply forallb_impl; [|exact D]; intros c C; apply tchar_value, C). }
  unfold cline_wf, ab_line. cbn [cl_name cl_params cl_value]. rewrite V. cbn [forallb]. unfold cparam_wf. cbn [cp_name cp_first cp_more pvalue_wf]. rewrite S. reflexivity.
Qed.

(** What Decode makes of the text is what [read_again] says. *)
Lemma ab_again t z i r : t_loc t = LZone z i -> forallb safe_char (zone_name z) = true -> in_years t -> is_zero t = false ->
  decode_bytes (frame_text t_begin (fill ab_place (Some (ab_line (zone_name z) (format_datetime t)))) t_end ++ CRLF) = r -> read_again (cal_at t) r.
Proof.
  intros L S Y Z D. destruct (ab_encode t z i L) as (qs & EN & C).
  assert (W : cline_wf (ab_line (zone_name z) (format_datetime t)) = true) by (apply ab_wf; [exact S|exact Y|rewrite L; discriminate]).
  pose proof (ab_framed _ _ W) as (_ & _ & _ & _ & WL). set (items := fill ab_place (Some (ab_line (zone_name z) (format_datetime t)))) in *.
  assert (E : exists out, Encode ok_writer [] (cal_at t) = EncDone None out).
  { unfold Encode. rewrite (ab_valid t Z), run_trace_spec. cbv zeta. rewrite EN.
    replace (hangs (wrs (qs ++ [last_piece]))) with false; [|symmetry; clear; generalize (qs ++ [last_piece]); induction l; [reflexivity|exact IHl]].
    unfold new_folder. destruct (folder_writes_ok (pieces (wrs (qs ++ [last_piece]))) 0 []) as (new & -> & _). eexists. reflexivity. }
  destruct E as (out & E). exists out. split; [exact E|]. intros w sizes S1 S2.
  pose proof (encode_ok_out _ _ _ E) as [_ O]. rewrite EN, pieces_wrs, folds_app in O. pose proof (folds_line qs C0 0 ltac:(discriminate)) as FL. rewrite C in FL.
  assert (NN : begin_of (bs "VCALENDAR") :: flat_map ilines items <> []) by discriminate. specialize (FL (lines_runc _ C0 NN)). destruct (folds 0 qs) as [o l]. cbn [snd] in FL. subst l.
  assert (O' : concat out = o ++ last_piece) by (rewrite O; reflexivity).
  destruct (decode_one_read (concat out) w sizes) as (n & N); [|exact S1|exact S2|].
  { intros _. rewrite O'. apply last_piece_tail. }
  exists n. intros fuel F. rewrite (N fuel F), (encode_unfold _ _ _ E), <- D. unfold content. rewrite EN, pieces_wrs, concat_app, C. cbn [concat]. rewrite app_nil_r.
  assert (Q : lines_text (begin_of (bs "VCALENDAR") :: flat_map ilines items) ++ last_piece = lines_text (t_begin :: flat_map ilines items ++ [t_end])).
  { rewrite app_comm_cons, lines_text_app. reflexivity. }
  rewrite Q, (lines_unfold _ WL), <- Q. unfold frame_text. rewrite <- app_assoc. reflexivity.
Qed.

Lemma ab_leads : leads SCalendar ab_place SEvent [ILine (ln "DTSTAMP" "20240229T101500Z"); ILine (ln "UID" "1")] [].
Proof. eapply Leads_comp with (sid := SEvent); [cbn; tauto|constructor]. Qed.
Lemma ab_prop n v : prop_decode PrDateTimeStart (params_tokens (cl_params (ab_line n v))) (cl_value (ab_line n v)) =
  match load_location 0 n with None => Err ErrStd | Some l => match parse_datetime false v l with Some t => Ok (ab_start t) | None => Err ErrStd end end.
Proof.
  cbn. destruct (load_location 0 n) as [l|]; [|reflexivity]. destruct (parse_datetime false v l); reflexivity.
Qed.
Lemma ab_sides n v : is_plain (ab_line n v) /\ In (FTProp PrDateTimeStart) (api_fields SEvent) /\ read_name PrDateTimeStart = upper (cl_name (ab_line n v)) /\
  may_stand SEvent [ILine (ln "DTSTAMP" "20240229T101500Z"); ILine (ln "UID" "1")] (ab_line n v) [].
Proof.
  split; [split; discriminate|]. split; [right; right; left; reflexivity|]. split; [reflexivity|]. split; [intros H; repeat destruct H as [H|H]; (discriminate H || contradiction)|]. split; [intros _; reflexivity|].
  split; intros _; (split; [intros [H _]; apply H; reflexivity|exact Logic.I]).
Qed.
Lemma ab_put t : put PrDateTimeStart (ab_start t) ab_place ab_rest (cal_at t).
Proof.
  unfold ab_place, ab_rest, cal_at.
  apply (Put_comp _ _ _ _ _ _ _ SCalendar [FTProp PrVersion; FTProp PrProductID] SEvent (skipn 3 (api_fields SCalendar)) [[FVProp PrVersion (PNew (VText (bs "2.0")))]; [FVProp PrProductID (PNew (VText (bs "x")))]] [] _ _ [] [[]; []; []; []]); [reflexivity|reflexivity|reflexivity|reflexivity|].
  apply (Put_here _ _ _ _ SEvent [FTProp PrDateTimeStamp; FTProp PrUID] (skipn 3 (api_fields SEvent)) [[FVProp PrDateTimeStamp (PNew nowZ)]; [FVProp PrUID (PNew (VText (bs "1")))]] [] [] (repeat [] 28)); reflexivity.
Qed.
Lemma rest_crlf : rest_ok CRLF.
Proof. right. exists []. reflexivity. Qed.

Lemma ab_known t z i l : t_loc t = LZone z i -> forallb safe_char (zone_name z) = true -> in_years t -> is_zero t = false -> load_location 0 (zone_name z) = Some l ->
  read_again (cal_at t) (Ok (cal_at (Time (resolve l (wall t)) 0 l))).
Proof.
  intros L S Y Z LL. apply (ab_again t z i); try assumption. destruct (ab_sides (zone_name z) (format_datetime t)) as (P & F & N & M).
  assert (W : cline_wf (ab_line (zone_name z) (format_datetime t)) = true) by (apply ab_wf; [exact S|exact Y|rewrite L; discriminate]).
  destruct (decode_place t_begin ab_place (ab_line (zone_name z) (format_datetime t)) t_end CRLF SEvent _ _ PrDateTimeStart (cal_at (Time (resolve l (wall t)) 0 l)) (ab_framed _ _ W) rest_crlf ab_leads P F N M) as [_ D].
  apply D. exists (ab_start (Time (resolve l (wall t)) 0 l)), ab_rest. split; [|split; [exact ab_without|apply ab_put]].
  apply line_exact. rewrite ab_prop, LL. pose proof (parse_datetime_format false t l Y) as Q. rewrite app_nil_r in Q. rewrite Q. reflexivity.
Qed.
Theorem unnamed_moved t z i : t_loc t = LZone z i -> zone_name z = [] -> in_years t -> is_zero t = false ->
  read_again (cal_at t) (Ok (cal_at (Time (t_sec t + offset_at (t_loc t) (t_sec t)) 0 LUTC))).
Proof.
  intros L E Y Z. assert (R : read_again (cal_at t) (Ok (cal_at (Time (resolve LUTC (wall t)) 0 LUTC)))) by (apply (ab_known t z i LUTC L); [rewrite E; reflexivity|exact Y|exact Z|rewrite E; reflexivity]).
  exact R.
Qed.
Theorem unknown_refused t z i : t_loc t = LZone z i -> forallb safe_char (zone_name z) = true -> in_years t -> is_zero t = false -> load_location 0 (zone_name z) = None ->
  read_again (cal_at t) (Err ErrStd).
Proof.
  intros L S Y Z LL. apply (ab_again t z i); try assumption. destruct (ab_sides (zone_name z) (format_datetime t)) as (P & F & N & M).
  assert (W : cline_wf (ab_line (zone_name z) (format_datetime t)) = true) by (apply ab_wf; [exact S|exact Y|rewrite L; discriminate]).
  apply (decode_unreadable t_begin ab_place (ab_line (zone_name z) (format_datetime t)) t_end CRLF SEvent _ _ PrDateTimeStart ab_rest (SpecFail.Failed ErrStd) (ab_framed _ _ W) rest_crlf ab_leads P F N); [intros _; reflexivity|exact ab_without|].
  rewrite ab_prop, LL. reflexivity.
Qed.
Theorem named_kept t z i l x : t_loc t = LZone z i -> forallb safe_char (zone_name z) = true -> in_years t -> is_zero t = false -> load_location 0 (zone_name z) = Some l ->
  coherent l -> bounded l -> calm l x -> clock_shows l x (t_sec t + offset_at (t_loc t) (t_sec t)) ->
  exists t', read_again (cal_at t) (Ok (cal_at t')) /\ t_loc t' = l /\ clock_shows l (t_sec t') (t_sec t + offset_at (t_loc t) (t_sec t)) /\
    (offset_at l (t_sec t) <> offset_at (t_loc t) (t_sec t) -> t_sec t' <> t_sec t).
Proof.
  intros L S Y Z LL CO BO CA SH. exists (Time (resolve l (wall t)) 0 l). split; [apply (ab_known t z i l); assumption|]. split; [reflexivity|].
  pose proof (resolve_shows l _ x CO BO CA SH) as R. cbn [t_sec]. unfold wall. split; [exact R|]. intros N Q. apply N. unfold clock_shows in R. rewrite Q in R. lia.
Qed.
Theorem good_kept t : moment_good 0 t -> is_zero t = false -> read_again (cal_at t) (Ok (cal_at t)).
Proof. intros G Z. destruct (at_case t G Z) as (I & GC & R & N & V). destruct (calendar_round_trip _ I GC R N V) as (out & E & D & _). exists out. split; [exact E|exact D]. Qed.
End A.
