(** How Decode fails: the theorems in the words of SpecFail.v, and concrete cases. *)
From Coq Require Import String Ascii ZArith List Arith Bool Lia.
From Verif Require Import Base Lib Tokeniser SpecContent GoTime Types Params ParamTable PropTable Props SecTable Sections Codec SpecTree ExactProofs SpecRules ShapeProofs TotalProofs DecodeProofs SpecBadLine SpecFail FailProofs FailTextProofs FailMoreProofs SpecTrunc TruncProofs SpecErrors ErrorsProofs Sample SampleTree.
Import ListNotations.

Section R.
Context {env : Env}.
(** Every text spells one calendar, or fails in one way. *)
Theorem settled s : (exists cal, (forall c, spells s c <-> c = cal) /\ forall f, ~ fails s f) \/ (exists f, (forall g, fails s g <-> g = f) /\ forall c, ~ spells s c).
Proof.
  destruct (decode_bytes s) as [cal|e| |] eqn:D.
  - left. exists cal. split.
    + intros c. rewrite <- decode_bytes_exact, D. split; [intros H; apply Ok_inj in H; auto|intros ->; reflexivity].
    + intros f F. apply decode_fails in F. rewrite D in F. destruct f; discriminate F.
  - right. exists (Failed e). split.
    + intros g. rewrite <- decode_fails, D. split; [|intros ->; reflexivity]. destruct g; cbn [fail_res]; congruence.
    + intros c C. apply decode_bytes_exact in C. congruence.
  - right. exists Panicked. split.
    + intros g. rewrite <- decode_fails, D. split; [|intros ->; reflexivity]. destruct g; cbn [fail_res]; congruence.
    + intros c C. apply decode_bytes_exact in C. congruence.
  - contradiction (decode_bytes_fuel s D).
Qed.
(** A text whose lines are [ls], the next one being bad. *)
Theorem bad_line_result s ls e : cut_into s ls (AtBad e) -> forall e', In e' line_errors -> decode_bytes s = Err e' -> e' = e.
Proof.
  intros C e' I H. destruct (decode_causes s _ H) as (ls' & en & C' & X). destruct (cut_unique _ _ _ _ _ C C') as [<- <-].
  destruct X as [(-> & _)|[(_ & X)|[(_ & X & _)|(X & _)]]].
  - unfold line_errors in I. cbn [In] in I. intuition discriminate.
  - congruence.
  - contradiction.
  - destruct X. unfold structure_errors. unfold line_errors in I. cbn [In] in *. tauto.
Qed.
Theorem value_error s e : ~ In e structure_errors -> decode_bytes s = Err e ->
  exists ls en l pid, cut_into s ls en /\ In l ls /\ prop_decode pid (params_tokens (cl_params l)) (cl_value l) = Err e /\ In e (prop_errors (snd (prop_spec pid))).
Proof.
  intros N H. destruct (decode_causes s _ H) as (ls & en & C & [(-> & _)|[(I & _)|[(I & _)|(_ & l & pid & I & D & P)]]]).
  - destruct N. unfold structure_errors. cbn [In]. tauto.
  - destruct N. unfold structure_errors. unfold line_errors in I. cbn [In] in *. tauto.
  - contradiction.
  - exists ls, en, l, pid. auto.
Qed.
Theorem eof_partial s ls en : cut_into s ls en -> plain_begins ls -> decode_bytes s = Err ErrUnexpectedEOF -> en = AtEnd.
Proof.
  intros C P H. destruct (eof_means_end s H) as (ls' & C').
  - intros l e C'. destruct (cut_unique _ _ _ _ _ C C') as [<- _]. exact P.
  - destruct (cut_unique _ _ _ _ _ C C') as [_ E]. exact E.
Qed.

(** ** Cases *)
Lemma t_means : exists cal, means SCalendar t_items cal.
Proof.
  pose proof t_decodes as D. destruct (decode_bytes (frame_text t_begin t_items t_end ++ CRLF)) as [cal| | |] eqn:Q; try discriminate D.
  exists cal. apply (decode_frame t_begin t_items t_end CRLF cal t_framed) in Q; [exact (proj1 Q)|]. right. exists []. reflexivity.
Qed.
(** The first lines of the calendar, up to the middle of the alarm and the middle of the skipped component *)
Definition to_alarm : list cline := firstn 9 (flat_map ilines t_items).
Definition to_other : list cline := firstn 15 (flat_map ilines t_items).
Lemma to_alarm_cut : cut_at t_items to_alarm true.
Proof.
  apply (Cut_comp [ILine (ln "VERSION" "2.0"); ILine (ln "PRODID" "-//Town//Agenda 1.0//EN"); ILine (ln "X-WR-CALNAME" "Town")] (ln "BEGIN" "VEVENT") t_event (ln "END" "VEVENT")
    [t_other; IComp (ln "begin" "vtimezone") t_zone (ln "end" "VTIMEZONE")] (skipn 4 to_alarm) true).
  apply (Cut_alarm (firstn 3 t_event) (ln "BEGIN" "VALARM") (firstn 1 t_alarm) (skipn 1 t_alarm) (ln "END" "VALARM") []).
Qed.
Lemma to_other_cut : cut_at t_items to_other false.
Proof.
  apply (Cut_other (firstn 4 t_items) (ln "BEGIN" "X-BOX") [DLine (ln "X-A" "1"); DComp (ln "BEGIN" "X-B") [DLine (ln "UID" "x")] (ln "END" "X-B")] (ln "END" "x-box")
    [IComp (ln "begin" "vtimezone") t_zone (ln "end" "VTIMEZONE")] (skipn 13 to_other) (skipn 15 (removelast (flat_map ilines (firstn 5 t_items))))). reflexivity.
Qed.
Lemma to_into pre post : flat_map ilines t_items = pre ++ post -> cut_into (lines_text (t_begin :: pre)) (t_begin :: pre) AtEnd.
Proof.
  intros Q. constructor. pose proof t_framed as (_ & _ & _ & _ & W). apply Forall_cons_iff in W as [W0 W1]. constructor; [exact W0|]. apply Forall_app in W1 as [W1 _]. rewrite Q in W1. apply Forall_app in W1 as [W1 _]. exact W1.
Qed.
Theorem cut_case : opens_calendar t_begin /\ (exists cal, means SCalendar t_items cal) /\ cut_at t_items to_alarm true /\ cut_at t_items to_other false /\
  cut_into (lines_text (t_begin :: to_alarm)) (t_begin :: to_alarm) AtEnd /\ cut_into (lines_text (t_begin :: to_other)) (t_begin :: to_other) AtEnd.
Proof.
  split; [split; reflexivity|]. split; [exact t_means|]. split; [exact to_alarm_cut|]. split; [exact to_other_cut|].
  split; [apply (to_into to_alarm (skipn 9 (flat_map ilines t_items)))|apply (to_into to_other (skipn 15 (flat_map ilines t_items)))]; symmetry; apply firstn_skipn.
Qed.

(** A bad duration comes before a line without a colon, and the calendar is not complete. *)
Definition two_faults : bytes := lines ["BEGIN:VCALENDAR"; "BEGIN:VEVENT"; "DURATION:P"]%string.
Definition then_more : bytes := lines ["DURATION PT1H"; "END:VEVENT"; "END:VCALENDAR"]%string.
Theorem fault_case : decode_bytes two_faults = Err ErrInvalidDuration /\ decode_bytes (two_faults ++ then_more) = Err ErrInvalidDuration /\
  (exists a, two_faults = a ++ CRLF) /\ decode_bytes (lines ["BEGIN:VCALENDAR"; "BEGIN:VEVENT"]%string ++ then_more) = Err ErrInvalidContentLineName.
Proof.
  split; [vm_compute; reflexivity|]. split; [vm_compute; reflexivity|]. split; [|vm_compute; reflexivity].
  exists (firstn (length two_faults - 2) two_faults). vm_compute. reflexivity.
Qed.
(** A calendar that is complete, with a component in its alarm *)
Definition nested_text (inner : list string) : bytes :=
  lines (["BEGIN:VCALENDAR"; "VERSION:2.0"; "PRODID:-//Town//Agenda 1.0//EN"; "BEGIN:VEVENT"; "DTSTAMP:20240229T101500Z"; "UID:1@town"; "DURATION:PT1H"; "BEGIN:VALARM"; "ACTION:AUDIO"; "TRIGGER:-PT15M"]%string
    ++ inner ++ ["END:VALARM"; "END:VEVENT"; "END:VCALENDAR"]%string).
Theorem nested_case : decode_bytes (nested_text ["begin:X-A"; "END:X-A"]%string) = Err ErrUnexpectedEOF /\ is_ok (decode_bytes (nested_text ["begin:X-A"; "end:X-A"]%string)) = true /\
  is_ok (decode_bytes (nested_text [])) = true.
Proof. repeat split; vm_compute; reflexivity. Qed.
(** Bad lines *)
Theorem bad_line_case : bad_line (bs "DURATION PT1H" ++ CRLF) ErrInvalidContentLineName /\ bad_line (bs ";X=1:2") ErrInvalidContentLine /\
  bad_line (bs "UID;X-A=1,") ErrInvalidContentLineParamValue /\
  bad_line (bs "UID;X-A=" ++ DQ :: bs "1") ErrInvalidContentLineQuotedParamValue /\ bad_line (bs "UID:1" ++ [CR]) ErrInvalidContentLineValue.
Proof.
  split; [|split; [|split; [|split]]].
  - apply (BL_name (bs "DURATION") (bs " PT1H" ++ CRLF)); [discriminate|reflexivity|]. constructor; [reflexivity|]. cbn [In bs list_ascii_of_string]. intuition discriminate.
  - apply BL_start. reflexivity.
  - apply (BL_rest (bs "UID") (bs ";X-A=1,")); [discriminate|reflexivity|intros r' Q; discriminate Q|].
    apply (BR_param (bs "X-A") (Plain (bs "1")) (bs ",")); [reflexivity|reflexivity|]. apply (BR_next []). apply (BV_plain [] []); [reflexivity|constructor|intros r' Q; discriminate Q].
  - apply (BL_rest (bs "UID") (bs ";X-A=" ++ DQ :: bs "1")); [discriminate|reflexivity|intros r' Q; discriminate Q|].
    apply (BR_first (bs "X-A") (DQ :: bs "1")); [reflexivity|]. apply (BV_open (bs "1") []); [reflexivity|constructor].
  - apply (BL_rest (bs "UID") (bs ":1" ++ [CR])); [discriminate|reflexivity|intros r' Q; discriminate Q|].
    apply (BR_value (bs "1") CR []); [reflexivity|reflexivity|intros r' Q; discriminate Q].
Qed.
Theorem eof_case : decode_bytes (lines_text (t_begin :: to_other)) = Err ErrUnexpectedEOF /\ cut_into (lines_text (t_begin :: to_other)) (t_begin :: to_other) AtEnd /\
  plain_begins (t_begin :: to_other).
Proof.
  destruct cut_case as (Op & [cal M] & _ & C & _ & I). split; [exact (decode_cut_off _ _ _ cal _ false Op M C I)|]. split; [exact I|].
  intros l J B. unfold to_other in J. cbn [t_items t_other t_event t_zone t_alarm flat_map ilines dlines app firstn In] in J.
  repeat (destruct J as [<-|J]; [first [reflexivity|discriminate B]|]). destruct J.
Qed.
End R.
