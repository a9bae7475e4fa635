(** A calendar as a tree of lines, to show that hypotheses about shapes can be met, and texts used as
    witnesses. *)
From Coq Require Import String Ascii ZArith Bool List Lia.
From Verif Require Import Base Lib SpecLines Unfolder UnfolderProofs Tokeniser SpecContent GoTime Types Params ParamTable PropTable Props SecTable Sections Codec SpecTree ExactProofs SpecRules ShapeProofs SpecEdits SpecPanic TotalProofs DecodeProofs Sample.
Import ListNotations.

Definition ln (n v : string) : cline := CLine (bs n) [] (bs v).
Definition t_begin : cline := ln "BEGIN" "VCALENDAR".
Definition t_end : cline := ln "END" "VCALENDAR".
Definition t_alarm : list cline := [ln "ACTION" "AUDIO"; ln "TRIGGER" "-PT15M"].
Definition t_event : list item :=
  [ILine (ln "dtstamp" "20240229T101500Z"); ILine (CLine (bs "UID") [CParam (bs "X-P") (Quoted (bs "a,b")) [Plain (bs "c")]] (bs "1@town"));
   ILine (ln "DURATION" "PT1H"); IAlarm (ln "BEGIN" "VALARM") t_alarm (ln "END" "VALARM")].
Definition t_zone : list item :=
  [ILine (ln "TZID" "Town");
   IComp (ln "BEGIN" "STANDARD") [ILine (ln "DTSTART" "19700101T000000"); ILine (ln "TZOFFSETTO" "+0100"); ILine (ln "TZOFFSETFROM" "+0100")] (ln "END" "STANDARD")].
Definition t_other : item := IOther (ln "BEGIN" "X-BOX") [DLine (ln "X-A" "1"); DComp (ln "BEGIN" "X-B") [DLine (ln "UID" "x")] (ln "END" "X-B")] (ln "END" "x-box").
Definition t_items : list item :=
  [ILine (ln "VERSION" "2.0"); ILine (ln "PRODID" "-//Town//Agenda 1.0//EN"); ILine (ln "X-WR-CALNAME" "Town");
   IComp (ln "BEGIN" "VEVENT") t_event (ln "END" "VEVENT"); t_other; IComp (ln "begin" "vtimezone") t_zone (ln "end" "VTIMEZONE")].

(** A check that implies [shape_ok]. *)
Section Check.
Context {env : Env}.
Fixpoint skip_b (d : ditem) : bool :=
  match d with
  | DLine l => negb (beq (upper (cl_name l)) (bs "BEGIN")) && negb (beq (upper (cl_name l)) (bs "END"))
  | DComp b body e => beq (upper (cl_name b)) (bs "BEGIN") && beq (upper (cl_name e)) (bs "END") && beq (upper (cl_value e)) (cl_value b) && forallb skip_b body
  end.
Definition child_b (id : secid) (w : bytes) : option secid :=
  match find (fun c => beq (fst c) w) (children id) with Some c => Some (snd c) | None => None end.
Fixpoint shape_b (id : secid) (i : item) : bool :=
  match i with
  | ILine l => negb (beq (upper (cl_name l)) (bs "BEGIN")) && negb (beq (upper (cl_name l)) (bs "END"))
  | IComp b body e => beq (upper (cl_name b)) (bs "BEGIN") && beq (upper (cl_name e)) (bs "END") &&
      match child_b id (upper (cl_value b)) with Some sid => forallb (shape_b sid) body | None => false end
  | IAlarm b body e => beq (upper (cl_name b)) (bs "BEGIN") && beq (cl_name e) (bs "END") && has_alarms id && beq (upper (cl_value b)) (bs "VALARM") &&
      forallb (fun l => negb (beq (cl_name l) (bs "BEGIN")) && negb (beq (cl_name l) (bs "END"))) body
  | IOther b body e => beq (upper (cl_name b)) (bs "BEGIN") && beq (upper (cl_name e)) (bs "END") && beq (upper (cl_value e)) (upper (cl_value b)) && forallb skip_b body &&
      match child_b id (upper (cl_value b)) with Some _ => false | None => true end && negb (has_alarms id && beq (upper (cl_value b)) (bs "VALARM"))
  end.

Ltac props := repeat match goal with
  | H : (_ && _)%bool = true |- _ => apply andb_true_iff in H as [? ?]
  | H : beq _ _ = true |- _ => apply beq_eq in H
  | H : negb _ = true |- _ => apply negb_true_iff in H
  | H : beq _ _ = false |- _ => apply beq_neq in H end.
Lemma skip_b_ok : forall n d, length (dlines d) <= n -> skip_b d = true -> skippable d.
Proof.
  induction n as [|n IH]; intros [l|b body e] L H; cbn [dlines length skip_b] in *; try lia; props; [constructor; split; assumption|].
  constructor; try assumption. apply Forall_forall. intros x I. rewrite forallb_forall in *. apply IH; [|auto]. rewrite app_length in L.
  assert (length (dlines x) <= length (flat_map dlines body)); [|lia]. clear - I. induction body as [|y body IHb]; [destruct I|]. cbn [flat_map]. rewrite app_length. destruct I as [->|I]; [lia|specialize (IHb I); lia].
Qed.
Lemma child_b_some id w sid : child_b id w = Some sid -> In (w, sid) (children id).
Proof.
  unfold child_b. destruct (find _ _) as [[w' s]|] eqn:F; [|discriminate]. intros H. injection H as <-. apply find_some in F as [I E]. cbn [fst] in E. apply beq_eq in E. subst. exact I.
Qed.
Lemma child_b_none id w : child_b id w = None -> ~ In w (map fst (children id)).
Proof.
  unfold child_b. destruct (find _ _) as [[w' s]|] eqn:F; [discriminate|]. intros _ I. apply in_map_iff in I as ([w' s] & <- & I). pose proof (find_none _ _ F _ I) as N. cbn [fst] in N. rewrite beq_refl in N. discriminate.
Qed.
Lemma shape_b_ok : forall n id i, length (ilines i) <= n -> shape_b id i = true -> shape_ok id i.
Proof.
  induction n as [|n IH]; intros id [l|b body e|b body e|b body e] L H; cbn [ilines length shape_b] in *; try lia.
  - props. constructor. split; assumption.
  - destruct (child_b id (upper (cl_value b))) as [sid|] eqn:C; [|rewrite andb_false_r in H; discriminate]. props. apply child_b_some in C.
    apply (So_comp id b body e sid); try assumption. apply Forall_forall. intros x I. rewrite forallb_forall in *. apply IH; [|auto]. rewrite app_length in L. pose proof (item_len x body I). lia.
  - props. constructor; try assumption. apply Forall_forall. intros x I. rewrite forallb_forall in *. match goal with H : forall x, In x body -> _ |- _ => specialize (H x I) end. props. auto.
  - destruct (child_b id (upper (cl_value b))) as [sid|] eqn:C; [rewrite andb_false_r in H; cbn [andb] in H; discriminate|]. props. apply child_b_none in C. constructor; try assumption.
    + apply Forall_forall. intros x I. rewrite forallb_forall in *. apply (skip_b_ok _ _ (le_n _)). auto.
    + intros [A V]. rewrite A, V in *. discriminate.
Qed.
Lemma framed_b b items e : beq (upper (cl_name b)) (bs "BEGIN") && beq (upper (cl_value b)) (bs "VCALENDAR") && forallb (shape_b SCalendar) items && beq (upper (cl_name e)) (bs "END") &&
  forallb cline_wf (b :: flat_map ilines items ++ [e]) = true -> framed b items e.
Proof.
  intros H. props. repeat split; try assumption.
  - apply Forall_forall. intros x I. rewrite forallb_forall in *. apply (shape_b_ok _ _ _ (le_n _)). auto.
  - apply Forall_forall. rewrite forallb_forall in *. assumption.
Qed.

Lemma t_framed : framed t_begin t_items t_end.
Proof. apply framed_b. vm_compute. reflexivity. Qed.
Lemma t_decodes : is_ok (decode_bytes (frame_text t_begin t_items t_end ++ CRLF)) = true.
Proof. vm_compute. reflexivity. Qed.
Lemma t_event_inside : inside SCalendar t_items SEvent t_event.
Proof. apply (In_comp SCalendar t_items (ln "BEGIN" "VEVENT") t_event (ln "END" "VEVENT") SEvent); [cbn; tauto|cbn; tauto|constructor]. Qed.
Lemma t_zone_inside : inside SCalendar t_items STimezone t_zone.
Proof. apply (In_comp SCalendar t_items (ln "begin" "vtimezone") t_zone (ln "end" "VTIMEZONE") STimezone); [cbn; tauto|cbn; tauto|constructor]. Qed.
Definition t_audio : list item := map ILine t_alarm.
Lemma t_alarm_inside : inside SCalendar t_items SAlarmAudio t_audio.
Proof.
  apply (In_comp SCalendar t_items (ln "BEGIN" "VEVENT") t_event (ln "END" "VEVENT") SEvent); [cbn; tauto|cbn; tauto|].
  apply (In_alarm SEvent t_event (ln "BEGIN" "VALARM") t_alarm (ln "END" "VALARM")); [cbn; tauto|]. split.
  - exists [], (bs "AUDIO"). split; [reflexivity|]. split; [constructor|]. cbn. tauto.
  - split; [apply Forall_forall; intros x I; apply (shape_b_ok _ _ _ (le_n _)); cbn [t_audio t_alarm map In] in I; destruct I as [<-|[<-|[]]]; vm_compute; reflexivity|].
    exists (ln "END" "VALARM"), []. split; reflexivity.
Qed.

(** ** Witnesses *)
Definition in_alarm_text : bytes := lines ["BEGIN:VCALENDAR"; "BEGIN:VEVENT"; "BEGIN:VALARM"; "TRIGGER:-PT15M"]%string.
Definition bad_day_text : bytes := lines ["BEGIN:VCALENDAR"; "BEGIN:VEVENT"; "RRULE:FREQ=DAILY;BYDAY=MO,+1"]%string.
Lemma panics sizes : (forall i, 2 <= sizes i) -> exists n, forall fuel, n <= fuel ->
  Decode fuel sizes [in_alarm_text] false = Panic /\ Decode fuel sizes [bad_day_text] false = Panic.
Proof.
  intros P. destruct (decode_fold_free [in_alarm_text] sizes P) as [n1 H1]; [apply no_fold_by; vm_compute; reflexivity|].
  destruct (decode_fold_free [bad_day_text] sizes P) as [n2 H2]; [apply no_fold_by; vm_compute; reflexivity|].
  exists (n1 + n2). intros fuel F. rewrite H1, H2 by lia. split; vm_compute; reflexivity.
Qed.

Lemma decode_returns chunks w sizes : (forall i, 1 <= sizes i) -> Forall (fun c => ~ has_fold c) chunks ->
  exists n, forall fuel, n <= fuel -> Decode fuel sizes chunks w <> NoFuel.
Proof.
  intros P C. destruct (drain_terminates chunks w sizes REOF P) as (n & H).
  - eapply Forall_impl; [|exact C]. intros c Hc. destruct (find_fold c) eqn:E; [|reflexivity]. destruct Hc. apply has_fold_find. congruence.
  - exists n. intros fuel F. specialize (H fuel F). destruct (drain fuel sizes 0 [] (Rdr chunks w REOF) []) as [[out x]|e| |] eqn:D;
    [rewrite (Decode_drained _ _ _ _ out x D); apply decode_bytes_fuel|unfold Decode; rewrite D; discriminate|unfold Decode; rewrite D; discriminate|contradiction].
Qed.

Definition alarm_text (l : list string) : bytes := lines (["BEGIN:VCALENDAR"; "VERSION:2.0"; "PRODID:x"; "BEGIN:VEVENT"; "DTSTAMP:20240229T101500Z"; "UID:1"; "BEGIN:VALARM"]%string ++ l ++
  ["END:VALARM"; "END:VEVENT"; "END:VCALENDAR"]%string).
Definition mail : list string := ["ACTION:EMAIL"; "DESCRIPTION:d"; "TRIGGER:-PT15M"; "SUMMARY:s"]%string.

Lemma alarm_box : is_ok (decode_bytes (alarm_text ["ACTION:AUDIO"; "TRIGGER:-PT15M"]%string)) = true /\
  is_ok (decode_bytes (alarm_text ["ACTION:AUDIO"; "TRIGGER:-PT15M"; "BEGIN:X-BOX"; "END:X-BOX"]%string)) = false.
Proof. vm_compute. split; reflexivity. Qed.
Lemma decode_end_case b items e tail : framed b items e -> rest_ok tail -> cl_value e <> bs "VCALENDAR" ->
  forall cal, decode_bytes (frame_text b items e ++ tail) <> Ok cal.
Proof. intros F R N cal D. apply (proj1 (decode_frame _ _ _ _ _ F R)) in D. tauto. Qed.
Lemma text1_twice : Forall (fun c => ~ has_fold c) [text1; text1].
Proof. repeat constructor; apply no_fold_by; vm_compute; reflexivity. Qed.
Lemma t_event_part : exists cal ev, decode_bytes (frame_text t_begin t_items t_end) = Ok cal /\ part_of ev cal /\ sec_id ev = SEvent.
Proof.
  remember (decode_bytes (frame_text t_begin t_items t_end)) as r eqn:E. vm_compute in E. subst r. eexists. eexists. split; [reflexivity|]. split; [|].
  - eapply Part_sec; [cbn [In]; right; right; left; reflexivity|left; reflexivity|apply Part_self].
  - reflexivity.
Qed.

(** An unknown line in the event, then an unknown component in the event. *)
Definition t_with (ev : list item) : list item :=
  [ILine (ln "VERSION" "2.0"); ILine (ln "PRODID" "-//Town//Agenda 1.0//EN"); ILine (ln "X-WR-CALNAME" "Town");
   IComp (ln "BEGIN" "VEVENT") ev (ln "END" "VEVENT"); t_other; IComp (ln "begin" "vtimezone") t_zone (ln "end" "VTIMEZONE")].
Definition t_items_line : list item := t_with (firstn 2 t_event ++ ILine (ln "X-FOO" "bar") :: skipn 2 t_event).
Definition t_items_comp : list item := t_with (firstn 2 t_event ++ t_other :: skipn 2 t_event).
Lemma t_line_framed : framed t_begin t_items_line t_end.
Proof. apply framed_b. vm_compute. reflexivity. Qed.
Lemma t_comp_framed : framed t_begin t_items_comp t_end.
Proof. apply framed_b. vm_compute. reflexivity. Qed.
Lemma t_line_added : added unknown_line unknown_alarm_line SCalendar t_items t_items_line.
Proof.
  apply (Ad_comp unknown_line unknown_alarm_line SCalendar (firstn 3 t_items) (ln "BEGIN" "VEVENT") t_event (firstn 2 t_event ++ ILine (ln "X-FOO" "bar") :: skipn 2 t_event) (ln "END" "VEVENT") (skipn 4 t_items) SEvent); [cbn; tauto|].
  apply (Ad_here unknown_line unknown_alarm_line SEvent (firstn 2 t_event) (ILine (ln "X-FOO" "bar")) (skipn 2 t_event)).
  exists (ln "X-FOO" "bar"). split; [reflexivity|]. split; [split; vm_compute; discriminate|].
  intros I. assert (T : existsb (beq (upper (cl_name (ln "X-FOO" "bar")))) (known SEvent) = true) by (apply existsb_exists; eexists; split; [exact I|apply beq_refl]). vm_compute in T. discriminate.
Qed.
Lemma t_comp_added : added unknown_comp no_line SCalendar t_items t_items_comp.
Proof.
  apply (Ad_comp unknown_comp no_line SCalendar (firstn 3 t_items) (ln "BEGIN" "VEVENT") t_event (firstn 2 t_event ++ t_other :: skipn 2 t_event) (ln "END" "VEVENT") (skipn 4 t_items) SEvent); [cbn; tauto|].
  apply (Ad_here unknown_comp no_line SEvent (firstn 2 t_event) t_other (skipn 2 t_event)).
  eexists _, _, _. split; [reflexivity|]. apply (shape_b_ok _ _ _ (le_n _)). vm_compute. reflexivity.
Qed.

(** The same calendar in other letters. *)
Definition t_begin2 : cline := ln "Begin" "vCalendar".
Definition t_end2 : cline := ln "eNd" "VCALENDAR".
Definition t_items2 : list item :=
  [ILine (ln "version" "2.0"); ILine (ln "ProdId" "-//Town//Agenda 1.0//EN"); ILine (ln "x-wr-calname" "Town");
   IComp (ln "BEGIN" "VEvent")
     [ILine (ln "DTSTAMP" "20240229T101500Z"); ILine (CLine (bs "uid") [CParam (bs "x-p") (Quoted (bs "a,b")) [Plain (bs "c")]] (bs "1@town"));
      ILine (ln "DURATION" "PT1H"); IAlarm (ln "begin" "VAlarm") [ln "ACTION" "AUDIO"; ln "trigger" "-PT15M"] (ln "END" "VALARM")] (ln "end" "VEVENT");
   IOther (ln "begin" "X-BOX") [DLine (ln "X-a" "1"); DComp (ln "begin" "X-B") [DLine (ln "uid" "x")] (ln "END" "X-B")] (ln "END" "x-Box");
   IComp (ln "BEGIN" "VTIMEZONE")
     [ILine (ln "tzid" "Town");
      IComp (ln "begin" "Standard") [ILine (ln "dtstart" "19700101T000000"); ILine (ln "TZOFFSETTO" "+0100"); ILine (ln "TZOFFSETFROM" "+0100")] (ln "END" "STANDARD")] (ln "end" "VTIMEZONE")].
Lemma t2_framed : framed t_begin2 t_items2 t_end2.
Proof. apply framed_b. vm_compute. reflexivity. Qed.
Ltac likes := repeat first [reflexivity | match goal with
  | |- Forall2 _ _ _ => constructor | |- ilike _ _ => constructor | |- dlike _ _ => constructor
  | |- alarm_line_like _ _ => split | |- line_like _ _ => split | |- begin_like _ _ => split | |- _ /\ _ => split | |- like _ _ => unfold like end].
Lemma t2_like : begin_like t_begin t_begin2 /\ Forall2 ilike t_items t_items2 /\ line_like t_end t_end2.
Proof.
  likes; first [left; reflexivity | right; vm_compute; intuition discriminate].
Qed.
Definition t_end3 : cline := ln "END" "vcalendar".
Lemma t3_framed : framed t_begin t_items t_end3 /\ cl_value t_end3 <> bs "VCALENDAR".
Proof. split; [apply framed_b; vm_compute; reflexivity|vm_compute; discriminate]. Qed.
End Check.
