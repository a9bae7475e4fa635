(** The descriptions of the repository as descriptions in the sense of SpecGen.v. *)
From Coq Require Import String Ascii ZArith Bool List Lia.
From Verif Require Import Base Lib Utf8 GoStrings Types Params ParamTable PropTable SecTable LabelTable Generator GenFiles SpecGen GenProofs GenPropProofs.
Import ListNotations.

Definition our_sections : list sdesc := [
  (bs "VCALENDAR", [AField (FDesc Once false None (bs "VERSION"));
    AField (FDesc Once false None (bs "PRODID"));
    AField (FDesc Any true None (bs "VEVENT"));
    AField (FDesc Any true None (bs "VTODO"));
    AField (FDesc Any true None (bs "VJOURNAL"));
    AField (FDesc Any true None (bs "VFREEBUSY"));
    AField (FDesc Any true None (bs "VTIMEZONE"))]);
  (bs "VEVENT", [AField (FDesc Once false None (bs "DTSTAMP"));
    AField (FDesc Once false None (bs "UID"));
    AField (FDesc Maybe false None (bs "DTSTART"));
    AField (FDesc Maybe false None (bs "CLASS"));
    AField (FDesc Maybe false None (bs "CREATED"));
    AField (FDesc Maybe false None (bs "DESCRIPTION"));
    AField (FDesc Maybe false None (bs "GEO"));
    AField (FDesc Maybe false None (bs "LAST-MOD"));
    AField (FDesc Maybe false None (bs "LOCATION"));
    AField (FDesc Maybe false None (bs "ORGANIZER"));
    AField (FDesc Maybe false None (bs "PRIORITY"));
    AField (FDesc Maybe false None (bs "SEQUENCE"));
    AField (FDesc Maybe false None (bs "STATUS"));
    AField (FDesc Maybe false None (bs "SUMMARY"));
    AField (FDesc Maybe false None (bs "TRANSP"));
    AField (FDesc Maybe false None (bs "URL"));
    AField (FDesc Maybe false None (bs "RECURRENCE-ID"));
    AField (FDesc Maybe false None (bs "RRULE"));
    AField (FDesc Maybe false None (bs "DTEND"));
    AField (FDesc Maybe false None (bs "DURATION"));
    ARule (NotBoth, bs "DTEND", bs "DURATION");
    AField (FDesc Any false None (bs "ATTACH"));
    AField (FDesc Any false None (bs "ATTENDEE"));
    AField (FDesc Any false None (bs "CATEGORIES"));
    AField (FDesc Any false None (bs "COMMENT"));
    AField (FDesc Any false None (bs "CONTACT"));
    AField (FDesc Any false None (bs "EXDATE"));
    AField (FDesc Any false None (bs "REQUEST-STATUS"));
    AField (FDesc Any false None (bs "RELATED-TO"));
    AField (FDesc Any false None (bs "RESOURCES"));
    AField (FDesc Any false None (bs "RDATE"));
    AField (FDesc Any true None (bs "VALARM"))]);
  (bs "VTODO", [AField (FDesc Once false None (bs "DTSTAMP"));
    AField (FDesc Once false None (bs "UID"));
    AField (FDesc Maybe false None (bs "CLASS"));
    AField (FDesc Maybe false None (bs "COMPLETED"));
    AField (FDesc Maybe false None (bs "CREATED"));
    AField (FDesc Maybe false None (bs "DESCRIPTION"));
    AField (FDesc Maybe false None (bs "DTSTART"));
    AField (FDesc Maybe false None (bs "GEO"));
    AField (FDesc Maybe false None (bs "LAST-MOD"));
    AField (FDesc Maybe false None (bs "LOCATION"));
    AField (FDesc Maybe false None (bs "ORGANIZER"));
    AField (FDesc Maybe false None (bs "PERCENT-COMPLETE"));
    AField (FDesc Maybe false None (bs "PRIORITY"));
    AField (FDesc Maybe false None (bs "RECURRENCE-ID"));
    AField (FDesc Maybe false None (bs "SEQUENCE"));
    AField (FDesc Maybe false None (bs "STATUS"));
    AField (FDesc Maybe false None (bs "SUMMARY"));
    AField (FDesc Maybe false None (bs "URL"));
    AField (FDesc Maybe false None (bs "DUE"));
    AField (FDesc Maybe false None (bs "DURATION"));
    ARule (Needs, bs "DURATION", bs "DTSTART");
    ARule (NotBoth, bs "DUE", bs "DURATION");
    AField (FDesc Any false None (bs "ATTACH"));
    AField (FDesc Any false None (bs "ATTENDEE"));
    AField (FDesc Any false None (bs "CATEGORIES"));
    AField (FDesc Any false None (bs "COMMENT"));
    AField (FDesc Any false None (bs "CONTACT"));
    AField (FDesc Any false None (bs "EXDATE"));
    AField (FDesc Any false None (bs "REQUEST-STATUS"));
    AField (FDesc Any false None (bs "RELATED-TO"));
    AField (FDesc Any false None (bs "RESOURCES"));
    AField (FDesc Any false None (bs "RDATE"));
    AField (FDesc Any true None (bs "VALARM"))]);
  (bs "VJOURNAL", [AField (FDesc Once false None (bs "DTSTAMP"));
    AField (FDesc Once false None (bs "UID"));
    AField (FDesc Maybe false None (bs "CLASS"));
    AField (FDesc Maybe false None (bs "CREATED"));
    AField (FDesc Maybe false None (bs "DTSTART"));
    AField (FDesc Maybe false None (bs "LAST-MOD"));
    AField (FDesc Maybe false None (bs "ORGANIZER"));
    AField (FDesc Maybe false None (bs "RECURRENCE-ID"));
    AField (FDesc Maybe false None (bs "SEQUENCE"));
    AField (FDesc Maybe false None (bs "STATUS"));
    AField (FDesc Maybe false None (bs "SUMMARY"));
    AField (FDesc Maybe false None (bs "URL"));
    AField (FDesc Maybe false None (bs "RRULE"));
    AField (FDesc Any false None (bs "ATTACH"));
    AField (FDesc Any false None (bs "ATTENDEE"));
    AField (FDesc Any false None (bs "CATEGORIES"));
    AField (FDesc Any false None (bs "COMMENT"));
    AField (FDesc Any false None (bs "CONTACT"));
    AField (FDesc Any false None (bs "DESCRIPTION"));
    AField (FDesc Any false None (bs "EXDATE"));
    AField (FDesc Any false None (bs "REQUEST-STATUS"));
    AField (FDesc Any false None (bs "RELATED-TO"));
    AField (FDesc Any false None (bs "RESOURCES"));
    AField (FDesc Any false None (bs "RDATE"))]);
  (bs "VFREEBUSY", [AField (FDesc Once false None (bs "DTSTAMP"));
    AField (FDesc Once false None (bs "UID"));
    AField (FDesc Maybe false None (bs "CONTACT"));
    AField (FDesc Maybe false None (bs "DTSTART"));
    AField (FDesc Maybe false None (bs "DTEND"));
    AField (FDesc Maybe false None (bs "ORGANIZER"));
    AField (FDesc Maybe false None (bs "URL"));
    AField (FDesc Any false None (bs "ATTENDEE"));
    AField (FDesc Any false None (bs "COMMENT"));
    AField (FDesc Any false None (bs "FREEBUSY"));
    AField (FDesc Any false None (bs "REQUEST-STATUS"))]);
  (bs "VTIMEZONE", [AField (FDesc Once false None (bs "TZID"));
    AField (FDesc Maybe false None (bs "LAST-MOD"));
    AField (FDesc Maybe false None (bs "TZURL"));
    AField (FDesc Any true None (bs "STANDARD"));
    AField (FDesc Any true None (bs "DAYLIGHT"));
    ARule (OneOf, bs "STANDARD", bs "DAYLIGHT")]);
  (bs "STANDARD", [AField (FDesc Once false None (bs "DTSTART"));
    AField (FDesc Once false None (bs "TZOFFSETTO"));
    AField (FDesc Once false None (bs "TZOFFSETFROM"));
    AField (FDesc Maybe false None (bs "RRULE"));
    AField (FDesc Any false None (bs "COMMENT"));
    AField (FDesc Any false None (bs "RDATE"));
    AField (FDesc Any false None (bs "TZNAME"))]);
  (bs "DAYLIGHT", [AField (FDesc Once false None (bs "DTSTART"));
    AField (FDesc Once false None (bs "TZOFFSETTO"));
    AField (FDesc Once false None (bs "TZOFFSETFROM"));
    AField (FDesc Maybe false None (bs "RRULE"));
    AField (FDesc Any false None (bs "COMMENT"));
    AField (FDesc Any false None (bs "RDATE"));
    AField (FDesc Any false None (bs "TZNAME"))]);
  (bs "VALARMAUDIO", [AField (FDesc Once false None (bs "TRIGGER"));
    AField (FDesc Maybe false None (bs "DURATION"));
    AField (FDesc Maybe false None (bs "REPEAT"));
    AField (FDesc Any false None (bs "ATTACH"));
    AField (FDesc Maybe false None (bs "UID"));
    AField (FDesc Any false None (bs "ALARM-AGENT"));
    AField (FDesc Maybe false (Some (bs "ALARM-STATUS")) (bs "STATUS"));
    AField (FDesc Any false None (bs "LAST-TRIGGERED"));
    AField (FDesc Maybe false None (bs "ACKNOWLEDGED"));
    AField (FDesc Maybe false None (bs "PROXIMITY"));
    AField (FDesc Any false None (bs "GEO-LOCATION"));
    AField (FDesc Maybe false None (bs "RELATED-TO"));
    AField (FDesc Maybe false None (bs "DEFAULT-ALARM"));
    ARule (Needs, bs "GEO-LOCATION", bs "PROXIMITY")]);
  (bs "VALARMDISPLAY", [AField (FDesc Once false None (bs "DESCRIPTION"));
    AField (FDesc Once false None (bs "TRIGGER"));
    AField (FDesc Maybe false None (bs "DURATION"));
    AField (FDesc Maybe false None (bs "REPEAT"));
    AField (FDesc Maybe false None (bs "UID"));
    AField (FDesc Any false None (bs "ALARM-AGENT"));
    AField (FDesc Maybe false (Some (bs "ALARM-STATUS")) (bs "STATUS"));
    AField (FDesc Any false None (bs "LAST-TRIGGERED"));
    AField (FDesc Maybe false None (bs "ACKNOWLEDGED"));
    AField (FDesc Maybe false None (bs "PROXIMITY"));
    AField (FDesc Any false None (bs "GEO-LOCATION"));
    AField (FDesc Maybe false None (bs "RELATED-TO"));
    AField (FDesc Maybe false None (bs "DEFAULT-ALARM"));
    ARule (Needs, bs "GEO-LOCATION", bs "PROXIMITY")]);
  (bs "VALARMEMAIL", [AField (FDesc Once false None (bs "DESCRIPTION"));
    AField (FDesc Once false None (bs "TRIGGER"));
    AField (FDesc Once false None (bs "SUMMARY"));
    AField (FDesc Maybe false None (bs "ATTENDEE"));
    AField (FDesc Maybe false None (bs "DURATION"));
    AField (FDesc Maybe false None (bs "REPEAT"));
    AField (FDesc Maybe false None (bs "UID"));
    AField (FDesc Any false None (bs "ALARM-AGENT"));
    AField (FDesc Maybe false (Some (bs "ALARM-STATUS")) (bs "STATUS"));
    AField (FDesc Any false None (bs "LAST-TRIGGERED"));
    AField (FDesc Maybe false None (bs "ACKNOWLEDGED"));
    AField (FDesc Maybe false None (bs "PROXIMITY"));
    AField (FDesc Any false None (bs "GEO-LOCATION"));
    AField (FDesc Maybe false None (bs "RELATED-TO"));
    AField (FDesc Maybe false None (bs "DEFAULT-ALARM"));
    ARule (Needs, bs "GEO-LOCATION", bs "PROXIMITY");
    ARule (Together, bs "DURATION", bs "REPEAT")]);
  (bs "VALARMURI", [AField (FDesc Once false None (bs "URI"));
    AField (FDesc Maybe false None (bs "DURATION"));
    AField (FDesc Maybe false None (bs "REPEAT"));
    AField (FDesc Maybe false None (bs "UID"));
    AField (FDesc Any false None (bs "ALARM-AGENT"));
    AField (FDesc Maybe false (Some (bs "ALARM-STATUS")) (bs "STATUS"));
    AField (FDesc Any false None (bs "LAST-TRIGGERED"));
    AField (FDesc Maybe false None (bs "ACKNOWLEDGED"));
    AField (FDesc Maybe false None (bs "PROXIMITY"));
    AField (FDesc Any false None (bs "GEO-LOCATION"));
    AField (FDesc Maybe false None (bs "RELATED-TO"));
    AField (FDesc Maybe false None (bs "DEFAULT-ALARM"));
    ARule (Needs, bs "GEO-LOCATION", bs "PROXIMITY");
    ARule (Together, bs "DURATION", bs "REPEAT")]);
  (bs "VALARMNONE", [])].
Definition our_props : list pdesc := [
  PDesc None (bs "ACTION") false [bs "AUDIO"; bs "DISPLAY"; bs "EMAIL"] [];
  PDesc None (bs "ATTACH") true [bs "URI"; bs "BINARY"] [bs "FMTTYPE"];
  PDesc None (bs "ATTENDEE") true [bs "CalendarAddress"] [bs "CUTYPE"; bs "MEMBER"; bs "ROLE"; bs "PARTSTAT"; bs "RSVP"; bs "DELEGATED-TO"; bs "DELEGATED-FROM"; bs "SENT-BY"; bs "CN"; bs "DIR"; bs "LANGUAGE"];
  PDesc None (bs "CALSCALE") false [bs "GREGORIAN"] [];
  PDesc None (bs "CATEGORIES") true [bs "MText"] [bs "LANGUAGE"];
  PDesc None (bs "CLASS") false [bs "PUBLIC"; bs "PRIVATE"; bs "CONFIDENTIAL"] [];
  PDesc None (bs "COMMENT") true [bs "Text"] [bs "ALTREP"; bs "LANGUAGE"];
  PDesc None (bs "COMPLETED") true [bs "DateTime"] [];
  PDesc None (bs "CONTACT") true [bs "Text"] [bs "ALTREP"; bs "LANGUAGE"];
  PDesc None (bs "CREATED") true [bs "DateTime"] [];
  PDesc None (bs "DESCRIPTION") true [bs "Text"] [bs "ALTREP"; bs "LANGUAGE"];
  PDesc None (bs "DTEND") true [bs "DATE-TIME"; bs "DATE"] [];
  PDesc None (bs "DTSTAMP") true [bs "DateTime"] [];
  PDesc None (bs "DTSTART") true [bs "DATE-TIME"; bs "DATE"] [];
  PDesc None (bs "DUE") true [bs "DATE-TIME"; bs "DATE"] [];
  PDesc None (bs "DURATION") true [bs "Duration"] [];
  PDesc None (bs "EXDATE") true [bs "DATE-TIME"; bs "DATE"] [];
  PDesc None (bs "FREEBUSY") true [bs "Period"] [bs "FBTYPE"];
  PDesc None (bs "GEO") true [bs "TFloat"] [];
  PDesc None (bs "LAST-MODIFIED") true [bs "DateTime"] [];
  PDesc None (bs "LOCATION") true [bs "Text"] [bs "ALTREP"; bs "LANGUAGE"];
  PDesc None (bs "METHOD") true [bs "Text"] [];
  PDesc None (bs "ORGANIZER") true [bs "CalendarAddress"] [bs "CN"; bs "DIR"; bs "SENT-BY"; bs "LANGUAGE"];
  PDesc None (bs "PERCENT-COMPLETE") true [bs "Integer"] [];
  PDesc None (bs "PRIORITY") true [bs "Integer"] [];
  PDesc None (bs "PRODID") true [bs "Text"] [];
  PDesc None (bs "RDATE") true [bs "DATE-TIME"; bs "DATE"; bs "PERIOD"] [];
  PDesc None (bs "RECURRENCE-ID") true [bs "DATE-TIME"; bs "DATE"] [bs "RANGE"];
  PDesc None (bs "RELATED-TO") true [bs "Text"] [bs "RELTYPE"];
  PDesc None (bs "REPEAT") true [bs "Integer"] [];
  PDesc None (bs "REQUEST-STATUS") true [bs "Text"] [];
  PDesc None (bs "RESOURCES") true [bs "MText"] [bs "ALTREP"; bs "LANGUAGE"];
  PDesc None (bs "RRULE") true [bs "Recur"] [];
  PDesc None (bs "SEQUENCE") true [bs "Integer"] [];
  PDesc None (bs "STATUS") false [bs "TENTATIVE"; bs "CONFIRMED"; bs "CANCELLED"; bs "NEEDS-ACTION"; bs "COMPLETED"; bs "IN-PROCESS"; bs "DRAFT"; bs "FINAL"] [];
  PDesc None (bs "SUMMARY") true [bs "Text"] [bs "ALTREP"; bs "LANGUAGE"];
  PDesc None (bs "TRANSP") false [bs "OPAQUE"; bs "TRANSPARENT"] [];
  PDesc None (bs "TRIGGER") true [bs "DURATION"; bs "DATE-TIME"] [];
  PDesc None (bs "TZID") true [bs "Text"] [];
  PDesc None (bs "TZNAME") true [bs "Text"] [bs "LANGUAGE"];
  PDesc None (bs "TZOFFSETFROM") true [bs "UTCOffset"] [];
  PDesc None (bs "TZOFFSETTO") true [bs "UTCOffset"] [];
  PDesc None (bs "TZURL") true [bs "URI"] [];
  PDesc None (bs "UID") true [bs "Text"] [];
  PDesc None (bs "URL") true [bs "URI"] [];
  PDesc None (bs "URI") true [bs "URI"] [];
  PDesc None (bs "VERSION") true [bs "Text"] [];
  PDesc None (bs "ALARM-AGENT") true [bs "Text"] [bs "URI"; bs "ID"; bs "AGENT-ID"];
  PDesc (Some (bs "ALARM-STATUS")) (bs "STATUS") false [bs "ACTIVE"; bs "CANCELLED"; bs "COMPLETED"] [];
  PDesc None (bs "LAST-TRIGGERED") true [bs "DateTime"] [];
  PDesc None (bs "ACKNOWLEDGED") true [bs "DateTime"] [];
  PDesc None (bs "PROXIMITY") true [bs "Text"] [];
  PDesc None (bs "GEO-LOCATION") true [bs "URI"] [];
  PDesc None (bs "DEFAULT-ALARM") true [bs "Boolean"] []].

Definition wordb (w : bytes) : bool := negb (beq w []) && forallb word_char w.
Lemma wordb_ok w : wordb w = true -> is_word w.
Proof. unfold wordb. intros H. apply andb_true_iff in H as [A B]. split; [|exact B]. intros ->. discriminate A. Qed.
Definition optb (o : option bytes) : bool := match o with Some a => wordb a | None => true end.
Lemma optb_ok o : optb o = true -> forall a, o = Some a -> is_word a.
Proof. intros H a ->. apply wordb_ok, H. Qed.
Definition sectionb (d : sdesc) : bool :=
  wordb (fst d) && forallb (fun x => match x with AField f => wordb (fd_word f) && optb (fd_alias f) | ARule (_, a, b) => wordb a && wordb b end) (snd d).
Lemma sections_good ds : forallb sectionb ds = true -> Forall good_section ds.
Proof.
  intros H. apply Forall_forall. intros d I. rewrite forallb_forall in H. specialize (H _ I). apply andb_true_iff in H as [W E]. split; [apply wordb_ok, W|]. apply Forall_forall. intros x Ix. rewrite forallb_forall in E. specialize (E _ Ix).
  destruct x as [f|[[k a] b]]; apply andb_true_iff in E as [E1 E2]; (split; [apply wordb_ok, E1|]); [apply optb_ok, E2|apply wordb_ok, E2].
Qed.
Definition propb (d : pdesc) : bool := wordb (pd_word d) && optb (pd_alias d) && negb (match pd_values d with [] => true | _ => false end) && forallb wordb (pd_values d) && forallb wordb (pd_params d).
Lemma words_good ws : forallb wordb ws = true -> Forall is_word ws.
Proof. intros H. apply Forall_forall. intros w I. rewrite forallb_forall in H. apply wordb_ok, H, I. Qed.
Lemma props_good ds : forallb propb ds = true -> Forall good_prop ds.
Proof.
  intros H. apply Forall_forall. intros d I. rewrite forallb_forall in H. specialize (H _ I). unfold propb in H. rewrite !andb_true_iff in H. destruct H as ((((W & A) & N) & V) & P).
  split; [apply wordb_ok, W|]. split; [apply optb_ok, A|]. split; [destruct (pd_values d); [discriminate N|discriminate]|]. split; apply words_good; assumption.
Qed.
Theorem our_files : (sections_gen = sections_text our_sections /\ Forall good_section our_sections /\ Forall (fun d => length (rules_of (snd d)) <= 2) our_sections) /\
  (properties_gen = props_text our_props /\ Forall good_prop our_props).
Proof.
  split; (split; [vm_compute; reflexivity|]).
  - split; [apply sections_good; vm_compute; reflexivity|]. apply Forall_forall. assert (H : forallb (fun d => Nat.leb (length (rules_of (snd d))) 2) our_sections = true) by (vm_compute; reflexivity). intros d I. rewrite forallb_forall in H. apply Nat.leb_le, H, I.
  - apply props_good. vm_compute. reflexivity.
Qed.

(** The three tables *)
Theorem params_table : map param_row (gen_params (read_names names_gen) params_gen) = map param_code all_params.
Proof. vm_compute. reflexivity. Qed.
Theorem sections_table : map (gsec_row (read_names names_gen)) (gen_sections (read_names names_gen) sections_gen) = map sec_code all_secs.
Proof. vm_compute. reflexivity. Qed.
Theorem props_table : map (prop_row (read_names names_gen)) (gen_props_with [LF] properties_gen) = map prop_code all_props.
Proof. vm_compute. reflexivity. Qed.

(** Rules that are not there *)
Lemma ends_short {A} (l : list A) : length l <= 2 -> ends l = l.
Proof. destruct l as [|a [|b [|c l]]]; intros L; try reflexivity. cbn [length] in L. lia. Qed.
Theorem few_rules names ds : ds <> [] -> Forall good_section ds -> Forall (fun d => length (rules_of (snd d)) <= 2) ds -> gen_sections names (sections_text ds) = map (section_meant names) ds.
Proof.
  intros N G F. rewrite (sections_made names ds N G). apply map_ext_in. intros d I. rewrite Forall_forall in F. unfold section_made. rewrite (ends_short _ (F _ I)). reflexivity.
Qed.
Theorem many_rules names ds : ds <> [] -> Forall good_section ds ->
  forall i d g r1 m r2, nth_error ds i = Some d -> nth_error (gen_sections names (sections_text ds)) i = Some g -> rules_of (snd d) = r1 :: m ++ [r2] -> gs_rules g = [rule_meant names r1; rule_meant names r2].
Proof.
  intros N G i d g r1 m r2 E1 E2 R. rewrite (sections_made names ds N G), nth_error_map, E1 in E2. injection E2 as <-. unfold section_made. cbn [gs_rules]. rewrite R.
  assert (Q : ends (r1 :: m ++ [r2]) = [r1; r2]); [|rewrite Q; reflexivity]. cbn [ends]. destruct (m ++ [r2]) as [|x l] eqn:Q; [destruct m; discriminate Q|]. rewrite <- Q, GenProofs.last_snoc. reflexivity.
Qed.
(** A section with three rules *)
Definition three_rules : sdesc := (bs "VALARMEMAIL", [AField (FDesc Once false None (bs "TRIGGER")); ARule (Needs, bs "GEO-LOCATION", bs "PROXIMITY"); ARule (Together, bs "DURATION", bs "REPEAT"); ARule (OneOf, bs "UID", bs "URI")]).
Theorem three_case : Forall good_section [three_rules] /\ rules_of (snd three_rules) = (Needs, bs "GEO-LOCATION", bs "PROXIMITY") :: [(Together, bs "DURATION", bs "REPEAT")] ++ [(OneOf, bs "UID", bs "URI")].
Proof. split; [apply sections_good; vm_compute; reflexivity|reflexivity]. Qed.
