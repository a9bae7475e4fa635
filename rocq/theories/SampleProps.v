(** Concrete properties for the theorems of PropertiesProps.v. *)
From Coq Require Import String Ascii ZArith Bool List Lia.
From Verif Require Import Base Lib Utf8 GoStrings Strtok Tokeniser SpecContent GoTime Types Params ParamTable PropTable Props SecTable Sections Codec Folder Sample SpecTime SpecParams ParamProofs SpecProps PropProofs EncodeProofs HangProofs GroupProofs DateProofs.
Import ListNotations.

Section S.
Context {env : Env}.
Theorem param_rt_all q v : param_good (snd (param_spec q)) v -> exists p,
  (exists ws, param_encode (fst (param_spec q)) (snd (param_spec q)) v = wrs ws /\ concat ws = cparam_render p) /\
  cparam_wf p = true /\ cp_name p = fst (param_spec q) /\ param_decode (snd (param_spec q)) (param_values p) = Ok v.
Proof. destruct (param_table q) as [K T]. apply name_word_facts in K as (_ & _ & K). exact (param_rt _ _ v K T). Qed.
Theorem prop_rt_all pid p : prop_good pid p -> exists l,
  (exists ws, prop_encode pid p = wrs ws /\ concat ws = cline_render l ++ CRLF) /\ cline_wf l = true /\ cl_name l = fst (prop_spec pid) /\
  prop_decode pid (params_tokens (cl_params l)) (cl_value l) = Ok p.
Proof. exact (prop_rt pid p). Qed.
Theorem text_not_written s : (exists c, In c s /\ special68 c) -> (forall fuel d, encode6868_loop fuel d (new_tok s) = None) /\ (forall quoted key, In Hang (param_encode key (PKText quoted) (PVText s))).
Proof.
  intros H. split; [apply encode_hangs, H|]. intros quoted key. pose proof (encode6868_none s H) as N. cbn [param_encode]. destruct H as (c & I & _). destruct s as [|x s]; [destruct I|]. cbn [isnil].
  right. assert (W : In Hang (write6868 (x :: s))) by (unfold write6868; rewrite N; left; reflexivity).
  assert (Q : In Hang (write_quoted (x :: s))) by (unfold write_quoted; right; apply in_or_app; left; exact W). destruct quoted; [exact Q|]. unfold write_text. destruct (contains_any _ _); assumption.
Qed.
End S.

Definition attendee1 : @prop env0 := PStruct
  [Some (PVEnum 2); Some (PVTexts [bs "mailto:x@town"; bs "mailto:y@town"]); Some (PVEnum 0); None; Some (PVBool true); None; None; None;
   Some (PVText (bs "Doe, J")); None; Some (PVText (bs "en"))] [Some (VCalendarAddress (bs "mailto:j@town" : @url env0))].
Definition start1 : @prop env0 := PStruct [] [Some (VDateTime (Time 1709280000 0 (@LZone env0 (bs "Europe/Town") 0))); None].
Definition due1 : @prop env0 := PStruct [] [None; Some (VDate (Time 1709164800 0 LUTC))].

Lemma text_good_dec s : forallb value_char s && forallb (fun c => negb (beqc c LF || beqc c "^" || beqc c DQ)) s = true -> text_good s.
Proof.
  rewrite andb_true_iff. intros [A B]. split; [exact A|]. intros c I Sp. rewrite forallb_forall in B. specialize (B c I). destruct Sp as [->|[->| ->]]; discriminate B.
Qed.
Lemma attendee1_good : prop_good PrAttendee attendee1.
Proof.
  split.
  - repeat constructor; intros v E; try discriminate E; injection E as <-; cbn; try lia.
    + split; [discriminate|]. repeat constructor; apply text_good_dec; reflexivity.
    + split; [discriminate|]. apply text_good_dec. reflexivity.
    + split; [discriminate|]. apply text_good_dec. reflexivity.
  - exists [], [], (bs "CalendarAddress"), (VCalendarAddress (bs "mailto:j@town" : @url env0)). repeat split.
Qed.
Lemma start1_good : prop_good PrDateTimeStart start1.
Proof.
  split; [constructor|]. exists [], [(bs "DATE", KDate)], (bs "DATE-TIME"), (VDateTime (Time 1709280000 0 (@LZone env0 (bs "Europe/Town") 0))). split; [reflexivity|]. split; [reflexivity|].
  destruct (town_ok 1709280000) as (A & B & C & D & F). cbn. split; [reflexivity|]. split; [vm_compute; split; [discriminate|reflexivity]|]. split; [reflexivity|]. split; [exact A|]. split; [reflexivity|]. repeat split; assumption.
Qed.
Lemma due1_good : prop_good PrDue due1.
Proof.
  split; [constructor|]. exists [(bs "DATE-TIME", KDateTime)], [], (bs "DATE"), (VDate (Time 1709164800 0 (@LUTC env0))). split; [reflexivity|]. split; [reflexivity|].
  split; [|reflexivity]. exists 1709164800%Z. split; [reflexivity|]. lia.
Qed.
Lemma samples_text :
  (exists ws, prop_encode PrAttendee attendee1 = wrs ws /\ concat ws = bs "ATTENDEE;CUTYPE=GROUP;MEMBER=""mailto:x@town"",""mailto:y@town"";ROLE=UNKNOWN;RSVP=TRUE;CN=""Doe, J"";LANGUAGE=en:mailto:j@town" ++ CRLF) /\
  (exists ws, prop_encode PrDateTimeStart start1 = wrs ws /\ concat ws = bs "DTSTART;TZID=Europe/Town:20240301T090000" ++ CRLF) /\
  (exists ws, prop_encode PrDue due1 = wrs ws /\ concat ws = bs "DUE;VALUE=DATE:20240229" ++ CRLF).
Proof.
  split; [|split].
  - exists (pieces (prop_encode PrAttendee attendee1)). split; vm_compute; reflexivity.
  - exists (pieces (prop_encode PrDateTimeStart start1)). split; vm_compute; reflexivity.
  - exists (pieces (prop_encode PrDue due1)). split; vm_compute; reflexivity.
Qed.

(** A calendar that can be read but is never written. *)
Definition text2 : bytes := lines ["BEGIN:VCALENDAR"; "VERSION:2.0"; "PRODID:x"; "BEGIN:VEVENT"; "DTSTAMP:20240229T101500Z"; "UID:1"; "ATTENDEE;CN=a^b:mailto:j"; "END:VEVENT"; "END:VCALENDAR"]%string.
Definition cal2 : @sec env0 := ok_or (Sec SAlarmNone []) (@decode_bytes env0 text2).
Definition hung2 : bool := match @Encode env0 _ _ ok_writer [] cal2 with EncHang _ => true | _ => false end.
Lemma hang_case : @decode_bytes env0 text2 = Ok cal2 /\ exists out, Encode ok_writer [] cal2 = EncHang out.
Proof.
  split; [vm_compute; reflexivity|]. assert (H : hung2 = true) by (vm_compute; reflexivity). unfold hung2 in H. destruct (Encode ok_writer [] cal2) as [|out|]; try discriminate. exists out. reflexivity.
Qed.

(** An alternative representation. *)
Definition comment1 : @prop env0 := PStruct [Some (PVUri (bs "http://town/1" : @url env0)); Some (PVText (bs "en"))] [Some (VText (bs "hello"))].
Definition comment1_line : cline := CLine (bs "COMMENT") [CParam (bs "ALTREP") (Plain (bs "http")) []] (bs "//town/1;LANGUAGE=en:hello").
Lemma bare_case : prop_valid PrComment comment1 = None /\
  exists ws, prop_encode PrComment comment1 = wrs ws /\ cline_wf comment1_line = true /\ concat ws = cline_render comment1_line ++ CRLF.
Proof. split; [reflexivity|]. exists (pieces (prop_encode PrComment comment1)). split; [vm_compute; reflexivity|]. split; [reflexivity|]. vm_compute. reflexivity. Qed.
