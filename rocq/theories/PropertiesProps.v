(** Properties C34-C39 and C56-C58: parameters and properties. *)
From Coq Require Import String Ascii ZArith List Bool.
From Verif Require Import Base GoStrings Strtok Tokeniser SpecContent GoTime Types Params ParamTable PropTable Props SecTable Sections Codec Folder Sample SpecParams SpecProps ParamProofs PropProofs HangProofs GroupProofs SampleProps.
Import ListNotations.

(** C34 is false: a text with a character that has to be escaped is never written at all, ... *)
Theorem C34_parameter_text_refuted {env : Env} s : (exists c, In c s /\ special68 c) ->
  (forall fuel d, encode6868_loop fuel d (new_tok s) = None) /\
  (forall quoted key, In Hang (param_encode key (PKText quoted) (PVText s))).
Proof. exact (text_not_written s). Qed.
Print Assumptions C34_parameter_text_refuted.

(** ... and everything else is. What is missing are those texts and what [param_good] excludes: empty
    texts and false booleans, which are not written, and addresses (C37). *)
Theorem C34_parameters_round_trip_partial {env : Env} q v : param_good (snd (param_spec q)) v -> exists p,
  (exists ws, param_encode (fst (param_spec q)) (snd (param_spec q)) v = wrs ws /\ concat ws = cparam_render p) /\
  cparam_wf p = true /\ cp_name p = fst (param_spec q) /\ param_decode (snd (param_spec q)) (param_values p) = Ok v.
Proof. exact (param_rt_all q v). Qed.
Print Assumptions C34_parameters_round_trip_partial.

Example C34_applies {env : Env} : (exists c, In c (bs "a^b") /\ special68 c) /\ param_good (snd (param_spec PmCommonName)) (PVText (bs "Doe, J; x:y")).
Proof. split; [exists "^"%char; split; [right; left; reflexivity|right; left; reflexivity]|]. split; [discriminate|]. apply text_good_dec. reflexivity. Qed.

(** C56 is false: a text with an escape is never read as RFC 6868 says, ... *)
Theorem C56_parameter_escapes_refuted s t : has_escape s -> rfc_reads s t -> decode6868 s <> t.
Proof. exact (escape_never_right s t). Qed.
Print Assumptions C56_parameter_escapes_refuted.
(** ... [code_reads] is what it is read as, ... *)
Theorem C56_parameter_escapes_exact s : code_reads s (decode6868 s).
Proof. exact (decode6868_reads s). Qed.
Print Assumptions C56_parameter_escapes_exact.
(** ... and a text without an escape is read as it is. *)
Theorem C56_parameter_escapes_partial s : ~ In "^"%char s -> decode6868 s = s.
Proof. exact (decode6868_plain s). Qed.
Print Assumptions C56_parameter_escapes_partial.
(** The reference can read what it writes. *)
Theorem C56_reference_round_trips t : rfc_reads (rfc_escape t) t.
Proof. exact (rfc_escape_reads t). Qed.
Print Assumptions C56_reference_round_trips.

Example C56_applies : has_escape (bs "say ^'hi^'") /\ rfc_reads (bs "say ^'hi^'") (bs "say ""hi""") /\ decode6868 (bs "say ^'hi^'") = bs "say ""^'hi""^'".
Proof. split; [exists (bs "say "), "'"%char, (bs "hi^'"); reflexivity|]. split; [exact (rfc_escape_reads (bs "say ""hi"""))|reflexivity]. Qed.

(** C35 is false; these are the calendars for which Encode never returns. *)
Theorem C35_encode_terminates_refuted {env : Env} {W E : Type} (wr : W -> bytes -> W * option E) w cal :
  (exists w', Encode wr w cal = EncHang w') <-> sec_valid cal = None /\ exists pid p, has_prop cal pid p /\ needs_escape pid p.
Proof. exact (encode_hang_exact wr w cal). Qed.
Print Assumptions C35_encode_terminates_refuted.

(** There is one that Decode returns. *)
Example C35_applies : @decode_bytes env0 text2 = Ok cal2 /\ exists out, Encode ok_writer [] cal2 = EncHang out.
Proof. exact hang_case. Qed.

(** C36: words in any case; what is read is a word of the list or, if there is one, the choice Unknown;
    and the choices are written so that they are read back. *)
Theorem C36_enumerated_parameters {env : Env} q free ws : snd (param_spec q) = PKEnum free ws ->
  (forall n w t ty, nth_error ws n = Some w -> map up_ascii t = w -> param_decode (PKEnum free ws) [Token ty t] = Ok (PVEnum (Z.of_nat n + enum_base free))) /\
  (forall ts v, param_decode (PKEnum free ws) ts = Ok v -> exists ty t, ts = [Token ty t] /\
     ((exists n w, nth_error ws n = Some w /\ upper t = w /\ v = PVEnum (Z.of_nat n + enum_base free)) \/ (free = true /\ v = PVEnum 0 /\ ~ In (upper t) ws))).
Proof. exact (enum_param_spec q free ws). Qed.
Print Assumptions C36_enumerated_parameters.
Theorem C36_enumerated_properties {env : Env} pid ws : snd (prop_spec pid) = MEnum ws ->
  (forall n w t cps, nth_error ws n = Some w -> map up_ascii t = w -> prop_decode pid cps t = Ok (PEnum (Z.of_nat n))) /\
  (forall cps t p, prop_decode pid cps t = Ok p -> exists n w, nth_error ws n = Some w /\ upper t = w /\ p = PEnum (Z.of_nat n)).
Proof. exact (enum_prop_spec pid ws). Qed.
Print Assumptions C36_enumerated_properties.

Example C36_applies {env : Env} : snd (param_spec PmParticipationStatus) = PKEnum true [bs "NEEDS-ACTION"; bs "ACCEPTED"; bs "DECLINED"; bs "TENTATIVE"; bs "DELEGATED"; bs "COMPLETED"; bs "IN-PROCESS"] /\
  map up_ascii (bs "Tentative") = bs "TENTATIVE" /\ snd (prop_spec PrStatus) = MEnum [bs "TENTATIVE"; bs "CONFIRMED"; bs "CANCELLED"; bs "NEEDS-ACTION"; bs "COMPLETED"; bs "IN-PROCESS"; bs "DRAFT"; bs "FINAL"] /\
  param_good (snd (param_spec PmParticipationStatus)) (PVEnum 4) /\ prop_good PrStatus (PEnum 1).
Proof. repeat split; discriminate. Qed.

(** C37 is false: whatever comes before and after it, an address parameter that is written makes the
    line unreadable. *)
Theorem C37_uri_parameters_refuted {env : Env} pid ps vs a q b la v lb vl ws l : snd (prop_spec pid) = MStruct ps vs -> ps = a ++ q :: b ->
  Forall2 (fun q o => forall v, o = Some v -> param_good (snd (param_spec q)) v) a la -> bare_address (snd (param_spec q)) v ->
  prop_encode pid (PStruct (la ++ Some v :: lb) vl) = wrs ws -> cline_wf l = true -> concat ws = cline_render l ++ CRLF ->
  exists e, prop_decode pid (params_tokens (cl_params l)) (cl_value l) = Err e.
Proof. exact (bare_address_lost pid ps vs a q b la v lb vl ws l). Qed.
Print Assumptions C37_uri_parameters_refuted.

(** The comment is accepted by Encode, and a line is written. *)
Example C37_applies : prop_valid PrComment comment1 = None /\
  exists ws, prop_encode PrComment comment1 = wrs ws /\ cline_wf comment1_line = true /\ concat ws = cline_render comment1_line ++ CRLF.
Proof. exact bare_case. Qed.

(** C38: a parameter that the property knows, or the type of its value, is never given twice. *)
Theorem C38_duplicate_parameters_partial {env : Env} pid a x b y c d :
  upper (cp_name x) = upper (cp_name y) -> In (upper (cp_name x)) (known_params (snd (prop_spec pid))) ->
  exists e, prop_decode pid (params_tokens (a ++ x :: b ++ y :: c)) d = Err e.
Proof. exact (duplicate_params pid a x b y c d). Qed.
Print Assumptions C38_duplicate_parameters_partial.

(** It is false of the others, TZID and ENCODING among them, which change the value: the last is used. *)
Theorem C38_duplicate_parameters_refuted {env : Env} pid a x b y c d :
  ~ In (upper (cp_name x)) (known_params (snd (prop_spec pid))) -> upper (cp_name y) = upper (cp_name x) ->
  prop_decode pid (params_tokens (a ++ x :: b ++ y :: c)) d = prop_decode pid (params_tokens (a ++ b ++ y :: c)) d.
Proof. exact (last_param_wins pid a x b y c d). Qed.
Print Assumptions C38_duplicate_parameters_refuted.

Example C38_applies : In (bs "LANGUAGE") (known_params (snd (prop_spec PrComment))) /\ In (bs "VALUE") (known_params (snd (prop_spec PrDue))) /\
  ~ In (bs "TZID") (known_params (snd (prop_spec PrDateTimeStart))) /\
  @prop_decode env0 PrDateTimeStart (params_tokens [CParam (bs "TZID") (Plain (bs "Nowhere")) []; CParam (bs "tzid") (Plain (bs "Europe/Town")) []]) (bs "20240301T090000") = Ok start1.
Proof. split; [right; left; reflexivity|]. split; [left; reflexivity|]. split; [intros [H|[]]; discriminate|vm_compute; reflexivity]. Qed.

(** C39 *)
Theorem C39_properties_round_trip {env : Env} pid p : prop_good pid p -> exists l,
  (exists ws, prop_encode pid p = wrs ws /\ concat ws = cline_render l ++ CRLF) /\ cline_wf l = true /\ cl_name l = fst (prop_spec pid) /\
  prop_decode pid (params_tokens (cl_params l)) (cl_value l) = Ok p.
Proof. exact (prop_rt_all pid p). Qed.
Print Assumptions C39_properties_round_trip.

Example C39_applies : (prop_good PrAttendee attendee1 /\ prop_good PrDateTimeStart start1 /\ prop_good PrDue due1) /\
  (exists ws, prop_encode PrAttendee attendee1 = wrs ws /\ concat ws = bs "ATTENDEE;CUTYPE=GROUP;MEMBER=""mailto:x@town"",""mailto:y@town"";ROLE=UNKNOWN;RSVP=TRUE;CN=""Doe, J"";LANGUAGE=en:mailto:j@town" ++ CRLF) /\
  (exists ws, prop_encode PrDateTimeStart start1 = wrs ws /\ concat ws = bs "DTSTART;TZID=Europe/Town:20240301T090000" ++ CRLF) /\
  (exists ws, prop_encode PrDue due1 = wrs ws /\ concat ws = bs "DUE;VALUE=DATE:20240229" ++ CRLF).
Proof. exact (conj (conj attendee1_good (conj start1_good due1_good)) samples_text). Qed.

(** C57: every parameter that is known and given, and no other, is in the result, with its meaning; the
    value is of the type that VALUE names, and of the first if there is none, and is what this type reads
    the text as. *)
Theorem C57_parameters_are_read {env : Env} pid ps vs cps d p : snd (prop_spec pid) = MStruct ps vs -> prop_decode pid (params_tokens cps) d = Ok p ->
  exists l a w k b v, p = PStruct l (map (fun _ => None) a ++ Some v :: map (fun _ => None) b) /\
    Forall2 (param_read cps) ps l /\ type_read cps vs a w k b /\ kind_of v = k /\ exists m, value_decode k m d = Ok v.
Proof. exact (struct_read pid ps vs cps d p). Qed.
Print Assumptions C57_parameters_are_read.

Example C57_applies : @prop_decode env0 PrDue (params_tokens [CParam (bs "X-A") (Quoted (bs "b;c")) []; CParam (bs "Value") (Plain (bs "date")) []]) (bs "20240229") = Ok due1.
Proof. vm_compute. reflexivity. Qed.

(** C58 *)
Theorem C58_unknown_parameters_ignored {env : Env} pid a x b d :
  ~ In (upper (cp_name x)) (known_params (snd (prop_spec pid))) -> ~ (upper (cp_name x) = bs "TZID" \/ upper (cp_name x) = bs "ENCODING") ->
  prop_decode pid (params_tokens (a ++ x :: b)) d = prop_decode pid (params_tokens (a ++ b)) d.
Proof. exact (unknown_params_ignored pid a x b d). Qed.
Print Assumptions C58_unknown_parameters_ignored.

Example C58_applies : ~ In (bs "X-A") (known_params (snd (prop_spec PrDue))) /\ ~ (bs "X-A" = bs "TZID" \/ bs "X-A" = bs "ENCODING").
Proof. split; [intros [H|[]]; discriminate|intros [H|H]; discriminate]. Qed.
