(** What the error messages should say: the names of the places from the calendar down to the first thing that is wrong,
    and what is wrong with it. Written in terms of SpecTree.v, SpecFail.v, SpecRfc.v and SpecLine.v. *)
From Coq Require Import String Ascii ZArith Bool List.
From Verif Require Import Base Tokeniser SpecContent SpecBadLine GoTime Types Params ParamTable PropTable Props SecTable Sections SpecTree SpecRules SpecProps SpecCal SpecValid SpecRfc SpecLine SpecFail Messages.
Import ListNotations.
Local Open Scope string_scope.
Local Open Scope list_scope.

(** ** The names of the Go types *)
Definition comp_word (id : secid) : bytes := bs
  match id with
  | SCalendar => "Calendar" | SEvent => "Event" | STodo => "Todo" | SJournal => "Journal" | SFreeBusy => "FreeBusy"
  | STimezone => "Timezone" | SStandard => "Standard" | SDaylight => "Daylight"
  | SAlarmAudio => "AlarmAudio" | SAlarmDisplay => "AlarmDisplay" | SAlarmEmail => "AlarmEmail" | SAlarmURI => "AlarmURI" | SAlarmNone => "AlarmNone"
  end.
Definition prop_word (p : propid) : bytes := bs
  match p with
  | PrCalendarScale => "CalendarScale" | PrMethod => "Method" | PrProductID => "ProductID" | PrVersion => "Version"
  | PrAttachment => "Attachment" | PrCategories => "Categories" | PrClass => "Class" | PrComment => "Comment" | PrDescription => "Description"
  | PrGeo => "Geo" | PrLocation => "Location" | PrPercentComplete => "PercentComplete" | PrPriority => "Priority" | PrResources => "Resources"
  | PrStatus => "Status" | PrAlarmStatus => "AlarmStatus" | PrSummary => "Summary"
  | PrCompleted => "Completed" | PrDateTimeEnd => "DateTimeEnd" | PrDue => "Due" | PrDateTimeStart => "DateTimeStart" | PrDuration => "Duration"
  | PrFreeBusy => "FreeBusy" | PrTimeTransparency => "TimeTransparency"
  | PrTimezoneID => "TimezoneID" | PrTimezoneName => "TimezoneName" | PrTimezoneOffsetFrom => "TimezoneOffsetFrom" | PrTimezoneOffsetTo => "TimezoneOffsetTo"
  | PrTimezoneURL => "TimezoneURL"
  | PrAttendee => "Attendee" | PrContact => "Contact" | PrOrganizer => "Organizer" | PrRecurrenceID => "RecurrenceID" | PrRelatedTo => "RelatedTo"
  | PrURL => "URL" | PrUID => "UID"
  | PrExceptionDateTime => "ExceptionDateTime" | PrRecurrenceDateTimes => "RecurrenceDateTimes" | PrRecurrenceRule => "RecurrenceRule"
  | PrAction => "Action" | PrRepeat => "Repeat" | PrTrigger => "Trigger"
  | PrCreated => "Created" | PrDateTimeStamp => "DateTimeStamp" | PrLastModified => "LastModified" | PrSequence => "Sequence"
  | PrRequestStatus => "RequestStatus"
  | PrURI => "URI" | PrAlarmAgent => "AlarmAgent" | PrLastTriggered => "LastTriggered" | PrAcknowledged => "Acknowledged"
  | PrProximity => "Proximity" | PrGeoLocation => "GeoLocation" | PrDefaultAlarm => "DefaultAlarm"
  end.
Definition param_word (q : paramid) : bytes := bs
  match q with
  | PmAlternativeRepresentation => "AlternativeRepresentation" | PmCommonName => "CommonName" | PmCalendarUserType => "CalendarUserType"
  | PmDelegator => "Delegator" | PmDelagatee => "Delagatee" | PmDirectoryEntry => "DirectoryEntry" | PmEncoding => "Encoding" | PmFormatType => "FormatType"
  | PmFreeBusyType => "FreeBusyType" | PmLanguage => "Language" | PmMember => "Member" | PmParticipationStatus => "ParticipationStatus"
  | PmRange => "Range" | PmRelated => "Related" | PmRelationshipType => "RelationshipType" | PmParticipationRole => "ParticipationRole"
  | PmRSVP => "RSVP" | PmSentBy => "SentBy" | PmTimezoneID => "TimezoneID" | PmValue => "Value" | PmURI => "URI" | PmID => "ID" | PmAgentID => "AgentID"
  end.
Definition kind_word (k : vkind) : bytes := bs
  match k with
  | KBinary => "Binary" | KBoolean => "Boolean" | KCalendarAddress => "CalendarAddress" | KDate => "Date" | KDateTime => "DateTime"
  | KDuration => "Duration" | KFloat => "Float" | KTFloat => "TFloat" | KInteger => "Integer" | KPeriod => "Period" | KRecur => "Recur"
  | KText => "Text" | KMText => "MText" | KTime => "Time" | KURI => "URI" | KUTCOffset => "UTCOffset"
  end.
Definition field_word (t : ftype) : bytes := match t with FTProp pid => prop_word pid | FTSec sid => comp_word sid | FTAlarm => bs "Alarm" end.

(** The error inside a message. *)
Fixpoint root (m : gmsg) : gerr := match m with Root e => e | Wrap _ m => root m | Multiple _ _ => ErrMultiple end.

Section Message.
Context {env : Env}.

(** ** Lines *)
(** The parameters of a line are all right: each is given once at most and can be read, and so is VALUE. *)
Definition params_fine (pid : propid) (ps : list paramid) (cps : list cparam) : Prop :=
  Forall (fun q => exists o, param_means cps q o) ps /\ exists a w k b, type_read cps (rfc_types pid) a w k b.
Definition several_types (pid : propid) : Prop := length (rfc_types pid) > 1.

(** Why a parameter cannot be read. *)
Definition url_fault (t : string) : gmsg := Wrap (Says (bs t)) (Root ErrStd).
Definition form_cause (f : param_form) (x : cparam) : gmsg :=
  match f with
  | OneAddress => match cp_first x, cp_more x with Quoted _, [] => url_fault "error decoding URI" | _, _ => Root ErrInvalidParam end
  | ManyAddresses =>
    match find (fun v => match v with Quoted s => match url_parse s with Some _ => false | None => true end | _ => true end) (cp_first x :: cp_more x) with
    | Some (Quoted _) => url_fault "error parsing CalendarAddress"
    | _ => Root ErrInvalidParam
    end
  | TrueFalse => match cp_more x with [] => Root ErrInvalidBoolean | _ => Root ErrInvalidParam end
  | _ => Root ErrInvalidParam
  end.

(** Why a value cannot be read: an error of the package as it is, and an error of the standard library (for a URL, a number, a date,
    a time zone, base64) with a text before it, if the value is not an integer or a recurrence rule. A period names its part. *)
Inductive moment_text (n : string) (vp : pmap) (d : bytes) : bytes -> Prop :=
| Mt_no_zone z : pmap_get vp (bs "TZID") = Some z -> load_location 0 z = None -> moment_text n vp d (bs ("error loading timezone for " ++ n))
| Mt_zone z y : pmap_get vp (bs "TZID") = Some z -> load_location 0 z = Some y -> moment_text n vp d (bs ("error parsing time in location for " ++ n))
| Mt_utc r : pmap_get vp (bs "TZID") = None -> d = r ++ bs "Z" -> moment_text n vp d (bs ("error parsing time in UTC for " ++ n))
| Mt_local : pmap_get vp (bs "TZID") = None -> (forall r, d <> r ++ bs "Z") -> moment_text n vp d (bs ("error parsing local time for " ++ n)).
Definition own_text (k : vkind) : option string :=
  match k with
  | KBinary => Some "error while decoding binary data" | KCalendarAddress => Some "error parsing CalendarAddress" | KDate => Some "error parsing Date"
  | KDuration => Some "error decoding duration" | KFloat => Some "error parsing Float" | KURI => Some "error decoding URI" | _ => None
  end.
Definition two_parts (c : byte) (d a b : bytes) : Prop := d = a ++ c :: b /\ ~ In c a.
Inductive value_says (vp : pmap) (d : bytes) : vkind -> gerr -> gmsg -> Prop :=
| Vs_own k e : k <> KPeriod -> e <> ErrStd -> value_says vp d k e (Root e)
| Vs_bare k : In k [KBoolean; KInteger; KRecur; KText; KMText; KUTCOffset] -> value_says vp d k ErrStd (Root ErrStd)
| Vs_text k t : own_text k = Some t -> value_says vp d k ErrStd (Wrap (Says (bs t)) (Root ErrStd))
| Vs_datetime t : moment_text "DateTime" vp d t -> value_says vp d KDateTime ErrStd (Wrap (Says t) (Root ErrStd))
| Vs_time t : moment_text "Time" vp d t -> value_says vp d KTime ErrStd (Wrap (Says t) (Root ErrStd))
| Vs_first a b : two_parts ";" d a b -> parse_float a = None -> value_says vp d KTFloat ErrStd (Wrap (Says (bs "error parsing TFloat[0]")) (Root ErrStd))
| Vs_second a b f : two_parts ";" d a b -> parse_float a = Some f -> value_says vp d KTFloat ErrStd (Wrap (Says (bs "error parsing TFloat[1]")) (Root ErrStd))
| Vs_period e : (forall a b, two_parts "/" d a b -> b = []) -> value_says vp d KPeriod e (Root e)
| Vs_start a b e m : two_parts "/" d a b -> b <> [] -> value_decode KDateTime vp a = Err e -> value_says vp a KDateTime e m ->
    value_says vp d KPeriod e (Wrap (Says (bs "error while decoding Period Start")) m)
| Vs_end a c b v e m : two_parts "/" d a (c :: b) -> value_decode KDateTime vp a = Ok v -> c <> "P"%char -> c <> "+"%char ->
    value_says vp (c :: b) KDateTime e m -> value_says vp d KPeriod e (Wrap (Says (bs "error while decoding Period End")) m)
| Vs_length a c b v e m : two_parts "/" d a (c :: b) -> value_decode KDateTime vp a = Ok v -> c = "P"%char \/ c = "+"%char ->
    value_says vp (c :: b) KDuration e m -> value_says vp d KPeriod e (Wrap (Says (bs "error while decoding Period")) m).

(** [line_says pid cps d m]: for a line of the property [pid] with the parameters [cps] and the value [d], [m] says what is
    wrong first: parameters in order, and then the value. *)
Inductive line_says (pid : propid) (cps : list cparam) (d : bytes) : gmsg -> Prop :=
| Ls_twice ps pre x post q : rfc_words pid = [] -> api_struct pid = Some ps -> cps = pre ++ x :: post -> params_fine pid ps pre ->
    In q ps -> upper (cp_name x) = fst (rfc_param q) -> given (fst (rfc_param q)) pre <> [] ->
    line_says pid cps d (Wrap (DecodingProp (prop_word pid) (param_word q)) (Root ErrDuplicateParam))
| Ls_param ps pre x post q : rfc_words pid = [] -> api_struct pid = Some ps -> cps = pre ++ x :: post -> params_fine pid ps pre ->
    In q ps -> upper (cp_name x) = fst (rfc_param q) -> given (fst (rfc_param q)) pre = [] -> (forall v, ~ form_means (snd (rfc_param q)) x v) ->
    line_says pid cps d (Wrap (DecodingProp (prop_word pid) (param_word q)) (Wrap (DecodingType (param_word q)) (form_cause (snd (rfc_param q)) x)))
| Ls_types ps pre x post : rfc_words pid = [] -> api_struct pid = Some ps -> cps = pre ++ x :: post -> params_fine pid ps pre ->
    several_types pid -> upper (cp_name x) = bs "VALUE" -> cp_more x <> [] ->
    line_says pid cps d (Wrap (DecodingProp (prop_word pid) (bs "Value")) (Root ErrInvalidValue))
| Ls_type_twice ps pre x post : rfc_words pid = [] -> api_struct pid = Some ps -> cps = pre ++ x :: post -> params_fine pid ps pre ->
    several_types pid -> upper (cp_name x) = bs "VALUE" -> cp_more x = [] -> given (bs "VALUE") pre <> [] ->
    line_says pid cps d (Wrap (DecodingProp (prop_word pid) (bs "Value")) (Root ErrDuplicateParam))
| Ls_type ps pre x post : rfc_words pid = [] -> api_struct pid = Some ps -> cps = pre ++ x :: post -> params_fine pid ps pre ->
    several_types pid -> upper (cp_name x) = bs "VALUE" -> cp_more x = [] -> given (bs "VALUE") pre = [] ->
    ~ In (upper (pvalue_text (cp_first x))) (map fst (rfc_types pid)) ->
    line_says pid cps d (Wrap (DecodingType (prop_word pid)) (Root ErrInvalidValue))
| Ls_value ps a w k b e m : rfc_words pid = [] -> api_struct pid = Some ps -> params_fine pid ps cps -> type_read cps (rfc_types pid) a w k b ->
    value_decode k (value_params cps) d = Err e -> value_says (value_params cps) d k e m ->
    line_says pid cps d (Wrap (DecodingProp (prop_word pid) (kind_word k)) m)
| Ls_word : rfc_words pid <> [] -> ~ In (upper d) (rfc_words pid) -> line_says pid cps d (Wrap (DecodingType (prop_word pid)) (Root ErrInvalidValue))
| Ls_plain w k e m : rfc_words pid = [] -> api_struct pid = None -> rfc_types pid = [(w, k)] -> value_decode k (value_params cps) d = Err e ->
    value_says (value_params cps) d k e m -> line_says pid cps d (Wrap (DecodingType (prop_word pid)) m).

(** ** Components; the same cases as in SpecFail.v *)
Definition in_comp (id : secid) (e : gerr) : gmsg := Wrap (DecodingType (comp_word id)) (Root e).
Definition in_field (id : secid) (t : ftype) (m : gmsg) : gmsg := Wrap (DecodingProp (comp_word id) (field_word t)) m.
Definition end_error (en : ending) : gerr := match en with AtBad e => e | _ => ErrUnexpectedEOF end.

Inductive fault_says : secid -> list cline -> ending -> gmsg -> Prop :=
| Fault_says id items fs rest en m : so_far id items fs -> breaks_says id fs rest en m -> fault_says id (flat_map ilines items ++ rest) en m
with breaks_says : secid -> list (list fval) -> list cline -> ending -> gmsg -> Prop :=
| Bs_end id fs en : breaks_says id fs [] en (in_comp id (end_error en))
| Bs_multiple id fs l more en i fd : nth_error (fields_of id) i = Some fd -> belongs fd (ILine l) -> fd_mode fd <> FMany -> present fs i = true ->
    breaks_says id fs (l :: more) en (Multiple (comp_word id) (field_word (fd_type fd)))
| Bs_value id fs l more en i fd pid m : nth_error (fields_of id) i = Some fd -> belongs fd (ILine l) -> fd_type fd = FTProp pid ->
    fd_mode fd = FMany \/ present fs i = false -> line_says pid (cl_params l) (cl_value l) m ->
    breaks_says id fs (l :: more) en (in_field id (FTProp pid) m)
| Bs_name id fs e more en : is_end e -> cl_value e <> sp_name (sec_spec id) -> breaks_says id fs (e :: more) en (in_comp id ErrInvalidEnd)
| Bs_missing id fs e more en i fd : is_end e -> cl_value e = sp_name (sec_spec id) -> nth_error (fields_of id) i = Some fd ->
    fd_mode fd = FReq -> present fs i = false -> breaks_says id fs (e :: more) en (in_comp id ErrMissingRequired)
| Bs_rule id fs e more en r : is_end e -> cl_value e = sp_name (sec_spec id) ->
    (forall i fd, nth_error (fields_of id) i = Some fd -> fd_mode fd = FReq -> present fs i = true) ->
    In r (sp_reqs (sec_spec id)) -> ~ extra_ok (present fs) r -> breaks_says id fs (e :: more) en (in_comp id ErrRequirementNotMet)
| Bs_comp id fs b ls en fd sid m : is_begin b -> In fd (fields_of id) -> fd_type fd = FTSec sid -> upper (cl_value b) = fd_key fd ->
    fault_says sid ls en m -> breaks_says id fs (b :: ls) en (in_field id (FTSec sid) m)
| Bs_alarm id fs b ls en fd m : is_begin b -> In fd (fields_of id) -> fd_type fd = FTAlarm -> upper (cl_value b) = fd_key fd ->
    alarm_says ls en m -> breaks_says id fs (b :: ls) en (in_field id FTAlarm m)
| Bs_skip id fs b ls en e : is_begin b ->
    (forall fd, In fd (fields_of id) -> (forall pid, fd_type fd <> FTProp pid) -> upper (cl_value b) <> fd_key fd) ->
    skip_fault (upper (cl_value b)) ls en (Failed e) -> breaks_says id fs (b :: ls) en (in_comp id e)
(** The alarm itself adds no names. *)
with alarm_says : list cline -> ending -> gmsg -> Prop :=
| As_end body ty en : alarm_lines body -> action_so_far body ty -> en <> AtEnd -> alarm_says body en (Root (end_error en))
| As_begin body ty l more en : alarm_lines body -> action_so_far body ty -> cl_name l = bs "BEGIN" ->
    alarm_says (body ++ l :: more) en (Root ErrInvalidStructure)
| As_action body sid l more en : alarm_lines body -> action_so_far body (Some sid) -> cl_name l = bs "ACTION" ->
    alarm_says (body ++ l :: more) en (Root ErrInvalidStructure)
| As_none body e more en : alarm_lines body -> action_so_far body None -> cl_name e = bs "END" ->
    alarm_says (body ++ e :: more) en (Root ErrMissingAlarmAction)
| As_content body sid e more en m : alarm_lines body -> action_so_far body (Some sid) -> cl_name e = bs "END" ->
    fault_says sid (body ++ [e]) AtList m -> alarm_says (body ++ e :: more) en m.

Inductive says : bytes -> gmsg -> Prop :=
| Sy_empty s en : cut_into s [] en -> says s (Root (end_error en))
| Sy_first s l ls en : cut_into s (l :: ls) en -> ~ opens_calendar l -> says s (Root ErrInvalidCalendar)
| Sy_inside s b ls en m : cut_into s (b :: ls) en -> opens_calendar b -> fault_says SCalendar ls en m -> says s m.

(** ** What Encode says of a calendar that it refuses (see SpecValid.v): the first value that is not acceptable, in the order of
    the fields of the Go structs *)
Definition first_broken (l : list (Prop * gerr)) (e : gerr) : Prop := exists a P b, l = a ++ (P, e) :: b /\ Forall fst a /\ ~ P.
Definition rule_limits (r : recur) : list (Prop * gerr) :=
  [ ((0 <= r_freq r <= 6)%Z, ErrInvalidRecurFrequency);
    (upto 60 (r_bysecond r), ErrInvalidRecurBySecond); (upto 59 (r_byminute r), ErrInvalidRecurByMinute); (upto 23 (r_byhour r), ErrInvalidRecurByHour);
    (Forall (fun d => (1 <= dr_day d <= 7)%Z) (r_byday r), ErrInvalidRecurByDay);
    (signed_upto 31 (r_bymonthday r), ErrInvalidRecurByMonthDay); (signed_upto 366 (r_byyearday r), ErrInvalidRecurByYearDay);
    (signed_upto 53 (r_byweekno r), ErrInvalidRecurByWeekNum); (Forall (fun v => (v <> 0 /\ v <= 12)%Z) (r_bymonth r), ErrInvalidRecurByMonth);
    (signed_upto 366 (r_bysetpos r), ErrInvalidRecurBySetPos); ((r_wkst r = 0 \/ 1 <= r_wkst r <= 7)%Z, ErrInvalidRecurWeekStart) ].
Definition period_limits (p : period) : list (Prop * gerr) :=
  [ (~ year_one (p_start p), ErrInvalidPeriodStart);
    (year_one (p_end p) -> d_neg (p_dur p) = false, ErrInvalidPeriodDuration);
    (year_one (p_end p) \/ later (p_end p) (p_start p) /\ same_place (t_loc (p_start p)) (t_loc (p_end p)), ErrInvalidPeriodEnd) ].
Definition value_limits (v : value) : list (Prop * gerr) :=
  match v with
  | VDate _ | VDateTime _ | VTime _ => [(value_ok v, ErrInvalidTime)]
  | VFloat _ | VTFloat _ => [(value_ok v, ErrInvalidFloat)]
  | VText _ | VMText _ => [(value_ok v, ErrInvalidText)]
  | VPeriod p => period_limits p
  | VRecur r => rule_limits r
  | _ => []
  end.
Definition param_error (k : pkind) : gerr := match k with PKText _ | PKTexts => ErrInvalidText | _ => ErrInvalidValue end.

Inductive prop_refused (pid : propid) : prop -> gmsg -> Prop :=
| Pr_param ps l vl a q v b : api_struct pid = Some ps -> rfc_words pid = [] -> combine ps l = a ++ (q, Some v) :: b ->
    (forall q' v', In (q', Some v') a -> param_ok (snd (param_spec q')) v') -> ~ param_ok (snd (param_spec q)) v ->
    prop_refused pid (PStruct l vl)
      (Wrap (ValidatingProp (prop_word pid) (param_word q)) (Wrap (ValidatingType (param_word q)) (Root (param_error (snd (param_spec q))))))
| Pr_value ps l a v b e : api_struct pid = Some ps -> rfc_words pid = [] -> (forall q' v', In (q', Some v') (combine ps l) -> param_ok (snd (param_spec q')) v') ->
    (forall v', In (Some v') a -> value_ok v') -> first_broken (value_limits v) e ->
    prop_refused pid (PStruct l (a ++ Some v :: b)) (Wrap (ValidatingProp (prop_word pid) (kind_word (kind_of v))) (Root e))
| Pr_choice ps l vl : api_struct pid = Some ps -> rfc_words pid = [] -> (forall q' v', In (q', Some v') (combine ps l) -> param_ok (snd (param_spec q')) v') ->
    (forall v', In (Some v') vl -> value_ok v') -> several_types pid -> ~ one_set vl ->
    prop_refused pid (PStruct l vl) (Wrap (ValidatingType (prop_word pid)) (Root ErrInvalidValue))
| Pr_word n : rfc_words pid <> [] -> ~ (0 <= n < Z.of_nat (length (rfc_words pid)))%Z ->
    prop_refused pid (PEnum n) (Wrap (ValidatingType (prop_word pid)) (Root ErrInvalidValue))
| Pr_plain v e : api_struct pid = None -> rfc_words pid = [] -> first_broken (value_limits v) e ->
    prop_refused pid (PNew v) (Wrap (ValidatingType (prop_word pid)) (Root e)).

Definition fval_word (v : fval) : bytes := match v with FVProp pid _ => prop_word pid | FVSec s => comp_word (sec_id s) | FVAlarm _ => bs "Alarm" end.
Definition fval_ok (v : fval) : Prop :=
  match v with FVProp pid p => prop_ok pid p | FVSec s | FVAlarm (Some s) => cal_ok s | FVAlarm None => False end.
Inductive refused_with : sec -> gmsg -> Prop :=
| Rw id a b c d v m : (forall vs x, In vs a -> In x vs -> fval_ok x) -> Forall fval_ok c -> field_refused v m ->
    refused_with (Sec id (a ++ (c ++ v :: d) :: b)) (Wrap (ValidatingProp (comp_word id) (fval_word v)) m)
with field_refused : fval -> gmsg -> Prop :=
| Fr_prop pid p m : prop_refused pid p m -> field_refused (FVProp pid p) m
| Fr_comp s m : refused_with s m -> field_refused (FVSec s) m
| Fr_alarm s m : refused_with s m -> field_refused (FVAlarm (Some s)) m
| Fr_none : field_refused (FVAlarm None) (Root ErrInvalidAlarm).

(** ** The names in a message of Decode: each is a field of the struct named before it. *)
(** Texts without names. *)
Fixpoint nameless (m : gmsg) : Prop := match m with Root _ => True | Wrap (Says _) m => nameless m | _ => False end.
Inductive prop_path (pid : propid) : gmsg -> Prop :=
| Pp_here m : nameless m -> prop_path pid (Wrap (DecodingType (prop_word pid)) m)
| Pp_value w k m : In (w, k) (rfc_types pid) -> nameless m -> prop_path pid (Wrap (DecodingProp (prop_word pid) (kind_word k)) m)
| Pp_type e : several_types pid -> prop_path pid (Wrap (DecodingProp (prop_word pid) (bs "Value")) (Root e))
| Pp_twice ps q : api_struct pid = Some ps -> In q ps -> prop_path pid (Wrap (DecodingProp (prop_word pid) (param_word q)) (Root ErrDuplicateParam))
| Pp_param ps q m : api_struct pid = Some ps -> In q ps -> nameless m ->
    prop_path pid (Wrap (DecodingProp (prop_word pid) (param_word q)) (Wrap (DecodingType (param_word q)) m)).
Inductive comp_path : secid -> gmsg -> Prop :=
| Cp_here id e : comp_path id (Wrap (DecodingType (comp_word id)) (Root e))
| Cp_twice id fd : In fd (fields_of id) -> comp_path id (Multiple (comp_word id) (field_word (fd_type fd)))
| Cp_prop id fd pid m : In fd (fields_of id) -> fd_type fd = FTProp pid -> prop_path pid m -> comp_path id (Wrap (DecodingProp (comp_word id) (prop_word pid)) m)
| Cp_comp id fd sid m : In fd (fields_of id) -> fd_type fd = FTSec sid -> comp_path sid m -> comp_path id (Wrap (DecodingProp (comp_word id) (comp_word sid)) m)
(** Alarms are the exception. *)
| Cp_alarm id fd w sid m : In fd (fields_of id) -> fd_type fd = FTAlarm -> action_is w sid -> comp_path sid m -> comp_path id (Wrap (DecodingProp (comp_word id) (bs "Alarm")) m)
| Cp_alarm_bare id fd e : In fd (fields_of id) -> fd_type fd = FTAlarm -> comp_path id (Wrap (DecodingProp (comp_word id) (bs "Alarm")) (Root e)).
End Message.
Scheme fault_says_ind2 := Induction for fault_says Sort Prop
with breaks_says_ind2 := Induction for breaks_says Sort Prop
with alarm_says_ind2 := Induction for alarm_says Sort Prop.
