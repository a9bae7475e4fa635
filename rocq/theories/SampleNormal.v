(** Calendars that settle, and one that does not. *)
From Coq Require Import String Ascii ZArith Bool List Lia.
From Verif Require Import Base Lib Utf8 Utf8Proofs GoStrings Strtok Tokeniser SpecContent GoTime Types Params ParamTable PropTable Props SecTable Sections Folder Unfolder Codec SpecLines SpecTree SpecRules EncodeProofs DecodeProofs SpecTime SpecText SpecParams SpecProps PropProofs HangProofs SpecCal CalProofs RoundProofs EncodableProofs SpecKeep KeepProofs Sample SampleTree SampleProps SampleCal SampleKeep SpecNormal NormalProofs.
Import ListNotations.

Section S.
Context {env : Env}.
Theorem settled s cal : decode_bytes s = Ok cal -> cal_settles cal -> exists out, Encode ok_writer [] cal = EncDone None out /\
  (forall w sizes, (forall i, 1 <= sizes i) -> length (concat out) <= sizes 0 -> exists n, forall fuel, n <= fuel -> Decode fuel sizes [concat out] w = Ok (forget (normal cal))) /\
  (~ has_fold (concat out) -> forall chunks sizes, concat chunks = concat out -> (forall i, 2 <= sizes i) -> exists n, forall fuel, n <= fuel -> Decode fuel sizes chunks false = Ok (forget (normal cal))) /\
  ((forall p, ~ has_prop cal PrLastModified p) -> forget (normal cal) = normal cal) /\
  forall W E (wr : W -> bytes -> W * option E) w, Encode wr w (normal cal) = Encode wr w cal.
Proof.
  intros D K. destruct (decoded_settled s cal D K) as (I & G & R & V & SE). destruct (encode_decode (normal cal) I G V) as (out & E & A & B). exists out.
  split; [rewrite <- SE; exact E|]. split; [|split; [|split; [|exact SE]]].
  - intros w sizes S1 S2. destruct (A w sizes S1 S2) as (n & H). exists n. intros fuel F. apply (H fuel _ F). split; [exact R|reflexivity].
  - intros NF chunks sizes C S2. destruct (B NF chunks sizes C S2) as (n & H). exists n. intros fuel F. apply (H fuel _ F). split; [exact R|reflexivity].
  - intros NL. apply forget_id; [exact G|]. intros p H. apply prop_of_normal in H as (q & H & _). exact (NL q H).
Qed.

(** Half a second, an empty language, and an octet that is no letter. *)
Definition text_rough : bytes := lines ["BEGIN:VCALENDAR"; "VERSION:2.0"; "PRODID:-//Town"; "BEGIN:VEVENT"; "DTSTAMP:20240229T101500.5Z"; "UID:1@town"]%string ++
  bs "DESCRIPTION;LANGUAGE=:a" ++ [chr 195] ++ CRLF ++ lines ["RRULE:FREQ=DAILY;UNTIL=20250101T000000.25Z"; "END:VEVENT"; "END:VCALENDAR"]%string.
Definition text_smooth : bytes := lines ["BEGIN:VCALENDAR"; "VERSION:2.0"; "PRODID:-//Town"; "BEGIN:VEVENT"; "DTSTAMP:20240229T101500Z"; "UID:1@town"]%string ++
  bs "DESCRIPTION:a" ++ [chr 239; chr 191; chr 189] ++ CRLF ++ lines ["RRULE:FREQ=DAILY;UNTIL=20250101T000000Z"; "END:VEVENT"; "END:VCALENDAR"]%string.
Definition cal_rough : sec := match decode_bytes text_rough with Ok c => c | _ => cal_plain end.
Lemma rough_decodes : decode_bytes text_rough = Ok cal_rough.
Proof. vm_compute. reflexivity. Qed.
Lemma rough_case : decode_bytes text_rough = Ok cal_rough /\ cal_settles cal_rough /\ (forall p, ~ has_prop cal_rough PrLastModified p) /\ normal cal_rough <> cal_rough /\
  Encode ok_writer [] cal_rough <> EncDone None [] /\ decode_bytes text_smooth = Ok (normal cal_rough) /\
  (forall out, Encode ok_writer [] cal_rough = EncDone None out -> concat out = text_smooth).
Proof.
  split; [exact rough_decodes|]. split; [|split; [intros p H; apply props_in in H; vm_compute in H; intuition discriminate|split; [vm_compute; discriminate|split; [vm_compute; discriminate|split; [vm_compute; reflexivity|]]]]].
  - intros pid p H. assert (NE : ~ needs_escape pid p).
    { intros N. assert (X : exists w, Encode ok_writer [] cal_rough = EncHang w) by (apply encode_hang_exact; split; [vm_compute; reflexivity|eauto]). destruct X as (w & X). vm_compute in X. discriminate. }
    split; [exact NE|]. apply props_in in H. vm_compute in H. unfold value_settles, value_keeps, moment_keeps, year_one.
    repeat (destruct H as [H|H]; [injection H as <- <-; (split; [intros v PV; cbn [prop_value In] in PV; intuition (subst; try discriminate; cbn; auto; try (injection H as <-; cbn; auto; intuition (try discriminate; lia)))|cbn [In]; auto; try (intros v I; intuition (try discriminate); injection H as <-; exact Logic.I)])|]).
    + destruct H as [H _]. discriminate H.
    + intros v [Q|[Q|[]]]; [discriminate|]. injection Q as <-. exact Logic.I.
    + split; [auto|]. intros [Q _]. lia.
    + lia.
    + destruct H.
  - intros out H. assert (X : match Encode ok_writer [] cal_rough with EncDone _ o => concat o | _ => [] end = text_smooth) by (vm_compute; reflexivity). rewrite H in X. exact X.
Qed.

(** A time in the first second of the year 1 becomes the unset one. *)
Definition text_dawn : bytes := lines ["BEGIN:VCALENDAR"; "VERSION:2.0"; "PRODID:-//Town"; "BEGIN:VEVENT"; "DTSTAMP:00010101T000000.5Z"; "UID:1@town"; "END:VEVENT"; "END:VCALENDAR"]%string.
Lemma dawn_lost : exists cal out cal' e, decode_bytes text_dawn = Ok cal /\ Encode ok_writer [] cal = EncDone None out /\ decode_bytes (concat out) = Ok cal' /\ Encode ok_writer [] cal' = EncInvalid e [].
Proof. do 4 eexists. split; [vm_compute; reflexivity|]. split; [vm_compute; reflexivity|]. split; [vm_compute; reflexivity|]. vm_compute. reflexivity. Qed.
End S.
