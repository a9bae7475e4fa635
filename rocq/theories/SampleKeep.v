(** A calendar that is kept, for PropertiesKeep.v, and the theorem put together. *)
From Coq Require Import String Ascii ZArith Bool List Lia.
From Verif Require Import Base Lib Utf8 Utf8Proofs GoStrings Strtok Tokeniser SpecContent GoTime Types Params ParamTable PropTable Props SecTable Sections Folder Unfolder Codec SpecLines SpecTree SpecRules EncodeProofs DecodeProofs SpecTime SpecDuration SpecText SpecParams SpecProps PropProofs HangProofs SpecCal CalProofs RoundProofs EncodableProofs SpecKeep KeepProofs Sample SampleTree SampleProps SampleCal.
Import ListNotations.

Section S.
Context {env : Env}.
Theorem read_write_read s cal : decode_bytes s = Ok cal -> utf8 s -> cal_keeps cal ->
  exists out, Encode ok_writer [] cal = EncDone None out /\
  (forall w sizes, (forall i, 1 <= sizes i) -> length (concat out) <= sizes 0 -> exists n, forall fuel, n <= fuel -> Decode fuel sizes [concat out] w = Ok cal) /\
  (~ has_fold (concat out) -> forall chunks sizes, concat chunks = concat out -> (forall i, 2 <= sizes i) -> exists n, forall fuel, n <= fuel -> Decode fuel sizes chunks false = Ok cal).
Proof. intros D U K. destruct (decoded_kept _ _ D U K) as (I & G & R & N & V). apply calendar_round_trip; assumption. Qed.

Definition text_keep : bytes := lines ["BEGIN:VCALENDAR"; "PRODID:-//Town"; "x-note:1"; "VERSION:2.0"; "BEGIN:VEVENT"; "uid:1@town"; "DTSTAMP:20240229T101500Z"; "DTSTART;VALUE=date:20240301"; "SUMMARY;LANGUAGE=en:Fair\, for all\; \\o/";
  "CATEGORIES:WORK,TOWN"; "STATUS:CONFIRMED"; "RRULE:FREQ=YEARLY;BYMONTH=3;UNTIL=20300301T000000Z"; "DURATION:+P1D"; "BEGIN:VALARM"; "TRIGGER:-PT15M"; "ACTION:DISPLAY"; "DESCRIPTION:Go"; "END:VALARM"; "END:VEVENT"; "END:VCALENDAR"]%string.
Definition cal_keep : sec := match decode_bytes text_keep with Ok c => c | _ => cal_plain end.

(** All properties of a component. *)
Fixpoint props_of (x : sec) : list (propid * prop) :=
  let 'Sec id fs := x in flat_map (flat_map fprops_of) fs
with fprops_of (v : fval) : list (propid * prop) :=
  match v with FVProp pid p => [(pid, p)] | FVSec x => props_of x | FVAlarm (Some x) => props_of x | FVAlarm None => [] end.
Lemma props_in cal pid p : has_prop cal pid p -> In (pid, p) (props_of cal).
Proof.
  induction cal as [id fs IH] using sec_induct. intros H. change (In (pid, p) (flat_map (flat_map fprops_of) fs)). apply has_prop_eq in H as [(vs & I & J)|(vs & x & I & J & P)]; apply in_flat_map; exists vs; (split; [exact I|]); apply in_flat_map.
  - exists (FVProp pid p). split; [exact J|left; reflexivity].
  - pose proof (IH vs x I J P) as Q. destruct J as [J|J]; [exists (FVSec x)|exists (FVAlarm (Some x))]; (split; [exact J|exact Q]).
Qed.
Lemma keep_decodes : decode_bytes text_keep = Ok cal_keep.
Proof. vm_compute. reflexivity. Qed.
Lemma keep_case : decode_bytes text_keep = Ok cal_keep /\ utf8 text_keep /\ cal_keeps cal_keep.
Proof.
  split; [exact keep_decodes|]. split; [apply utf8_ascii, Forall_forall; intros c I; assert (T : forallb (fun c => (code c <? 128)%Z) text_keep = true) by (vm_compute; reflexivity); rewrite forallb_forall in T; specialize (T c I); lia|].
  intros pid p H. assert (NE : ~ needs_escape pid p).
  { intros N. assert (X : exists w, Encode ok_writer [] cal_keep = EncHang w) by (apply encode_hang_exact; split; [vm_compute; reflexivity|eauto]). destruct X as (w & X). vm_compute in X. discriminate. }
  assert (NR : forall v, prop_value p v -> ~ refused v) by (intros v PV; apply (proj1 (decoded_valid _ _ keep_decodes)) with (pid := pid) (p := p); auto; vm_compute; reflexivity).
  apply props_in in H. vm_compute in H. unfold prop_keeps, value_keeps, moment_keeps, year_one.
  repeat (destruct H as [H|H]; [injection H as <- <-; split; [discriminate|]; split; [exact NE|]; (split; [intros v PV; split; [apply NR, PV|]; cbn [prop_value In] in PV; intuition (subst; try discriminate; cbn; auto; try (injection H as <-; cbn; auto))
    |intros ps vs l vl q v; cbn [prop_spec snd]; intros A B; try discriminate; injection A as <- <-; injection B as <- <-; cbn [combine In]; intuition (try discriminate); injection H as <- <-; cbn; discriminate])|]). 
  - injection H0 as <-. exact Logic.I.
  - split; [auto|]. intros [Q _]. discriminate.
  - destruct H.
Qed.

(** A fraction of a second is read and not written. *)
Definition text_half : bytes := lines ["BEGIN:VCALENDAR"; "VERSION:2.0"; "PRODID:-//Town"; "BEGIN:VEVENT"; "DTSTAMP:20240229T101500.5Z"; "UID:1@town"; "CATEGORIES;LANGUAGE=en:WORK"; "END:VEVENT"; "END:VCALENDAR"]%string.
Definition cal_half : sec := match decode_bytes text_half with Ok c => c | _ => cal_plain end.
Theorem half_lost : exists out,
  (forall chunks sizes, concat chunks = text_half -> (forall i, 2 <= sizes i) -> exists n, forall fuel, n <= fuel -> Decode fuel sizes chunks false = Ok cal_half) /\
  Encode ok_writer [] cal_half = EncDone None out /\
  (forall chunks sizes, concat chunks = concat out -> (forall i, 2 <= sizes i) -> exists n, forall fuel, n <= fuel -> Decode fuel sizes chunks false = Ok cal_small) /\
  cal_small <> cal_half.
Proof.
  exists (match Encode ok_writer [] cal_half with EncDone _ o => o | _ => [] end).
  assert (OUT : concat (match Encode ok_writer [] cal_half with EncDone _ o => o | _ => [] end) = text_small) by (vm_compute; reflexivity).
  split; [|split; [vm_compute; reflexivity|split]].
  - intros chunks sizes C S2. destruct (decode_fold_free chunks sizes S2) as (n & H); [rewrite C; apply no_fold_by; vm_compute; reflexivity|].
    exists n. intros fuel F. rewrite (H fuel F), C. vm_compute. reflexivity.
  - rewrite OUT. intros chunks sizes C S2. destruct (decode_fold_free chunks sizes S2) as (n & H); [rewrite C; apply no_fold_by; vm_compute; reflexivity|].
    exists n. intros fuel F. rewrite (H fuel F), C. apply small_case.
  - vm_compute. discriminate.
Qed.
End S.
