(** A calendar with letters, and texts that are not UTF-8. *)
From Coq Require Import String Ascii ZArith Bool List.
From Verif Require Import Base Lib Utf8 Utf8Proofs GoTime Types Params ParamTable PropTable Props SecTable Sections Codec SpecLines SpecTree SpecRules SpecProps SpecCal CalProofs EncodeProofs Sample SampleFull SpecUtf UtfProofs UtfReadProofs Folder.
Import ListNotations.

Definition is_utf8 (s : bytes) : bool := beq (concat (map encode_rune (runes s))) s.
Lemma not_utf8 s : is_utf8 s = false -> ~ utf8 s.
Proof. unfold is_utf8. intros H U. apply utf8_runes in U as [U _]. rewrite U in H. destruct (beq s s) eqn:B; [discriminate|]. assert (X : beq s s = true) by (apply beq_eq; reflexivity). congruence. Qed.

(** The description has a language and a text. *)
Definition u_text (lang text : bytes) : bytes := lines ["BEGIN:VCALENDAR"; "VERSION:2.0"; "PRODID:-//Town//Agenda 1.0//EN"; "BEGIN:VEVENT"; "DTSTAMP:20240229T101500Z"; "UID:1@town"; "DTSTART:20240301T090000Z"]%string ++
  bs "DESCRIPTION;LANGUAGE=" ++ lang ++ bs ":" ++ text ++ CRLF ++ lines ["END:VEVENT"; "END:VCALENDAR"]%string.
Definition e_acute : bytes := [chr 195; chr 169].
Definition broken : bytes := [chr 195].

Lemma utf_case {env : Env} : utf8 (u_text e_acute letters) /\ exists cal out, decode_bytes (u_text e_acute letters) = Ok cal /\ Encode ok_writer [] cal = EncDone None out /\
  has_prop cal PrDescription (PStruct [None; Some (PVText e_acute)] [Some (VText letters)]).
Proof.
  split; [apply utf8_of; vm_compute; reflexivity|]. eexists. eexists. split; [vm_compute; reflexivity|]. split; [vm_compute; reflexivity|].
  apply has_prop_eq. right. eexists. eexists. split; [right; right; left; reflexivity|]. split; [left; left; reflexivity|].
  apply has_prop_eq. left. eexists. split; [do 5 right; left; reflexivity|left; reflexivity].
Qed.
Lemma world_case : @world_utf8 env0.
Proof.
  split.
  - intros s u U H. cbn in H. injection H as <-. exact U.
  - intros n z H. cbn [load_zone env0] in H. destruct (beq n (bs "Europe/Town")) eqn:B; [|discriminate]. apply beq_eq in B. injection H as <-. subst n. apply utf8_of. vm_compute. reflexivity.
Qed.
(** A parameter that is not UTF-8 is read and written as it is. *)
Lemma broken_param {env : Env} : ~ utf8 (u_text broken (bs "x")) /\ exists cal out, decode_bytes (u_text broken (bs "x")) = Ok cal /\ Encode ok_writer [] cal = EncDone None out /\
  ~ utf8 (concat out).
Proof.
  split; [apply not_utf8; vm_compute; reflexivity|]. eexists. eexists. split; [vm_compute; reflexivity|]. split; [vm_compute; reflexivity|].
  apply not_utf8. vm_compute. reflexivity.
Qed.
(** A text that is not UTF-8 is read as it is and written as another one. *)
Lemma broken_text {env : Env} : ~ utf8 (u_text (bs "en") broken) /\ exists cal out cal', decode_bytes (u_text (bs "en") broken) = Ok cal /\
  has_prop cal PrDescription (PStruct [None; Some (PVText (bs "en"))] [Some (VText broken)]) /\ Encode ok_writer [] cal = EncDone None out /\
  utf8 (concat out) /\ decode_bytes (concat out) = Ok cal' /\ has_prop cal' PrDescription (PStruct [None; Some (PVText (bs "en"))] [Some (VText [chr 239; chr 191; chr 189])]).
Proof.
  assert (P : forall (c : sec) pid p, (exists vs x, In vs (sec_fields c) /\ In (FVSec x) vs /\ exists ws, In ws (sec_fields x) /\ In (FVProp pid p) ws) -> has_prop c pid p).
  { intros c pid p (vs & x & I & J & ws & K & L). exists x, ws. split; [|auto]. destruct c as [id fs]. eapply Part_sec; [exact I|exact J|constructor]. }
  split; [apply not_utf8; vm_compute; reflexivity|]. eexists. eexists. eexists. split; [vm_compute; reflexivity|]. split.
  { apply P. eexists. eexists. split; [right; right; left; reflexivity|]. split; [left; reflexivity|]. eexists. split; [do 5 right; left; reflexivity|left; reflexivity]. }
  split; [vm_compute; reflexivity|]. split; [apply utf8_of; vm_compute; reflexivity|]. split; [vm_compute; reflexivity|].
  apply P. eexists. eexists. split; [right; right; left; reflexivity|]. split; [left; reflexivity|]. eexists. split; [do 5 right; left; reflexivity|left; reflexivity].
Qed.
