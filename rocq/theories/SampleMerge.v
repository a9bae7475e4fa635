(** Two calendars that are put together. *)
From Coq Require Import String Ascii ZArith Bool List.
From Verif Require Import Base Tokeniser SpecContent GoTime Types Params ParamTable PropTable Props SecTable Sections Codec SpecTree SpecRules SpecLines SampleTree SpecMerge MergeProofs.
Import ListNotations.

Definition m_items : list item :=
  [IComp (ln "BEGIN" "VTODO") [ILine (ln "UID" "2@town"); ILine (ln "DTSTAMP" "20240229T101500Z")] (ln "END" "VTODO"); ILine (ln "PRODID" "-//Village//Agenda//EN"); ILine (ln "VERSION" "2.0");
   IComp (ln "BEGIN" "vevent") [ILine (ln "UID" "3@village"); ILine (ln "DTSTAMP" "20240229T101500Z"); ILine (ln "DTSTART" "20240301T090000Z")] (ln "END" "VEVENT")].
(** A calendar in which one component of three cannot be read *)
Definition m_bad : list item := m_items ++ [IComp (ln "BEGIN" "VJOURNAL") [ILine (ln "UID" "4@village")] (ln "END" "VJOURNAL")].

Section S.
Context {env : Env}.
Definition text_of_items (items : list item) : bytes := frame_text t_begin items t_end ++ CRLF.
Definition counts (c : sec) : list nat := map (@length _) (sec_fields c).
Lemma m_framed : framed t_begin m_items t_end.
Proof. apply framed_b. vm_compute. reflexivity. Qed.
Lemma m_bad_framed : framed t_begin m_bad t_end.
Proof. apply framed_b. vm_compute. reflexivity. Qed.
Lemma crlf_rest : rest_ok CRLF.
Proof. right. exists []. reflexivity. Qed.
Theorem merge_case : framed t_begin t_items t_end /\ framed t_begin m_items t_end /\ rest_ok CRLF /\
  exists c1 c2, decode_bytes (text_of_items t_items) = Ok c1 /\ decode_bytes (text_of_items m_items) = Ok c2 /\
    counts c1 = [1; 1; 1; 0; 0; 0; 1] /\ counts c2 = [1; 1; 1; 1; 0; 0; 0] /\ counts (merged c1 c2) = [1; 1; 2; 1; 0; 0; 1].
Proof.
  split; [exact t_framed|]. split; [exact m_framed|]. split; [exact crlf_rest|]. eexists. eexists. split; [vm_compute; reflexivity|]. split; [vm_compute; reflexivity|]. vm_compute. auto.
Qed.
Theorem merge_bad : framed t_begin m_bad t_end /\ readable (text_of_items (own_lines m_bad)) /\ ~ readable (text_of_items m_bad) /\
  map (fun c => is_ok (decode_bytes (text_of_items (own_lines m_bad ++ [c])))) (components m_bad) = [true; true; false].
Proof.
  split; [exact m_bad_framed|]. split; [eexists; vm_compute; reflexivity|]. split; [|vm_compute; reflexivity].
  intros [cal D]. assert (E : is_ok (decode_bytes (text_of_items m_bad)) = false) by (vm_compute; reflexivity). rewrite D in E. discriminate.
Qed.
End S.
