(** Properties C14-C25: text, numbers, durations, offsets and binary values. *)
From Coq Require Import String ZArith List Bool.
From Verif Require Import Base Utf8 GoTime Types SpecLines SpecText SpecDuration ValueProofs.
Import ListNotations.
Local Open Scope Z_scope.

(** C14 *)
Theorem C14_text_round_trips {env : Env} m x : utf8 x ->
  value_decode KText m (concat (value_encode (VText x))) = Ok (VText x).
Proof. exact (v_text m x). Qed.
Print Assumptions C14_text_round_trips.

(** C15: no control character but TAB, and no separator that a reader would see, whatever follows. *)
Theorem C15_text_cannot_inject {env : Env} x : value_valid (VText x) = None ->
  let out := concat (value_encode (VText x)) in
  Forall (fun c => 32 <= code c /\ code c <> 127 \/ code c = 9) out /\
  forall s, open_sep false (out ++ s) = open_sep false s.
Proof. exact (v_text_safe x). Qed.
Print Assumptions C15_text_cannot_inject.

Example C14_applies (env : Env) : utf8 (bs "a\,b;" ++ [LF] ++ bs "c" ++ encode_rune 8364) /\
  value_valid (VText (bs "a\,b;" ++ [LF] ++ bs "c" ++ encode_rune 8364)) = None.
Proof. exact text_case. Qed.

(** C16 *)
Theorem C16_text_lists_round_trip {env : Env} m l : l <> [] -> Forall utf8 l ->
  value_decode KMText m (concat (value_encode (VMText l))) = Ok (VMText l).
Proof. exact (v_mtext m l). Qed.
Print Assumptions C16_text_lists_round_trip.

(** C17: [reads] is the meaning of escapes, [open_sep] finds a separator that is not escaped. *)
Theorem C17_text_decoding_is_exact {env : Env} m s :
  (open_sep false s = true -> value_decode KText m s = Err ErrInvalidText) /\
  (open_sep false s = false -> exists t, value_decode KText m s = Ok (VText t) /\ reads s t []).
Proof. exact (v_text_exact m s). Qed.
Print Assumptions C17_text_decoding_is_exact.

Example C17_applies : open_sep false (bs "a\,b,c") = true /\ open_sep false (bs "a\,b\\\;\n\x") = false.
Proof. split; reflexivity. Qed.

(** C18 *)
Theorem C18_integers_round_trip {env : Env} m i : - 2 ^ 31 <= i < 2 ^ 31 ->
  value_decode KInteger m (concat (value_encode (VInteger i))) = Ok (VInteger i).
Proof. exact (v_integer m i). Qed.
Print Assumptions C18_integers_round_trip.

Theorem C18_integers_are_in_range {env : Env} m s v : value_decode KInteger m s = Ok v ->
  exists i, v = VInteger i /\ - 2 ^ 31 <= i < 2 ^ 31.
Proof. exact (v_integer_range m s v). Qed.
Print Assumptions C18_integers_are_in_range.

Example C18_applies (env : Env) : value_decode KInteger [] (bs "-0012") = Ok (VInteger (-12)).
Proof. reflexivity. Qed.

(** C19 *)
Theorem C19_booleans_round_trip {env : Env} m b :
  value_decode KBoolean m (concat (value_encode (VBoolean b))) = Ok (VBoolean b).
Proof. exact (v_boolean m b). Qed.
Print Assumptions C19_booleans_round_trip.

Theorem C19_boolean_spellings {env : Env} m s b : value_decode KBoolean m s = Ok (VBoolean b) <->
  In s (if b then [bs "1"; bs "t"; bs "T"; bs "true"; bs "TRUE"; bs "True"]
             else [bs "0"; bs "f"; bs "F"; bs "false"; bs "FALSE"; bs "False"]).
Proof. exact (v_boolean_exact m s b). Qed.
Print Assumptions C19_boolean_spellings.

(** C20 *)
Theorem C20_durations_round_trip {env : Env} m d : dur_fits d -> dur_plain d ->
  value_decode KDuration m (concat (value_encode (VDuration d))) = Ok (VDuration d).
Proof. exact (v_duration m d). Qed.
Print Assumptions C20_durations_round_trip.

(** ... and every decoded duration is of that form. *)
Theorem C20_decoded_durations_are_plain {env : Env} m s v : value_decode KDuration m s = Ok v ->
  exists d, v = VDuration d /\ dur_fits d /\ dur_plain d.
Proof. exact (v_duration_decoded m s v). Qed.
Print Assumptions C20_decoded_durations_are_plain.

Example C20_applies : dur_fits (Duration true 0 1 2 0 30) /\ dur_plain (Duration true 0 1 2 0 30) /\
  dur_fits (Duration false 2 0 0 0 0) /\ dur_plain (Duration false 2 0 0 0 0).
Proof. unfold dur_fits, dur_plain; cbn; intuition (try discriminate; reflexivity). Qed.

(** C21 is false, for exactly the other durations: all but the weeks are lost. *)
Theorem C21_every_duration_refuted {env : Env} m d : dur_fits d -> ~ dur_plain d ->
  value_valid (VDuration d) = None /\
  value_decode KDuration m (concat (value_encode (VDuration d))) = Ok (VDuration (Duration (d_neg d) (d_weeks d) 0 0 0 0)) /\
  Duration (d_neg d) (d_weeks d) 0 0 0 0 <> d.
Proof. exact (v_duration_weeks m d). Qed.
Print Assumptions C21_every_duration_refuted.

Example C21_applies : dur_fits (Duration false 1 2 0 0 0) /\ ~ dur_plain (Duration false 1 2 0 0 0).
Proof. unfold dur_fits, dur_plain; cbn; intuition (try discriminate; reflexivity). Qed.

(** C22 *)
Theorem C22_rfc_durations_are_accepted {env : Env} m t neg w d h mi s : dur_value t neg w d h mi s ->
  w < 2 ^ 64 -> d < 2 ^ 64 -> h < 2 ^ 64 -> mi < 2 ^ 64 -> s < 2 ^ 64 ->
  value_decode KDuration m t = Ok (VDuration (Duration neg w d h mi s)).
Proof. exact (v_duration_accepts m t neg w d h mi s). Qed.
Print Assumptions C22_rfc_durations_are_accepted.

Example C22_applies : dur_value (bs "-P15DT5H0M20S") true 0 15 5 0 20.
Proof.
  assert (N : forall s, s <> [] -> Forall (fun c => 48 <= code c <= 57) s -> decimal s (decimal_value s)) by (unfold decimal; auto).
  apply (Minus (bs "15DT5H0M20S")), (DaysTime (bs "15") 15 (bs "T5H0M20S")); [apply N|apply TimeHour, (HourMinute (bs "5") 5 (bs "0M20S"))];
    [discriminate| |apply N; [discriminate|]|apply (MinuteSecond (bs "0") 0 (bs "20S")); [apply N; [discriminate|]|apply (Second (bs "20")), N; [discriminate|]]];
    repeat constructor; discriminate.
Qed.

(** C23 *)
Theorem C23_offsets_round_trip {env : Env} m u : - 360000 < u < 360000 ->
  value_decode KUTCOffset m (concat (value_encode (VUTCOffset u))) = Ok (VUTCOffset u).
Proof. exact (v_offset m u). Qed.
Print Assumptions C23_offsets_round_trip.

Theorem C23_decoded_offsets_are_in_range {env : Env} m s v : value_decode KUTCOffset m s = Ok v ->
  exists u, v = VUTCOffset u /\ - 360000 < u < 360000.
Proof. exact (v_offset_range m s v). Qed.
Print Assumptions C23_decoded_offsets_are_in_range.

Example C23_applies (env : Env) : value_decode KUTCOffset [] (bs "-013007") = Ok (VUTCOffset (-5407)).
Proof. reflexivity. Qed.

(** C24 is false, for exactly the other offsets. *)
Theorem C24_every_offset_refuted {env : Env} m u : ~ (- 360000 < u < 360000) ->
  value_valid (VUTCOffset u) = None /\
  value_decode KUTCOffset m (concat (value_encode (VUTCOffset u))) <> Ok (VUTCOffset u).
Proof. exact (v_offset_lost m u). Qed.
Print Assumptions C24_every_offset_refuted.

(** C25 *)
Theorem C25_binary_round_trips {env : Env} m b : pmap_get m (bs "ENCODING") = Some (bs "BASE64") ->
  value_decode KBinary m (concat (value_encode (VBinary b))) = Ok (VBinary b).
Proof. exact (v_binary m b). Qed.
Print Assumptions C25_binary_round_trips.

Theorem C25_binary_needs_its_encoding {env : Env} m s : pmap_get m (bs "ENCODING") <> Some (bs "BASE64") ->
  value_decode KBinary m s = Err ErrInvalidEncoding.
Proof. exact (v_binary_needs m s). Qed.
Print Assumptions C25_binary_needs_its_encoding.

Example C25_applies (env : Env) : value_decode KBinary [(bs "ENCODING", bs "BASE64")] (bs "TWE=") = Ok (VBinary (bs "Ma")).
Proof. reflexivity. Qed.
