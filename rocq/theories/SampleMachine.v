(** Two machines: concrete cases. *)
From Coq Require Import String Ascii ZArith Bool List.
From Verif Require Import Base GoStrings Tokeniser SpecContent GoTime Types Params ParamTable PropTable Props SecTable Sections Folder Codec SpecTree SpecFail ExactProofs Sample SampleTree SpecMachine MachineProofs.
Import ListNotations.

(** Local time is [h] hours ahead of UTC, always. *)
Definition ahead (h : Z) : Z -> Z * Z * Z := fun _ => (3600 * h, - 2 ^ 63, 2 ^ 63 - 1)%Z.
(** The same machine elsewhere: its local time is [h] hours ahead of UTC. *)
Definition at_hours (env : Env) (h : Z) : Env := machine env (ahead h) (@zone_lookup env) (@load_zone env).

(** An event that starts at noon of local time and goes on until a moment of local time; one whose rule has a
    count and an end in the year 1; one with moments of UTC only. *)
Definition event_lines (k : list cline) : list cline := [ln "BEGIN" "VCALENDAR"; ln "VERSION" "2.0"; ln "PRODID" "x"; ln "BEGIN" "VEVENT"; ln "UID" "1"; ln "DTSTAMP" "20240101T000000Z"] ++ k ++
  [ln "END" "VEVENT"; ln "END" "VCALENDAR"].
Definition noon_lines : list cline := event_lines [ln "DTSTART" "20240102T120000"; ln "RRULE" "FREQ=DAILY;UNTIL=20250101T000000"].
Definition rule_lines : list cline := event_lines [ln "RRULE" "FREQ=DAILY;UNTIL=00010101T000000;COUNT=3"].
Definition stamp_lines : list cline := event_lines [ln "DTSTART" "20240102T120000Z"; ln "RRULE" "FREQ=DAILY;UNTIL=20250101T000000Z"].

Definition moments {env : Env} (r : res sec) : option (list Z) := match r with Ok cal => Some (map t_sec (sec_times cal)) | _ => None end.
Definition in_utc {env : Env} (t : time) : bool := match t_loc t with LUTC => true | _ => false end.
Definition stamps_only {env : Env} (r : res sec) : bool := match r with Ok cal => forallb in_utc (sec_times cal) | _ => false end.
Section R.
Context {env : Env}.
Notation here := (at_hours env 0).
Notation there := (at_hours env 1).
Lemma noon_moments : @moments here (@decode_bytes here (lines_text noon_lines)) = Some [1704067200; 1704196800; 1735689600]%Z /\
  @moments there (@decode_bytes there (lines_text noon_lines)) = Some [1704067200; 1704193200; 1735686000]%Z.
Proof. split; vm_compute; reflexivity. Qed.
Lemma rule_read : (exists cal, @decode_bytes here (lines_text rule_lines) = Ok cal) /\ @decode_bytes there (lines_text rule_lines) = Err ErrInvalidRecur.
Proof. split; [eexists; vm_compute; reflexivity|vm_compute; reflexivity]. Qed.
Lemma noon_cut : cut_into (lines_text noon_lines) noon_lines AtEnd /\ Forall (fun l => ~ mixed_line l) noon_lines.
Proof.
  split; [constructor; repeat constructor|]. unfold noon_lines, event_lines. cbn [app]. repeat (apply Forall_cons; [intros [H M]|]); [..|apply Forall_nil].
  all: try (vm_compute in H; discriminate H). destruct M as (a & b & _ & M). vm_compute in M. repeat destruct M as [M|M]; try discriminate M. exact M.
Qed.
Lemma stamp_case : exists cal, @decode_bytes here (lines_text stamp_lines) = Ok cal /\ @all_utc here cal /\ length (@sec_times here cal) = 3 /\
  exists cal', @decode_bytes there (lines_text stamp_lines) = Ok cal'.
Proof.
  eexists. split; [vm_compute; reflexivity|]. split; [unfold all_utc; cbn; repeat constructor|]. split; [reflexivity|]. eexists. vm_compute. reflexivity.
Qed.
End R.

(** A text that one machine reads is not read by every other, and the moments are not the same. *)
Theorem not_read_everywhere : ~ (forall (env : Env) local s, (exists cal, decode_bytes s = Ok cal) -> exists cal', @decode_bytes (machine env local (@zone_lookup env) (@load_zone env)) s = Ok cal').
Proof.
  intros H. destruct (@rule_read env0) as [A B]. destruct (H (at_hours env0 0) (ahead 1) _ A) as [cal' C].
  change (@decode_bytes (at_hours env0 1) (lines_text rule_lines) = Ok cal') in C. rewrite B in C. discriminate C.
Qed.
Theorem not_the_same_moments : ~ (forall (env : Env) local s cal cal', decode_bytes s = Ok cal -> @decode_bytes (machine env local (@zone_lookup env) (@load_zone env)) s = Ok cal' ->
  map t_sec (sec_times cal) = map (@t_sec _) (@sec_times (machine env local (@zone_lookup env) (@load_zone env)) cal')).
Proof.
  intros H. destruct (@noon_moments env0) as [A B].
  destruct (@decode_bytes (at_hours env0 0) (lines_text noon_lines)) as [cal| | |] eqn:D; try discriminate A.
  destruct (@decode_bytes (at_hours env0 1) (lines_text noon_lines)) as [cal'| | |] eqn:D'; try discriminate B.
  specialize (H (at_hours env0 0) (ahead 1) _ cal cal' D D'). unfold moments in A, B.
  assert (E : Some [1704067200; 1704196800; 1735689600]%Z = Some [1704067200; 1704193200; 1735686000]%Z); [|discriminate E].
  rewrite <- A, <- B. f_equal. exact H.
Qed.
