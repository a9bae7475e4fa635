(** A location of a program's own for the theorems of PropertiesRetimed.v. *)
From Coq Require Import String Ascii ZArith Bool List Lia.
From Verif Require Import Base SpecContent GoTime Types PropTable Props SecTable Sections SpecTime SpecRules SpecEdits SpecCal CalProofs SpecClock SampleOrder SpecBuilt BuiltProofs SpecRetimed.
Import ListNotations.
Local Open Scope Z_scope.

(** The system knows "Europe/Town", one hour ahead of UTC; a program has a location of that name that is two hours ahead. *)
Definition env_own : Env := {|
  url := bytes; url_parse := fun s => Some s; url_string := fun u => u;
  zone := bool; zone_name := fun _ => bs "Europe/Town"; zone_lookup := fun z _ => (if z then 3600 else 7200, - 2 ^ 63, 2 ^ 63 - 1);
  load_zone := fun n => if beq n (bs "Europe/Town") then Some true else None;
  local_lookup := fun _ => (0, - 2 ^ 63, 2 ^ 63 - 1);
  fin := bytes; fin_parse := fun s => None; fin_format := fun f => f; up_rune := fun r => r
|}.
Definition own (t : @time env_own) : @time env_own :=
  match t_loc t with
  | LZone false _ => let t' := Time (t_sec t + 3600) (t_nsec t) (@LZone env_own true 0) in if is_zero t || is_zero t' then t else t'
  | _ => t
  end.
Lemma zone_offset (z : bool) i x : @offset_at env_own (@LZone env_own z i) x = if z then 3600 else 7200.
Proof. reflexivity. Qed.
Lemma own_clock t : same_clock t (own t).
Proof.
  destruct t as [s n [| |[|] i]]; unfold own; cbn [t_loc t_sec t_nsec]; try (split; [reflexivity|split; reflexivity]).
  cbv zeta. destruct (is_zero (Time s n (@LZone env_own false i))) eqn:Z1; cbn [orb]; [split; [reflexivity|split; reflexivity]|].
  destruct (is_zero (Time (s + 3600) n (@LZone env_own true 0))) eqn:Z2; [split; [reflexivity|split; reflexivity]|].
  split; [reflexivity|]. split; [|rewrite Z1, Z2; reflexivity]. unfold clock_shows. cbn [t_loc t_sec]. rewrite !zone_offset. lia.
Qed.
Definition own_start : @time env_own := Time 1709280000 0 (@LZone env_own false 7).
Definition read_start : @time env_own := Time 1709283600 0 (@LZone env_own true 0).
Lemma read_good : moment_good 0 read_start.
Proof.
  split; [reflexivity|]. split; [unfold in_years, wall, read_start; cbn [t_loc t_sec]; rewrite zone_offset; lia|]. cbn [t_loc read_start]. split; [reflexivity|]. split; [reflexivity|]. split; [reflexivity|].
  split; [|split; [|split]].
  - intros x. cbn [lookup zone_lookup env_own]. intros y _. apply zone_offset.
  - intros x. rewrite zone_offset. lia.
  - intros u H. rewrite !zone_offset in H. lia.
  - exists 3600. intros x _. rewrite !zone_offset. left. reflexivity.
Qed.
Theorem own_case : (forall t, same_clock t (own t)) /\ sec_id (cal_at own_start) = SCalendar /\ sec_valid (cal_at own_start) = None /\ rules_met (cal_at own_start) /\
  cal_good (said (retimed own (cal_at own_start))) /\ said (retimed own (cal_at own_start)) = cal_at read_start /\ t_sec read_start = t_sec own_start + 3600.
Proof.
  assert (Q : retimed own (cal_at own_start) = cal_at read_start) by reflexivity.
  pose proof (at_good read_start read_good) as G. rewrite Q, (good_said _ G).
  split; [exact own_clock|]. split; [reflexivity|]. split; [vm_compute; reflexivity|]. split; [apply at_rules|]. split; [exact G|]. split; reflexivity.
Qed.
