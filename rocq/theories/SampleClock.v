(** A zone for the theorems of PropertiesClock.v. *)
From Coq Require Import String Ascii ZArith Bool List Lia.
From Verif Require Import Base GoTime Types SpecContent SpecDuration SpecTime SpecLang SpecClock ClockProofs DurationProofs.
Import ListNotations.
Local Open Scope Z_scope.

(** Local time goes from one hour ahead back to UTC at 01:00 UTC on 27 October 2024. *)
Definition autumn : Z := 1729990800.
Definition env_autumn : Env := {|
  url := bytes; url_parse := fun s => Some s; url_string := fun u => u;
  zone := bytes; zone_name := fun z => z; zone_lookup := fun _ _ => (3600, - 2 ^ 63, 2 ^ 63 - 1); load_zone := fun n => None;
  local_lookup := fun t => if t <? autumn then (3600, - 2 ^ 63, autumn) else (0, autumn, 2 ^ 63 - 1);
  fin := bytes; fin_parse := fun s => None; fin_format := fun f => f; up_rune := fun r => r
|}.
Lemma autumn_offset x : @offset_at env_autumn LLocal x = if x <? autumn then 3600 else 0.
Proof. unfold offset_at. cbn [lookup local_lookup env_autumn]. destruct (x <? autumn); reflexivity. Qed.
Lemma autumn_zone : @coherent env_autumn LLocal /\ @bounded env_autumn LLocal /\ forall x, @calm env_autumn LLocal x.
Proof.
  split; [|split].
  - intros x. cbn [lookup local_lookup env_autumn]. destruct (x <? autumn); intros y Y; rewrite autumn_offset; destruct (Z.ltb_spec y autumn); lia.
  - intros x. rewrite autumn_offset. destruct (x <? autumn); lia.
  - intros x. exists (if x <? autumn then 0 else 3600). intros y _. rewrite !autumn_offset. destruct (x <? autumn), (y <? autumn); tauto.
Qed.
Lemma autumn_text : text_reading (bs "20241027T013000") (autumn + 1800) 0.
Proof.
  exists (bs "20241027"), (bs "013000"), 2024, 10, 27, 1, 30, 0. split; [reflexivity|].
  assert (DEC : forall ds n, forallb (fun c => (48 <=? code c) && (code c <=? 57)) ds = true -> ds <> [] -> decimal_value ds = n -> decimal ds n).
  { intros ds n A N V. split; [exact N|]. split; [|symmetry; exact V]. apply Forall_forall. intros c I. rewrite forallb_forall in A. specialize (A c I). apply andb_prop in A. lia. }
  split; [exists (bs "2024"), (bs "10"), (bs "27"); split; [reflexivity|]; do 3 (split; [reflexivity|]); split; [|split]; (apply DEC; [reflexivity|discriminate|reflexivity])|].
  split; [exists 31; split; [left; split; [cbn; tauto|reflexivity]|lia]|]. split; [|vm_compute; reflexivity].
  exists (bs "013000"), []. split; [reflexivity|]. split; [|split; [lia|split; [lia|split; [lia|]]]].
  - exists (bs "01"), (bs "30"), (bs "00"). split; [reflexivity|]. split; [|split]; (split; [apply DEC; [reflexivity|discriminate|reflexivity]|reflexivity]).
  - left. split; reflexivity.
Qed.
Lemma autumn_read {env : Env} : value_decode KDateTime [] (bs "20241027T013000") = Ok (VDateTime (go_date 2024 10 27 1 30 0 0 LLocal)).
Proof. reflexivity. Qed.
(** The clocks show 01:30 twice; the text names the second time. *)
Theorem autumn_case : @coherent env_autumn LLocal /\ @bounded env_autumn LLocal /\ (forall x, @calm env_autumn LLocal x) /\ text_reading (bs "20241027T013000") (autumn + 1800) 0 /\
  @clock_shows env_autumn LLocal (autumn - 1800) (autumn + 1800) /\ @clock_shows env_autumn LLocal (autumn + 1800) (autumn + 1800) /\
  @value_decode env_autumn KDateTime [] (bs "20241027T013000") = Ok (VDateTime (Time (autumn + 1800) 0 LLocal)).
Proof.
  destruct autumn_zone as (C & B & K). split; [exact C|]. split; [exact B|]. split; [exact K|]. split; [exact autumn_text|]. unfold clock_shows. rewrite !autumn_offset.
  split; [reflexivity|]. split; [reflexivity|]. rewrite (@autumn_read env_autumn). apply f_equal, f_equal. unfold go_date. cbv zeta.
  change (GoTime.days_from_civil 2024 10 27 * 86400 + 1 * 3600 + 30 * 60 + 0) with (autumn + 1800). cbn [lookup local_lookup env_autumn].
  change (autumn + 1800 <? autumn) with false. cbv iota beta. change (0 =? 0) with true. reflexivity.
Qed.
