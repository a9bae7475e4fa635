(** Texts of moments for the theorems of PropertiesMoments.v. *)
From Coq Require Import String Ascii ZArith Bool List Lia.
From Verif Require Import Base Utf8 GoStrings GoTime Types SpecTime Sample SpecMoments.
Import ListNotations.
Local Open Scope Z_scope.

(** As [env0], with a local time that goes from UTC to one hour ahead at 01:00 UTC on 31 March 2024. *)
Definition spring : Z := 1711846800.
Definition env_spring : Env := {|
  url := bytes; url_parse := fun s => Some s; url_string := fun u => u;
  zone := bytes; zone_name := fun z => z; zone_lookup := fun _ _ => (3600, - 2 ^ 63, 2 ^ 63 - 1); load_zone := fun n => None;
  local_lookup := fun t => if t <? spring then (0, - 2 ^ 63, spring) else (3600, spring, 2 ^ 63 - 1);
  fin := bytes; fin_parse := fun s => None; fin_format := fun f => f; up_rune := fun r => r
|}.
Lemma spring_date h mi u b : days_from_civil 2024 3 31 * 86400 + h * 3600 + mi * 60 + 0 = u -> (u <? spring) = false ->
  (u - 3600 <? spring) = b -> (2 ^ 63 - 1 <=? u - 3600) = false -> @go_date env_spring 2024 3 31 h mi 0 0 LLocal = Time (u - if b then 0 else 3600) 0 LLocal.
Proof.
  intros U L B M. unfold go_date. cbv zeta. rewrite U. unfold offset_at. cbn [lookup local_lookup env_spring]. rewrite L. change (3600 =? 0) with false. cbv iota beta.
  rewrite M, B. destruct b; reflexivity.
Qed.
Lemma spring_read {env : Env} : value_decode KDateTime [] (bs "20240331T013000") = Ok (VDateTime (go_date 2024 3 31 1 30 0 0 LLocal)) /\
  value_decode KDateTime [] (bs "20240331T020000") = Ok (VDateTime (go_date 2024 3 31 2 0 0 0 LLocal)).
Proof. split; reflexivity. Qed.
Theorem spring_case : @coherent env_spring LLocal /\ @bounded env_spring LLocal /\
  @value_decode env_spring KDateTime [] (bs "20240331T013000") = Ok (VDateTime (Time (spring + 1800) 0 LLocal)) /\
  @value_decode env_spring KDateTime [] (bs "20240331T020000") = Ok (VDateTime (Time spring 0 LLocal)) /\ earlier (bs "20240331T013000") (bs "20240331T020000").
Proof.
  split; [|split; [|split; [|split; [|]]]].
  - intros x. unfold offset_at. cbn [lookup local_lookup env_spring]. destruct (Z.ltb_spec x spring); intros y Y; destruct (Z.ltb_spec y spring); cbn [fst]; lia.
  - intros x. unfold offset_at. cbn [lookup local_lookup env_spring]. destruct (x <? spring); cbn [fst]; lia.
  - rewrite (proj1 (@spring_read env_spring)), (spring_date 1 30 (spring + 1800) true); reflexivity.
  - rewrite (proj2 (@spring_read env_spring)), (spring_date 2 0 (spring + 3600) false); reflexivity.
  - do 10 apply EL_later. apply EL_here. reflexivity.
Qed.
Theorem moments_ordered : @value_decode env0 KDate [] (bs "20240229") = Ok (VDate (Time (86400 * 19782) 0 LUTC)) /\ @value_decode env0 KDate [] (bs "20240301") = Ok (VDate (Time (86400 * 19783) 0 LUTC)) /\
  earlier (bs "20240229") (bs "20240301") /\
  @value_decode env0 KDateTime [] (bs "20240229T235959Z") = Ok (VDateTime (Time (86400 * 19783 - 1) 0 LUTC)) /\ @value_decode env0 KDateTime [] (bs "20240301T000000Z") = Ok (VDateTime (Time (86400 * 19783) 0 LUTC)) /\
  earlier (bs "20240229T235959Z") (bs "20240301T000000Z").
Proof.
  split; [vm_compute; reflexivity|]. split; [vm_compute; reflexivity|]. split; [do 5 apply EL_later; apply EL_here; reflexivity|]. split; [vm_compute; reflexivity|]. split; [vm_compute; reflexivity|do 5 apply EL_later; apply EL_here; reflexivity].
Qed.
