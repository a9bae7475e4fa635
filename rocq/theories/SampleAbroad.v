(** Moments for the theorems of PropertiesAbroad.v. *)
From Coq Require Import String Ascii ZArith Bool List Lia.
From Verif Require Import Base SpecContent GoTime Types SpecTime SpecClock Sample.
Import ListNotations.
Local Open Scope Z_scope.

(** 1 March 2024, 09:00, where clocks are one hour ahead: with no name for the zone, as from a time with a numeric offset; with names
    that someone made up; and in a zone that is known. *)
Definition abroad (n : string) : @time env0 := Time 1709280000 0 (@LZone env0 (bs n) 0).
Lemma abroad_year n : in_years (abroad n) /\ is_zero (abroad n) = false.
Proof. unfold in_years, wall, offset_at, abroad. cbn [t_sec t_loc lookup zone_lookup env0 fst]. split; [lia|reflexivity]. Qed.
Lemma fixed_zone l o : (forall x, @offset_at env0 l x = o) -> -86400 < o < 86400 -> @coherent env0 l /\ @bounded env0 l /\ forall x, @calm env0 l x.
Proof.
  intros O B. split; [|split].
  - intros x. pose proof (O x) as X. unfold offset_at in X. destruct (lookup l x) as [[a st] en]. cbn [fst] in X. subst a. intros y _. apply O.
  - intros x. rewrite O. exact B.
  - intros x. exists o. intros y _. rewrite !O. left. reflexivity.
Qed.
Theorem abroad_case :
  (@zone_name env0 (bs "") = [] /\ in_years (abroad "") /\ is_zero (abroad "") = false /\ @offset_at env0 (t_loc (abroad "")) (t_sec (abroad "")) = 3600) /\
  (forallb safe_char (@zone_name env0 (bs "UTC+1")) = true /\ @load_location env0 0 (@zone_name env0 (bs "UTC+1")) = None /\ in_years (abroad "UTC+1") /\ is_zero (abroad "UTC+1") = false) /\
  (@load_location env0 0 (@zone_name env0 (bs "UTC")) = Some LUTC /\ in_years (abroad "UTC") /\ is_zero (abroad "UTC") = false /\ @coherent env0 LUTC /\ @bounded env0 LUTC /\ @calm env0 LUTC 1709283600 /\
   @clock_shows env0 LUTC 1709283600 (1709280000 + @offset_at env0 (t_loc (abroad "UTC")) 1709280000) /\ @offset_at env0 LUTC 1709280000 <> @offset_at env0 (t_loc (abroad "UTC")) 1709280000) /\
  (@moment_good env0 0 (abroad "Europe/Town") /\ is_zero (abroad "Europe/Town") = false).
Proof.
  assert (U : forall x, @offset_at env0 LUTC x = 0) by (intros x; reflexivity). assert (T : forall z x, @offset_at env0 (LZone z 0) x = 3600) by (intros z x; reflexivity).
  destruct (fixed_zone LUTC 0 U ltac:(lia)) as (C & B & K).
  split; [split; [reflexivity|split; [apply abroad_year|split; [apply abroad_year|reflexivity]]]|].
  split; [split; [reflexivity|split; [reflexivity|apply abroad_year]]|].
  split.
  { split; [reflexivity|]. split; [apply abroad_year|]. split; [apply abroad_year|]. split; [exact C|]. split; [exact B|]. split; [apply K|]. split; [reflexivity|discriminate]. }
  split; [|apply abroad_year]. destruct (fixed_zone (@LZone env0 (bs "Europe/Town") 0) 3600 (T _) ltac:(lia)) as (C' & B' & K').
  split; [reflexivity|]. split; [apply abroad_year|]. cbn [t_loc abroad]. split; [reflexivity|]. split; [reflexivity|]. split; [reflexivity|]. split; [exact C'|]. split; [exact B'|]. split; [|apply K'].
  intros u H. rewrite !T in H. lia.
Qed.
