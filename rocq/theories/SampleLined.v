(** A calendar of which one value cannot be read, for the theorems of PropertiesLined.v. *)
From Coq Require Import String Ascii ZArith Bool List Lia.
From Verif Require Import Base SpecContent GoTime Types Params PropTable Props SecTable Sections SpecTree SpecRfc SpecTime SpecEdits SpecRules SpecLine LineProofs SpecProps LineProofs SpecCal SpecClock Sample SampleOrder SampleAbroad AbroadProofs SpecLined LinedProofs ZonedProofs.
Import ListNotations.

Lemma at_lined {env : Env} t t' l : moment_good 0 t' -> prop_lined PrDateTimeStart (ab_start t) l -> cal_lined (cal_at t).
Proof.
  intros G PL. pose proof (good_lined _ (at_good t' G)) as H. unfold cal_at in *. inversion H as [id fs LN F]; subst. constructor; [reflexivity|].
  intros i fd vs N V. destruct i as [|[|[|i]]]; [exact (F 0 fd vs N V)|exact (F 1 fd vs N V)| |exact (F (S (S (S i))) fd vs N V)].
  specialize (F 2 fd _ N eq_refl). injection V as <-. injection N as <-. inversion F as [|a b FV _]; subst. inversion FV as [|sid fs FE|]; subst. inversion FE as [id fs LN' F']; subst.
  constructor; [|constructor]. constructor. constructor; [reflexivity|].
  intros i fd vs N V. destruct i as [|[|[|i]]]; [exact (F' 0 fd vs N V)|exact (F' 1 fd vs N V)| |exact (F' (S (S (S i))) fd vs N V)].
  injection V as <-. injection N as <-. constructor; [|constructor]. exact (VL_prop _ _ l PL).
Qed.
Theorem unread_case : let t := abroad "UTC+1" in
  sec_id (cal_at t) = SCalendar /\ sec_valid (cal_at t) = None /\ cal_lined (cal_at t) /\ has_prop (cal_at t) PrDateTimeStart (ab_start t) /\
  zoned PrDateTimeStart t (ab_start t) /\ t_loc t = @LZone env0 (bs "UTC+1") 0 /\ forallb safe_char (@zone_name env0 (bs "UTC+1")) = true /\ in_years t /\ @load_location env0 0 (@zone_name env0 (bs "UTC+1")) = None /\
  (forall l q, prop_lined PrDateTimeStart (ab_start t) l -> ~ @line_means env0 PrDateTimeStart (cl_params l) (cl_value l) q).
Proof.
  intros t. destruct abroad_case as (_ & (SF & N & Y & Z) & _ & (G & _)).
  assert (ZD : zoned PrDateTimeStart t (ab_start t)) by (eexists; eexists; split; [reflexivity|]; right; split; reflexivity).
  assert (PL := zoned_lined _ _ _ _ _ ZD eq_refl SF Y).
  split; [reflexivity|]. split; [reflexivity|]. split; [exact (at_lined _ _ _ G PL)|].
  split; [eexists; eexists; split; [eapply Part_sec; [right; right; left; reflexivity|left; reflexivity|apply Part_self]|]; split; [right; right; left; reflexivity|left; reflexivity]|].
  split; [exact ZD|]. split; [reflexivity|]. split; [exact SF|]. split; [exact Y|]. split; [exact N|].
  intros l q L M. rewrite (lined_unique _ _ _ _ L PL) in M. apply line_exact in M. exact (zoned_decode _ _ _ _ _ _ ZD N M).
Qed.
