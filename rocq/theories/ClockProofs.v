(** Proofs about what clocks show. *)
From Coq Require Import String Ascii ZArith Bool List Lia ZifyBool.
From Verif Require Import Base Lib GoStrings GoTime Types SpecContent SpecTime SpecLang TimeProofs DateProofs LangProofs LangTimeProofs SpecClock.
Import ListNotations.
Local Open Scope Z_scope.

Section C.
Context {env : Env}.
Lemma resolve_near l u : bounded l -> exists z, u - 86400 < z < u + 86400 /\ resolve l u = u - offset_at l z.
Proof.
  intros B. pose proof (B u) as Bu. unfold resolve. destruct (lookup l u) as [[off st] en] eqn:L.
  assert (O : offset_at l u = off) by (unfold offset_at; rewrite L; reflexivity).
  destruct (off =? 0) eqn:Z0; [exists u; split; lia|]. cbv zeta. destruct ((u - off <? st) || (en <=? u - off)); [exists (u - off); split; [lia|reflexivity]|exists u; split; lia].
Qed.
Lemma resolve_shows l u x : coherent l -> bounded l -> calm l x -> clock_shows l x u -> clock_shows l (resolve l u) u.
Proof.
  intros CO BO (o & CA) S. unfold clock_shows in *. pose proof (BO x) as Bx. pose proof (BO u) as Bu. pose proof (CO u) as Cu. unfold resolve.
  destruct (lookup l u) as [[off st] en] eqn:L. assert (O : offset_at l u = off) by (unfold offset_at; rewrite L; reflexivity).
  destruct (off =? 0) eqn:Z0; [lia|]. cbv zeta. destruct ((u - off <? st) || (en <=? u - off)) eqn:OUT.
  - pose proof (CA u ltac:(lia)) as Au. pose proof (CA (u - off) ltac:(lia)) as Ap. set (p := offset_at l (u - off)) in *.
    destruct (Z.eq_dec p off) as [P|P]; [rewrite P; fold p; lia|].
    destruct Ap as [Ap|Ap].
    + replace (u - p) with x by lia. lia.
    + destruct Au as [Au|Au]; [|exfalso; apply P; lia]. assert (Q : u - off = x) by lia. exfalso. apply P. unfold p. rewrite Q. lia.
  - rewrite (Cu (u - off)) by lia. lia.
Qed.
Lemma reading_utc s u ns : text_reading s u ns -> datetime_decode 0 [] (s ++ bs "Z") = Ok (Time u ns LUTC).
Proof.
  intros (d & c & y & mo & da & h & mi & x & -> & D & R & C & ->). apply datetime_iff. exists d, c, y, mo, da, h, mi, x, ns, LUTC. split; [left; split; reflexivity|].
  repeat (split; [assumption|]). apply real_date_spec in R as [M _]. rewrite go_date_utc by exact M. reflexivity.
Qed.
Lemma read_reading id m s u ns t : datetime_decode id m s = Ok t -> text_reading s u ns -> t = Time (resolve (t_loc t) u) ns (t_loc t).
Proof.
  intros H T. pose proof (reading_utc _ _ _ T) as W. apply datetime_iff in H as (d & c & y & mo & da & h & mi & x & n & l & P & D & R & C & ->). rewrite go_date_resolve. cbn [t_loc].
  assert (N : s = d ++ bs "T" ++ c).
  { destruct (pmap_get m (bs "TZID")); [exact (proj1 P)|]. destruct P as [[P _] | [P _]]; [|exact P]. exfalso. destruct T as (d' & c' & ? & ? & ? & ? & ? & ? & T & _ & _ & CC & _).
    pose proof (clock_ends _ _ _ _ _ (d' ++ bs "T") CC) as X. rewrite <- app_assoc, <- T, P, <- !app_assoc in X. rewrite !app_assoc in X. change (bs "Z") with ["Z"%char] in X. rewrite ends_with_app in X. discriminate X. }
  assert (T2 : text_reading s (86400 * day_number y mo da + 3600 * h + 60 * mi + x) n) by (exists d, c, y, mo, da, h, mi, x; repeat (split; [assumption|]); reflexivity).
  apply reading_utc in T2. rewrite W in T2. apply Ok_inj in T2. pose proof (f_equal t_sec T2) as X. pose proof (f_equal t_nsec T2) as Y. cbn [t_sec t_nsec] in X, Y. subst n.
  apply real_date_spec in R as [M _]. rewrite X, <- (day_number_spec y mo da M). f_equal. f_equal. lia.
Qed.
Lemma dt_value m s t : value_decode KDateTime m s = Ok (VDateTime t) -> datetime_decode 0 m s = Ok t.
Proof. cbn [value_decode]. destruct (datetime_decode 0 m s); cbn [rmap bind]; intros H; [|discriminate H|discriminate H|discriminate H]. injection H as ->. reflexivity. Qed.

Theorem read_shows m s t u ns x : value_decode KDateTime m s = Ok (VDateTime t) -> text_reading s u ns -> coherent (t_loc t) -> bounded (t_loc t) ->
  calm (t_loc t) x -> clock_shows (t_loc t) x u -> clock_shows (t_loc t) (t_sec t) u /\ t_nsec t = ns.
Proof.
  intros H T C B K S. apply dt_value in H. pose proof (read_reading _ _ _ _ _ _ H T) as E. rewrite E. cbn [t_loc t_sec t_nsec]. split; [|reflexivity]. exact (resolve_shows _ _ x C B K S).
Qed.
Theorem read_near m s t u ns : value_decode KDateTime m s = Ok (VDateTime t) -> text_reading s u ns -> bounded (t_loc t) ->
  exists z, u - 86400 < z < u + 86400 /\ t_sec t = u - offset_at (t_loc t) z.
Proof.
  intros H T B. apply dt_value in H. pose proof (read_reading _ _ _ _ _ _ H T) as E. destruct (resolve_near _ u B) as (z & Z1 & Z2). exists z. split; [exact Z1|]. rewrite E. cbn [t_loc t_sec]. exact Z2.
Qed.
Lemma same_clock_text t t' : t_loc t = t_loc t' -> wall t = wall t' -> value_encode (VDateTime t) = value_encode (VDateTime t').
Proof. intros L W. cbn [value_encode]. unfold datetime_encode, format_datetime, format_date, format_clock. rewrite L, W. reflexivity. Qed.
Theorem written_shows m t : let l := t_loc t in written_in m l -> coherent l -> bounded l -> calm l (t_sec t) -> in_years t ->
  exists t', value_decode KDateTime m (concat (value_encode (VDateTime t))) = Ok (VDateTime t') /\ t_loc t' = l /\ t_nsec t' = 0 /\
    clock_shows l (t_sec t') (t_sec t + offset_at l (t_sec t)) /\ value_encode (VDateTime t') = value_encode (VDateTime t).
Proof.
  cbv zeta. intros WI C B K Y. exists (Time (resolve (t_loc t) (wall t)) 0 (t_loc t)). pose proof (resolve_shows _ (wall t) (t_sec t) C B K eq_refl) as S.
  pose proof (parse_datetime_format false t (t_loc t) Y) as P. rewrite app_nil_r in P.
  split; [|split; [reflexivity|split; [reflexivity|split; [exact S|apply same_clock_text; [reflexivity|exact S]]]]].
  cbn [value_decode value_encode]. unfold datetime_encode, datetime_decode. destruct (t_loc t) as [| |z i] eqn:L; cbn [written_in] in WI; [destruct WI| |].
  - rewrite WI. cbn [concat]. rewrite app_nil_r. unfold format_datetime at 1. rewrite app_assoc, clock_no_z. rewrite P. reflexivity.
  - destruct WI as (-> & M & LL). rewrite M, LL. cbn [concat]. rewrite app_nil_r, P. reflexivity.
Qed.
Theorem overlap_lost m l x y : x <> y -> x + offset_at l x = y + offset_at l y ->
  value_encode (VDateTime (Time x 0 l)) = value_encode (VDateTime (Time y 0 l)) /\
  ~ (value_decode KDateTime m (concat (value_encode (VDateTime (Time x 0 l)))) = Ok (VDateTime (Time x 0 l)) /\ value_decode KDateTime m (concat (value_encode (VDateTime (Time y 0 l)))) = Ok (VDateTime (Time y 0 l))).
Proof.
  intros N W. assert (E : value_encode (VDateTime (Time x 0 l)) = value_encode (VDateTime (Time y 0 l))) by (apply same_clock_text; [reflexivity|exact W]).
  split; [exact E|]. rewrite E. intros [H1 H2]. rewrite H2 in H1. apply N. assert (Q : VDateTime (Time y 0 l) = VDateTime (Time x 0 l)) by (apply Ok_inj; exact H1). congruence.
Qed.
End C.
