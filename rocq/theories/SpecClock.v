(** What clocks show. *)
From Coq Require Import String Ascii ZArith Bool List.
From Verif Require Import Base SpecContent GoTime Types SpecTime SpecLang.
Import ListNotations.
Local Open Scope Z_scope.

(** A date and a time of day without Z: the seconds from 1970-01-01T00:00:00 on a clock that is never put forward or back, and nanoseconds. *)
Definition text_reading (s : bytes) (u ns : Z) : Prop := exists d c y mo da h mi x, s = d ++ bs "T" ++ c /\ date_text d y mo da /\ real_date y mo da /\ clock_text c h mi x ns /\
  u = 86400 * day_number y mo da + 3600 * h + 60 * mi + x.
(** At the moment [x] the clocks of [l] show [u]. *)
Definition clock_shows {env : Env} (l : loc) (x u : Z) : Prop := x + offset_at l x = u.
(** The parameter TZID is as it is written for moments at [l], and the zone can be loaded by it. *)
Definition written_in {env : Env} (m : list (bytes * bytes)) (l : loc) : Prop :=
  match l with LUTC => False | LLocal => pmap_get m (bs "TZID") = None | LZone z i => i = 0%nat /\ pmap_get m (bs "TZID") = Some (zone_name z) /\ load_location 0 (zone_name z) = Some l end.
