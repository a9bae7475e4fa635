(** C132, and C130 for calendars of any shape. *)
From Coq Require Import String Ascii ZArith Bool List.
From Verif Require Import Base SpecContent GoTime Types Params PropTable Props SecTable Sections Folder Codec ShapeProofs EncodeProofs SpecTree SpecEdits SpecLine SpecTime SpecProps Sample SampleOrder SampleAbroad AbroadProofs SpecLined LinedProofs ZonedProofs SampleLined.
Import ListNotations.

(** One value that cannot be read, in a property of any component at any depth, an alarm included, makes the whole calendar unreadable:
    Encode writes it and gives no error, and Decode, given the text in one read, returns no calendar, with or without the value. *)
Theorem C132_one_unread {env : Env} cal pid p : sec_id cal = SCalendar -> sec_valid cal = None -> cal_lined cal -> has_prop cal pid p -> pid <> PrLastModified ->
  (forall l q, prop_lined pid p l -> ~ line_means pid (cl_params l) (cl_value l) q) ->
  exists out, Encode ok_writer [] cal = EncDone None out /\
  forall w sizes, (forall i, 1 <= sizes i) -> length (concat out) <= sizes 0 -> exists n, forall fuel c, n <= fuel -> Decode fuel sizes [concat out] w <> Ok c.
Proof. exact (unread_refused cal pid p). Qed.
Print Assumptions C132_one_unread.

(** A date-time in a location whose name the reader does not know is such a value, in whichever property it is. *)
Theorem C130_unknown_anywhere_refuted {env : Env} cal pid p t z i : sec_id cal = SCalendar -> sec_valid cal = None -> cal_lined cal -> has_prop cal pid p -> pid <> PrLastModified ->
  zoned pid t p -> t_loc t = LZone z i -> forallb safe_char (zone_name z) = true -> in_years t -> load_location 0 (zone_name z) = None ->
  exists out, Encode ok_writer [] cal = EncDone None out /\
  forall w sizes, (forall i, 1 <= sizes i) -> length (concat out) <= sizes 0 -> exists n, forall fuel c, n <= fuel -> Decode fuel sizes [concat out] w <> Ok c.
Proof. exact (zoned_refused cal pid p t z i). Qed.
Print Assumptions C130_unknown_anywhere_refuted.

(** Both apply to a calendar with one event, which starts in a location called UTC+1. *)
Example C132_one_unread_applies : let t := abroad "UTC+1" in
  sec_id (cal_at t) = SCalendar /\ sec_valid (cal_at t) = None /\ cal_lined (cal_at t) /\ has_prop (cal_at t) PrDateTimeStart (ab_start t) /\
  zoned PrDateTimeStart t (ab_start t) /\ t_loc t = @LZone env0 (bs "UTC+1") 0 /\ forallb safe_char (@zone_name env0 (bs "UTC+1")) = true /\ in_years t /\ @load_location env0 0 (@zone_name env0 (bs "UTC+1")) = None /\
  (forall l q, prop_lined PrDateTimeStart (ab_start t) l -> ~ @line_means env0 PrDateTimeStart (cl_params l) (cl_value l) q).
Proof. exact unread_case. Qed.
