(** C132 for texts that come in any number of reads. *)
From Coq Require Import String Ascii ZArith Bool List.
From Verif Require Import Base SpecContent Unfolder GoTime Types Params PropTable Props SecTable Sections Folder Codec SpecCuts ShapeProofs EncodeProofs SpecTree SpecEdits SpecLine SpecTime SpecProps Sample SampleOrder SampleAbroad AbroadProofs SpecLined SampleLined UnreadProofs.
Import ListNotations.

(** If no fold lies across the end of a read, no calendar is returned, however the text is read. *)
Theorem C132_any_reads {env : Env} cal pid p : sec_id cal = SCalendar -> sec_valid cal = None -> cal_lined cal -> has_prop cal pid p -> pid <> PrLastModified ->
  (forall l q, prop_lined pid p l -> ~ line_means pid (cl_params l) (cl_value l) q) ->
  exists out, Encode ok_writer [] cal = EncDone None out /\
  forall chunks sizes ds, concat chunks = concat out -> (forall i, 2 <= sizes i) -> reads sizes 0 [] (Rdr chunks false REOF) ds -> no_cut ds ->
  exists n, forall fuel c, n <= fuel -> Decode fuel sizes chunks false <> Ok c.
Proof. exact (unread_in_parts cal pid p). Qed.
Print Assumptions C132_any_reads.

Example C132_any_reads_apply : let t := abroad "UTC+1" in
  sec_id (cal_at t) = SCalendar /\ sec_valid (cal_at t) = None /\ cal_lined (cal_at t) /\ has_prop (cal_at t) PrDateTimeStart (ab_start t) /\
  zoned PrDateTimeStart t (ab_start t) /\ t_loc t = @LZone env0 (bs "UTC+1") 0 /\ forallb safe_char (@zone_name env0 (bs "UTC+1")) = true /\ in_years t /\ @load_location env0 0 (@zone_name env0 (bs "UTC+1")) = None /\
  (forall l q, prop_lined PrDateTimeStart (ab_start t) l -> ~ @line_means env0 PrDateTimeStart (cl_params l) (cl_value l) q).
Proof. exact unread_case. Qed.
