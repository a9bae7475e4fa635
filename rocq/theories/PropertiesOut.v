(** Property C61: one content line for each property, and no line breaks from outside.
    [cal_typed] says that the fields hold values of their Go types; [cal_clean] that no address, name
    of a time zone or media type has a control character. [comp_lines named] are the lines of a component in
    order: a line with the property's name for each property, BEGIN and END around each component. *)
From Coq Require Import String Ascii List ZArith.
From Verif Require Import Base SpecLines Folder Unfolder GoTime Types PropTable Props SecTable Sections Codec SpecProps SpecOut OutProofs EncodeProofs Sample SampleCal SampleOut.
Import ListNotations.

(** C61, when addresses, names of zones and media types have no control characters. *)
Theorem C61_one_line_each_partial {env : Env} cal e out :
  sec_id cal = SCalendar -> cal_typed cal -> cal_clean cal -> Encode ok_writer [] cal = EncDone e out ->
  exists ls, comp_lines named cal ls /\ unfold (concat out) = text_of_lines (bs "BEGIN:VCALENDAR" :: ls ++ [bs "END:VCALENDAR"]) /\
    Forall (fun l => Z.of_nat (length l) <= 75)%Z (phys_lines (concat out)).
Proof. exact (encode_one_line_each cal e out). Qed.
Print Assumptions C61_one_line_each_partial.

(** What was decoded needs no such condition, only that parsing an address adds no control characters and
    that no time zone has a name with one. *)
Theorem C61_decoded_one_line_each {env : Env} fuel sizes chunks weof cal e out :
  urls_clean -> zones_clean -> Decode fuel sizes chunks weof = Ok cal -> Encode ok_writer [] cal = EncDone e out ->
  exists ls, comp_lines named cal ls /\ unfold (concat out) = text_of_lines (bs "BEGIN:VCALENDAR" :: ls ++ [bs "END:VCALENDAR"]) /\
    Forall (fun l => Z.of_nat (length l) <= 75)%Z (phys_lines (concat out)).
Proof. exact (decode_one_line_each fuel sizes chunks weof cal e out). Qed.
Print Assumptions C61_decoded_one_line_each.

Example C61_applies {env : Env} : sec_id cal_plain = SCalendar /\ cal_typed cal_plain /\ cal_clean cal_plain.
Proof. exact (conj eq_refl plain_typed). Qed.
Example C61_decoded_applies : @urls_clean env0 /\ @zones_clean env0.
Proof. exact env0_clean. Qed.

(** C61 is false of media types: one with a carriage return is written as it is, and then cannot be read. *)
Theorem C61_control_characters_refuted {env : Env} : exists out a b, cal_typed cal_media /\ Encode ok_writer [] cal_media = EncDone None out /\
  concat out = a ++ CR :: "c"%char :: b /\
  forall chunks sizes, concat chunks = concat out -> (forall i, 2 <= sizes i) -> exists n, forall fuel c, n <= fuel -> Decode fuel sizes chunks false <> Ok c.
Proof. exact media_written. Qed.
Print Assumptions C61_control_characters_refuted.

(** C61 is false of addresses: one with a line break adds a property to what is read. *)
Theorem C61_injection_refuted : cal_typed cal_trick /\ (forall p, ~ has_prop cal_trick PrSummary p) /\ @Encode env0 _ _ ok_writer [] cal_trick = EncDone None out_trick /\
  (forall chunks sizes, concat chunks = concat out_trick -> (forall i, 2 <= sizes i) -> exists n, forall fuel, n <= fuel -> @Decode env0 fuel sizes chunks false = Ok cal_tricked) /\
  has_prop cal_tricked PrSummary (PStruct [None; None] [Some (VText (bs "Other"))]).
Proof. exact trick_works. Qed.
Print Assumptions C61_injection_refuted.
