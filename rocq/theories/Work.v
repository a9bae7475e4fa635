(** The work that Decode does, line by line. Each of the functions below goes along with the one of Sections.v or Codec.v that it is
    named after, and adds up [c] for each line that is handed to it, by the tokeniser or out of the lines that are kept for
    an alarm, and [p] for each line that is read as a property. *)
From Coq Require Import String Ascii ZArith Bool List.
From Verif Require Import Base GoStrings Tokeniser GoTime Types Params ParamTable PropTable Props SecTable Sections Codec.
Import ListNotations.

Section Work.
Context {env : Env} (c p : list token -> nat).

(** sections.go:4176-4198 [decodeDummy] *)
Fixpoint dummy_work (fuel : nat) (n : bytes) (s : src) : nat :=
  match fuel with
  | O => 0
  | S f =>
    match get_ph s with
    | Ok (PhraseLine data, s) =>
      c data +
      match parts data with
      | Ok (name, _, value) =>
        if beq (upper name) (bs "BEGIN") then
          dummy_work f value s + match dec_dummy f value s with Ok s => dummy_work f n s | _ => 0 end
        else if beq (upper name) (bs "END") then 0
        else dummy_work f n s
      | _ => 0
      end
    | _ => 0
    end
  end.

(** sections_alarm.go:41-73 *)
Fixpoint gather_work (fuel : nat) (ty : option secid) (s : src) : nat :=
  match fuel with
  | O => 0
  | S f =>
    match get_ph s with
    | Ok (PhraseLine data, s) =>
      c data +
      match parts data with
      | Ok (name, _, value) =>
        if beq name (bs "BEGIN") then 0
        else if beq name (bs "ACTION") then match ty with Some _ => 0 | None => gather_work f (alarm_of_word value) s end
        else if beq name (bs "END") then 0
        else gather_work f ty s
      | _ => 0
      end
    | _ => 0
    end
  end.

(** sections.go, the [decode] method of every section (Event: 229-558), and sections_alarm.go:38-80 *)
Fixpoint sec_work (fuel : nat) (id : secid) (fs : list (list fval)) (s : src) : nat :=
  match fuel with
  | O => 0
  | S f =>
    match get_ph s with
    | Ok (PhraseLine data, s) =>
      c data +
      match parts data with
      | Ok (name, params, value) =>
        let name := upper name in
        if beq name (bs "BEGIN") then
          let n := upper value in
          match find_field (is_sec_field n) (fields_of id) with
          | Some (i, fd) =>
            if full fd i fs then 0
            else
              match fd_type fd with
              | FTSec sid =>
                sec_work f sid (no_fields sid) s +
                match dec_sec f sid (no_fields sid) s with Ok (x, s) => sec_work f id (add_field i (FVSec x) fs) s | _ => 0 end
              | FTAlarm =>
                gather_work f None s +
                match gather f None [] s with
                | Ok (pt, Some sid, s) =>
                  sec_work f sid (no_fields sid) (SrcList pt) +
                  match dec_sec f sid (no_fields sid) (SrcList pt) with Ok (x, _) => sec_work f id (add_field i (FVAlarm (Some x)) fs) s | _ => 0 end
                | _ => 0
                end
              | FTProp _ => 0
              end
          | None => dummy_work f n s + match dec_dummy f n s with Ok s => sec_work f id fs s | _ => 0 end
          end
        else
          match find_field (is_prop_field name) (fields_of id) with
          | Some (i, fd) =>
            if full fd i fs then 0
            else
              match fd_type fd with
              | FTProp pid => p data + match prop_decode pid params value with Ok v => sec_work f id (add_field i (FVProp pid v) fs) s | _ => 0 end
              | _ => 0
              end
          | None => if beq name (bs "END") then 0 else sec_work f id fs s
          end
      | _ => 0
      end
    | _ => 0
    end
  end.

(** decoder.go:16-38 *)
Definition src_work (fuel : nat) (s : src) : nat :=
  match get_ph s with
  | Ok (PhraseLine data, s) =>
    c data +
    match parts data with
    | Ok (name, _, value) =>
      if beq (upper name) (bs "BEGIN") && beq (upper value) (bs "VCALENDAR") then sec_work fuel SCalendar (no_fields SCalendar) s else 0
    | _ => 0
    end
  | _ => 0
  end.
Definition decode_work (s : bytes) : nat := src_work (S (S (length s))) (SrcTok (new_tokeniser s)).
End Work.
