(** The calls that Decode makes: how many of them have not returned at the same time. Each of the functions below goes along
    with the one of Sections.v or Codec.v that it is named after and counts that call, and those that it waits for. *)
From Coq Require Import String Ascii ZArith Bool List.
From Verif Require Import Base GoStrings Tokeniser GoTime Types Params ParamTable PropTable Props SecTable Sections Codec.
Import ListNotations.

Section Stack.
Context {env : Env}.

(** sections.go:4176-4198 [decodeDummy]: calls itself for each component inside *)
Fixpoint dummy_calls (fuel : nat) (n : bytes) (s : src) : nat :=
  match fuel with
  | O => 1
  | S f =>
    match get_ph s with
    | Ok (PhraseLine data, s) =>
      match parts data with
      | Ok (name, _, value) =>
        if beq (upper name) (bs "BEGIN") then
          Nat.max (1 + dummy_calls f value s) (match dec_dummy f value s with Ok s => dummy_calls f n s | _ => 1 end)
        else if beq (upper name) (bs "END") then 1
        else dummy_calls f n s
      | _ => 1
      end
    | _ => 1
    end
  end.

(** sections.go, the [decode] method of every section (Event: 229-558): calls that of each component inside, or [decodeDummy];
    sections_alarm.go:38-80 stands between an alarm and its type. The calls for properties return before anything else
    is read, and call nothing of this kind. *)
Fixpoint sec_calls (fuel : nat) (id : secid) (fs : list (list fval)) (s : src) : nat :=
  match fuel with
  | O => 1
  | S f =>
    match get_ph s with
    | Ok (PhraseLine data, s) =>
      match parts data with
      | Ok (name, params, value) =>
        let name := upper name in
        if beq name (bs "BEGIN") then
          let n := upper value in
          match find_field (is_sec_field n) (fields_of id) with
          | Some (i, fd) =>
            if full fd i fs then 1
            else
              match fd_type fd with
              | FTSec sid =>
                Nat.max (1 + sec_calls f sid (no_fields sid) s)
                  (match dec_sec f sid (no_fields sid) s with Ok (x, s) => sec_calls f id (add_field i (FVSec x) fs) s | _ => 1 end)
              | FTAlarm =>
                match gather f None [] s with
                | Ok (pt, Some sid, s) =>
                  Nat.max (2 + sec_calls f sid (no_fields sid) (SrcList pt))
                    (match dec_sec f sid (no_fields sid) (SrcList pt) with Ok (x, _) => sec_calls f id (add_field i (FVAlarm (Some x)) fs) s | _ => 1 end)
                | _ => 2
                end
              | FTProp _ => 1
              end
          | None =>
            Nat.max (1 + dummy_calls f n s) (match dec_dummy f n s with Ok s => sec_calls f id fs s | _ => 1 end)
          end
        else
          match find_field (is_prop_field name) (fields_of id) with
          | Some (i, fd) =>
            if full fd i fs then 1
            else
              match fd_type fd with
              | FTProp pid => match prop_decode pid params value with Ok p => sec_calls f id (add_field i (FVProp pid p) fs) s | _ => 1 end
              | _ => 1
              end
          | None => if beq name (bs "END") then 1 else sec_calls f id fs s
          end
      | _ => 1
      end
    | _ => 1
    end
  end.

(** decoder.go:16-38 *)
Definition src_calls (fuel : nat) (s : src) : nat :=
  match get_ph s with
  | Ok (PhraseLine data, s) =>
    match parts data with
    | Ok (name, _, value) =>
      if beq (upper name) (bs "BEGIN") && beq (upper value) (bs "VCALENDAR") then 1 + sec_calls fuel SCalendar (no_fields SCalendar) s else 1
    | _ => 1
    end
  | _ => 1
  end.
Definition decode_calls (s : bytes) : nat := src_calls (S (S (length s))) (SrcTok (new_tokeniser s)).
End Stack.
