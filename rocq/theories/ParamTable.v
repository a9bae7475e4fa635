(** Table written by tools/check_tables.py, which first checks that every method of every type in
    /repo/params.go is the instance of the template modelled in Params.v. *)
From Coq Require Import String List.
From Verif Require Import Base Types Params.
Import ListNotations.

Inductive paramid :=
| PmAlternativeRepresentation
| PmCommonName
| PmCalendarUserType
| PmDelegator
| PmDelagatee
| PmDirectoryEntry
| PmEncoding
| PmFormatType
| PmFreeBusyType
| PmLanguage
| PmMember
| PmParticipationStatus
| PmRange
| PmRelated
| PmRelationshipType
| PmParticipationRole
| PmRSVP
| PmSentBy
| PmTimezoneID
| PmValue
| PmURI
| PmID
| PmAgentID.

Definition all_params : list paramid :=
  [PmAlternativeRepresentation; PmCommonName; PmCalendarUserType; PmDelegator; PmDelagatee; PmDirectoryEntry; PmEncoding; PmFormatType; PmFreeBusyType; PmLanguage; PmMember; PmParticipationStatus; PmRange; PmRelated; PmRelationshipType; PmParticipationRole; PmRSVP; PmSentBy; PmTimezoneID; PmValue; PmURI; PmID; PmAgentID].

Definition param_spec (p : paramid) : bytes * pkind :=
  match p with
  (* params.go:15-58 *)
  | PmAlternativeRepresentation => (bs "ALTREP", PKUri)
  (* params.go:60-100 *)
  | PmCommonName => (bs "CN", PKText false)
  (* params.go:102-160 *)
  | PmCalendarUserType => (bs "CUTYPE", PKEnum true [bs "INDIVIDUAL"; bs "GROUP"; bs "RESOURCE"; bs "ROOM"])
  (* params.go:162-209 *)
  | PmDelegator => (bs "DELEGATED-FROM", PKAddrs)
  (* params.go:211-258 *)
  | PmDelagatee => (bs "DELEGATED-TO", PKAddrs)
  (* params.go:260-300 *)
  | PmDirectoryEntry => (bs "DIR", PKText true)
  (* params.go:302-353 *)
  | PmEncoding => (bs "ENCODING", PKEnum false [bs "8BIT"; bs "BASE64"])
  (* params.go:355-401 *)
  | PmFormatType => (bs "FMTTYPE", PKRegex)
  (* params.go:403-461 *)
  | PmFreeBusyType => (bs "FBTYPE", PKEnum true [bs "FREE"; bs "BUSY"; bs "BUSY-UNAVAILABLE"; bs "BUSY-TENTATIVE"])
  (* params.go:463-503 *)
  | PmLanguage => (bs "LANGUAGE", PKText false)
  (* params.go:505-551 *)
  | PmMember => (bs "MEMBER", PKTexts)
  (* params.go:553-626 *)
  | PmParticipationStatus => (bs "PARTSTAT", PKEnum true [bs "NEEDS-ACTION"; bs "ACCEPTED"; bs "DECLINED"; bs "TENTATIVE"; bs "DELEGATED"; bs "COMPLETED"; bs "IN-PROCESS"])
  (* params.go:628-651 *)
  | PmRange => (bs "RANGE", PKUnit (bs "THISANDFUTURE"))
  (* params.go:653-704 *)
  | PmRelated => (bs "RELATED", PKEnum false [bs "START"; bs "END"])
  (* params.go:706-759 *)
  | PmRelationshipType => (bs "RELTYPE", PKEnum true [bs "PARENT"; bs "CHILD"; bs "SIBLING"])
  (* params.go:761-819 *)
  | PmParticipationRole => (bs "ROLE", PKEnum true [bs "REQ-PARTICIPANT"; bs "CHAIR"; bs "OPT-PARTICIPANT"; bs "NON-PARTICIPANT"])
  (* params.go:821-859 *)
  | PmRSVP => (bs "RSVP", PKBool)
  (* params.go:861-901 *)
  | PmSentBy => (bs "SENT-BY", PKText true)
  (* params.go:903-943 *)
  | PmTimezoneID => (bs "TZID", PKText false)
  (* params.go:945-1053 *)
  | PmValue => (bs "VALUE", PKEnum true [bs "BINARY"; bs "BOOLEAN"; bs "CAL-ADDRESS"; bs "DATE"; bs "DATE-TIME"; bs "DURATION"; bs "FLOAT"; bs "INTEGER"; bs "PERIOD"; bs "RECUR"; bs "TEXT"; bs "TIME"; bs "URI"; bs "UTC-OFFSET"])
  (* params.go:1055-1098 *)
  | PmURI => (bs "URI", PKUri)
  (* params.go:1100-1140 *)
  | PmID => (bs "ID", PKText true)
  (* params.go:1142-1182 *)
  | PmAgentID => (bs "AGENT-ID", PKText true)
  end.
