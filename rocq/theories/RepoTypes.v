(** The tests of types_test.go, run on the model. These are tests and not proofs: they show that the model
    does what the authors of the code expect of it. Written by tools/gen_repo_tests.py. *)
From Coq Require Import String Ascii ZArith Bool List.
From Verif Require Import Base Tokeniser GoTime Types RepoEnv.
Import ListNotations.
Local Open Scope Z_scope.

Example binary_read : Forall (read_written KBinary) [
  ([(bs "ENCODING", bs "BASE64")], (bs "MTIzNDU="), VBinary (bs "12345"), (bs "MTIzNDU="))].
Proof. repeat (apply Forall_cons; [hnf; split; [|split]; run|]). apply Forall_nil. Qed.
Example binary_refused : Forall (refused KBinary) [
  ([], [], ErrInvalidEncoding)].
Proof. repeat (apply Forall_cons; [hnf; run|]). apply Forall_nil. Qed.
Example boolean_read : Forall (read_written KBoolean) [
  ([], (bs "False"), VBoolean false, (bs "FALSE"));
  ([], (bs "true"), VBoolean true, (bs "TRUE"))].
Proof. repeat (apply Forall_cons; [hnf; split; [|split]; run|]). apply Forall_nil. Qed.
Example boolean_refused : Forall (refused KBoolean) [
  ([], (bs "HotDog"), ErrInvalidBoolean)].
Proof. repeat (apply Forall_cons; [hnf; run|]). apply Forall_nil. Qed.
Example date_read : Forall (read_written KDate) [
  ([], (bs "20011225"), VDate (go_date 2001 12 25 0 0 0 0 LUTC), (bs "20011225"));
  ([], (bs "20081111"), VDate (go_date 2008 11 11 0 0 0 0 LUTC), (bs "20081111"))].
Proof. repeat (apply Forall_cons; [hnf; split; [|split]; run|]). apply Forall_nil. Qed.
Example datetime_read : Forall (read_written KDateTime) [
  ([], (bs "20011225T131415"), VDateTime (go_date 2001 12 25 13 14 15 0 LLocal), (bs "20011225T131415"));
  ([], (bs "20011225T131415Z"), VDateTime (go_date 2001 12 25 13 14 15 0 LUTC), (bs "20011225T131415Z"));
  ([(bs "TZID", bs "America/New_York")], (bs "20011225T131415"), VDateTime (go_date 2001 12 25 13 14 15 0 new_york), (bs "20011225T131415"))].
Proof. repeat (apply Forall_cons; [hnf; split; [|split]; run|]). apply Forall_nil. Qed.
Example duration_read : Forall (read_written KDuration) [
  ([], (bs "P1W"), VDuration (Duration false 1 0 0 0 0), (bs "P1W"));
  ([], (bs "P1D"), VDuration (Duration false 0 1 0 0 0), (bs "P1D"));
  ([], (bs "PT1H"), VDuration (Duration false 0 0 1 0 0), (bs "PT1H"));
  ([], (bs "PT1M"), VDuration (Duration false 0 0 0 1 0), (bs "PT1M"));
  ([], (bs "PT1S"), VDuration (Duration false 0 0 0 0 1), (bs "PT1S"));
  ([], (bs "P25W"), VDuration (Duration false 25 0 0 0 0), (bs "P25W"));
  ([], (bs "P1DT2H3M4S"), VDuration (Duration false 0 1 2 3 4), (bs "P1DT2H3M4S"));
  ([], (bs "PT0S"), VDuration (Duration false 0 0 0 0 0), (bs "PT0S"));
  ([], (bs "+P1DT2H3M4S"), VDuration (Duration false 0 1 2 3 4), (bs "P1DT2H3M4S"));
  ([], (bs "-P1DT2H3M4S"), VDuration (Duration true 0 1 2 3 4), (bs "-P1DT2H3M4S"))].
Proof. repeat (apply Forall_cons; [hnf; split; [|split]; run|]). apply Forall_nil. Qed.
Example duration_refused : Forall (refused KDuration) [
  ([], (bs "P25W1D"), ErrInvalidDuration);
  ([], (bs "P25G"), ErrInvalidDuration)].
Proof. repeat (apply Forall_cons; [hnf; run|]). apply Forall_nil. Qed.
Example period_read : Forall (read_written KPeriod) [
  ([], (bs "19970101T180000Z/19970102T070000Z"), VPeriod (Period (go_date 1997 1 1 18 0 0 0 LUTC) (go_date 1997 1 2 7 0 0 0 LUTC) zero_duration), (bs "19970101T180000Z/19970102T070000Z"));
  ([], (bs "19970101T180000Z/PT5H30M"), VPeriod (Period (go_date 1997 1 1 18 0 0 0 LUTC) zero_time (Duration false 0 0 5 30 0)), (bs "19970101T180000Z/PT5H30M"))].
Proof. repeat (apply Forall_cons; [hnf; split; [|split]; run|]). apply Forall_nil. Qed.
Example recur_read : Forall (read_written KRecur) [
  ([], (bs "FREQ=SECONDLY"), VRecur (Recur 0 0 false zero_time 0 0 [] [] [] [] [] [] [] [] []), (bs "FREQ=SECONDLY"));
  ([], (bs "FREQ=MINUTELY"), VRecur (Recur 1 0 false zero_time 0 0 [] [] [] [] [] [] [] [] []), (bs "FREQ=MINUTELY"));
  ([], (bs "FREQ=HOURLY;COUNT=10"), VRecur (Recur 2 0 false zero_time 10 0 [] [] [] [] [] [] [] [] []), (bs "FREQ=HOURLY;COUNT=10"));
  ([], (bs "FREQ=DAILY;UNTIL=20011125"), VRecur (Recur 3 0 false (go_date 2001 11 25 0 0 0 0 LUTC) 0 0 [] [] [] [] [] [] [] [] []), (bs "FREQ=DAILY;UNTIL=20011125"));
  ([], (bs "FREQ=WEEKLY;UNTIL=20011125T131415"), VRecur (Recur 4 0 true (go_date 2001 11 25 13 14 15 0 LLocal) 0 0 [] [] [] [] [] [] [] [] []), (bs "FREQ=WEEKLY;UNTIL=20011125T131415"));
  ([], (bs "UNTIL=20011125;FREQ=MONTHLY"), VRecur (Recur 5 0 false (go_date 2001 11 25 0 0 0 0 LUTC) 0 0 [] [] [] [] [] [] [] [] []), (bs "FREQ=MONTHLY;UNTIL=20011125"));
  ([], (bs "FREQ=YEARLY;UNTIL=20011125T131415Z"), VRecur (Recur 6 0 true (go_date 2001 11 25 13 14 15 0 LUTC) 0 0 [] [] [] [] [] [] [] [] []), (bs "FREQ=YEARLY;UNTIL=20011125T131415Z"));
  ([], (bs "FREQ=SECONDLY;INTERVAL=10"), VRecur (Recur 0 0 false zero_time 0 10 [] [] [] [] [] [] [] [] []), (bs "FREQ=SECONDLY;INTERVAL=10"));
  ([], (bs "FREQ=SECONDLY;BYSECOND=1,2,60"), VRecur (Recur 0 0 false zero_time 0 0 [1; 2; 60] [] [] [] [] [] [] [] []), (bs "FREQ=SECONDLY;BYSECOND=1,2,60"));
  ([], (bs "FREQ=SECONDLY;BYMINUTE=1,2,59"), VRecur (Recur 0 0 false zero_time 0 0 [] [1; 2; 59] [] [] [] [] [] [] []), (bs "FREQ=SECONDLY;BYMINUTE=1,2,59"));
  ([], (bs "FREQ=SECONDLY;BYHOUR=1,2,23"), VRecur (Recur 0 0 false zero_time 0 0 [] [] [1; 2; 23] [] [] [] [] [] []), (bs "FREQ=SECONDLY;BYHOUR=1,2,23"));
  ([], (bs "FREQ=SECONDLY;BYDAY=WE,+2FR,53MO,-53SU,-9TU"), VRecur (Recur 0 0 false zero_time 0 0 [] [] [] [DayRecur 4 0; DayRecur 6 2; DayRecur 2 53; DayRecur 1 (-53); DayRecur 3 (-9)] [] [] [] [] []), (bs "FREQ=SECONDLY;BYDAY=WE,2FR,53MO,-53SU,-9TU"));
  ([], (bs "FREQ=SECONDLY;BYMONTHDAY=1,31,-1,-31"), VRecur (Recur 0 0 false zero_time 0 0 [] [] [] [] [1; 31; (-1); (-31)] [] [] [] []), (bs "FREQ=SECONDLY;BYMONTHDAY=1,31,-1,-31"));
  ([], (bs "FREQ=SECONDLY;BYYEARDAY=1,366,-1,-366"), VRecur (Recur 0 0 false zero_time 0 0 [] [] [] [] [] [1; 366; (-1); (-366)] [] [] []), (bs "FREQ=SECONDLY;BYYEARDAY=1,366,-1,-366"));
  ([], (bs "FREQ=SECONDLY;BYWEEKNO=1,52,-1,-52"), VRecur (Recur 0 0 false zero_time 0 0 [] [] [] [] [] [] [1; 52; (-1); (-52)] [] []), (bs "FREQ=SECONDLY;BYWEEKNO=1,52,-1,-52"));
  ([], (bs "FREQ=SECONDLY;BYMONTH=1,2,12"), VRecur (Recur 0 0 false zero_time 0 0 [] [] [] [] [] [] [] [1; 2; 12] []), (bs "FREQ=SECONDLY;BYMONTH=1,2,12"));
  ([], (bs "FREQ=SECONDLY;BYSETPOS=1,366,-1,-366"), VRecur (Recur 0 0 false zero_time 0 0 [] [] [] [] [] [] [] [] [1; 366; (-1); (-366)]), (bs "FREQ=SECONDLY;BYSETPOS=1,366,-1,-366"));
  ([], (bs "FREQ=SECONDLY;WKST=SU"), VRecur (Recur 0 1 false zero_time 0 0 [] [] [] [] [] [] [] [] []), (bs "FREQ=SECONDLY;WKST=SU"));
  ([], (bs "FREQ=SECONDLY;WKST=MO"), VRecur (Recur 0 2 false zero_time 0 0 [] [] [] [] [] [] [] [] []), (bs "FREQ=SECONDLY;WKST=MO"));
  ([], (bs "FREQ=SECONDLY;WKST=TU"), VRecur (Recur 0 3 false zero_time 0 0 [] [] [] [] [] [] [] [] []), (bs "FREQ=SECONDLY;WKST=TU"));
  ([], (bs "FREQ=SECONDLY;WKST=WE"), VRecur (Recur 0 4 false zero_time 0 0 [] [] [] [] [] [] [] [] []), (bs "FREQ=SECONDLY;WKST=WE"));
  ([], (bs "FREQ=SECONDLY;WKST=TH"), VRecur (Recur 0 5 false zero_time 0 0 [] [] [] [] [] [] [] [] []), (bs "FREQ=SECONDLY;WKST=TH"));
  ([], (bs "FREQ=SECONDLY;WKST=FR"), VRecur (Recur 0 6 false zero_time 0 0 [] [] [] [] [] [] [] [] []), (bs "FREQ=SECONDLY;WKST=FR"));
  ([], (bs "FREQ=SECONDLY;WKST=SA"), VRecur (Recur 0 7 false zero_time 0 0 [] [] [] [] [] [] [] [] []), (bs "FREQ=SECONDLY;WKST=SA"))].
Proof. repeat (apply Forall_cons; [hnf; split; [|split]; run|]). apply Forall_nil. Qed.
Example recur_refused : Forall (refused KRecur) [
  ([], (bs "FREQ=UNKNOWN"), ErrInvalidRecur);
  ([], (bs "FREQ=SECONDLY;COUNT=-1"), ErrInvalidRecur);
  ([], (bs "FREQ=SECONDLY;UNTIL=ABC"), ErrInvalidRecur);
  ([], (bs "FREQ=SECONDLY;BYSECOND=1,2,61"), ErrInvalidRecur);
  ([], (bs "FREQ=SECONDLY;BYSECOND=1,2,-1"), ErrInvalidRecur);
  ([], (bs "FREQ=SECONDLY;BYSECOND=1,2,A"), ErrInvalidRecur);
  ([], (bs "FREQ=SECONDLY;BYMINUTE=1,2,60"), ErrInvalidRecur);
  ([], (bs "FREQ=SECONDLY;BYMINUTE=1,2,-1"), ErrInvalidRecur);
  ([], (bs "FREQ=SECONDLY;BYMINUTE=1,2,A"), ErrInvalidRecur);
  ([], (bs "FREQ=SECONDLY;BYHOUR=1,2,24"), ErrInvalidRecur);
  ([], (bs "FREQ=SECONDLY;BYHOUR=1,2,-1"), ErrInvalidRecur);
  ([], (bs "FREQ=SECONDLY;BYHOUR=1,2,A"), ErrInvalidRecur);
  ([], (bs "FREQ=SECONDLY;BYDAY=UN"), ErrInvalidRecur);
  ([], (bs "FREQ=SECONDLY;BYDAY=-54MO"), ErrInvalidRecur);
  ([], (bs "FREQ=SECONDLY;BYDAY=54MO"), ErrInvalidRecur);
  ([], (bs "FREQ=SECONDLY;BYDAY=MON"), ErrInvalidRecur);
  ([], (bs "FREQ=SECONDLY;BYDAY=MO,"), ErrInvalidRecur);
  ([], (bs "FREQ=SECONDLY;BYMONTHDAY=32"), ErrInvalidRecur);
  ([], (bs "FREQ=SECONDLY;BYMONTHDAY=-32"), ErrInvalidRecur);
  ([], (bs "FREQ=SECONDLY;BYMONTHDAY=0"), ErrInvalidRecur);
  ([], (bs "FREQ=SECONDLY;BYMONTHDAY=A"), ErrInvalidRecur);
  ([], (bs "FREQ=SECONDLY;BYMONTHDAY=1,"), ErrInvalidRecur);
  ([], (bs "FREQ=SECONDLY;BYYEARDAY=0"), ErrInvalidRecur);
  ([], (bs "FREQ=SECONDLY;BYYEARDAY=367"), ErrInvalidRecur);
  ([], (bs "FREQ=SECONDLY;BYYEARDAY=-367"), ErrInvalidRecur);
  ([], (bs "FREQ=SECONDLY;BYYEARDAY=1,"), ErrInvalidRecur);
  ([], (bs "FREQ=SECONDLY;BYYEARDAY=A"), ErrInvalidRecur);
  ([], (bs "FREQ=SECONDLY;BYYWEEKNO=1,0"), ErrInvalidRecur);
  ([], (bs "FREQ=SECONDLY;BYYWEEKNO=54"), ErrInvalidRecur);
  ([], (bs "FREQ=SECONDLY;BYYWEEKNO=-54"), ErrInvalidRecur);
  ([], (bs "FREQ=SECONDLY;BYYWEEKNO=A"), ErrInvalidRecur);
  ([], (bs "FREQ=SECONDLY;BYMONTH=1,2,13"), ErrInvalidRecur);
  ([], (bs "FREQ=SECONDLY;BYMONTH=1,2,-1"), ErrInvalidRecur);
  ([], (bs "FREQ=SECONDLY;BYMONTH=1,2,A"), ErrInvalidRecur);
  ([], (bs "FREQ=SECONDLY;BYSETPOS=0"), ErrInvalidRecur);
  ([], (bs "FREQ=SECONDLY;BYSETPOS=367"), ErrInvalidRecur);
  ([], (bs "FREQ=SECONDLY;BYSETPOS=-367"), ErrInvalidRecur);
  ([], (bs "FREQ=SECONDLY;BYSETPOS=1,"), ErrInvalidRecur);
  ([], (bs "FREQ=SECONDLY;BYSETPOS=A"), ErrInvalidRecur);
  ([], (bs "FREQ=SECONDLY;WKST=UN"), ErrInvalidRecur);
  ([], (bs "FREQ=SECONDLY;"), ErrInvalidRecur);
  ([], (bs "FREQ=SECONDLY;UNKNOWN=1"), ErrInvalidRecur);
  ([], (bs "FREQ=SECONDLY;UNKNOWN"), ErrInvalidRecur)].
Proof. repeat (apply Forall_cons; [hnf; run|]). apply Forall_nil. Qed.
Example text_read : Forall (read_written KText) [
  ([], [], VText [], []);
  ([], (bs "Jackdaws love my big Sphinx of quartz"), VText (bs "Jackdaws love my big Sphinx of quartz"), (bs "Jackdaws love my big Sphinx of quartz"));
  ([], (bs "Project XYZ Final Review\nConference Room - 3B\nCome Prepared."), VText (bs "Project XYZ Final Review" ++ [LF] ++ bs "Conference Room - 3B" ++ [LF] ++ bs "Come Prepared."), (bs "Project XYZ Final Review\nConference Room - 3B\nCome Prepared."));
  ([], (bs "\\\;\,\N\n"), VText (bs "\;," ++ [LF] ++ [LF]), (bs "\\\;\,\n\n"))].
Proof. repeat (apply Forall_cons; [hnf; split; [|split]; run|]). apply Forall_nil. Qed.
Example text_refused : Forall (refused KText) [
  ([], (bs ";"), ErrInvalidText);
  ([], (bs ","), ErrInvalidText)].
Proof. repeat (apply Forall_cons; [hnf; run|]). apply Forall_nil. Qed.
Example time_read : Forall (read_written KTime) [
  ([], (bs "010203"), VTime (go_date 0 1 1 1 2 3 0 LLocal), (bs "010203"));
  ([], (bs "010203Z"), VTime (go_date 0 1 1 1 2 3 0 LUTC), (bs "010203Z"));
  ([(bs "TZID", bs "America/New_York")], (bs "010203"), VTime (go_date 0 1 1 1 2 3 0 new_york), (bs "010203"))].
Proof. repeat (apply Forall_cons; [hnf; split; [|split]; run|]). apply Forall_nil. Qed.
Example utcoffset_read : Forall (read_written KUTCOffset) [
  ([], (bs "0100"), VUTCOffset 3600, (bs "0100"));
  ([], (bs "0230"), VUTCOffset 9000, (bs "0230"));
  ([], (bs "023045"), VUTCOffset 9045, (bs "023045"));
  ([], (bs "+0230"), VUTCOffset 9000, (bs "0230"));
  ([], (bs "-0230"), VUTCOffset (-9000), (bs "-0230"))].
Proof. repeat (apply Forall_cons; [hnf; split; [|split]; run|]). apply Forall_nil. Qed.
Example utcoffset_refused : Forall (refused KUTCOffset) [
  ([], (bs "0260"), ErrInvalidOffset);
  ([], (bs "020060"), ErrInvalidOffset);
  ([], (bs "0261"), ErrInvalidOffset);
  ([], (bs "020061"), ErrInvalidOffset);
  ([], (bs "0"), ErrInvalidOffset);
  ([], (bs "00"), ErrInvalidOffset);
  ([], (bs "000"), ErrInvalidOffset);
  ([], (bs "00000"), ErrInvalidOffset);
  ([], (bs "T"), ErrInvalidOffset);
  ([], (bs "0000T"), ErrInvalidOffset);
  ([], (bs "000000T"), ErrInvalidOffset);
  ([], (bs "-0000"), ErrInvalidOffset);
  ([], (bs "-000000"), ErrInvalidOffset)].
Proof. repeat (apply Forall_cons; [hnf; run|]). apply Forall_nil. Qed.
