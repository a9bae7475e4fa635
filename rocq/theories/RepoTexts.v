(** The tests of folder_test.go, unfolder_test.go and tokeniser_test.go, run on the model: tests and not
    proofs, as in RepoTypes.v. Written by tools/gen_repo_tests.py. *)
From Coq Require Import String Ascii ZArith Bool List.
From Verif Require Import Base Utf8 Folder Unfolder Tokeniser RepoEnv.
Import ListNotations.
Local Open Scope Z_scope.

Example folder_test : Forall folded [
  ((bs "A"), (bs "A"));
  ((bs "AB"), (bs "AB"));
  ((bs "ABCDEFGHIJKLMNOPQRSTUVWXYZABCDEFGHIJKLMNOPQRSTUVWXYZABCDEFGHIJKLMNOPQRSTUVWXYZ"), (bs "ABCDEFGHIJKLMNOPQRSTUVWXYZABCDEFGHIJKLMNOPQRSTUVWXYZABCDEFGHIJKLMNOPQRSTUVW" ++ CRLF ++ bs " XYZ"));
  ((bs "ABCDEFGHIJKLMNOPQRSTUVWXYZABCDEFGHIJKLMNOPQRSTUVWXYZABCDEFGHIJKLMNOPQRSTUVWXYZABCDEFGHIJKLMNOPQRSTUVWXYZABCDEFGHIJKLMNOPQRSTUVWXYZABCDEFGHIJKLMNOPQRSTUVWXYZ"), (bs "ABCDEFGHIJKLMNOPQRSTUVWXYZABCDEFGHIJKLMNOPQRSTUVWXYZABCDEFGHIJKLMNOPQRSTUVW" ++ CRLF ++ bs " XYZABCDEFGHIJKLMNOPQRSTUVWXYZABCDEFGHIJKLMNOPQRSTUVWXYZABCDEFGHIJKLMNOPQRS" ++ CRLF ++ bs " TUVWXYZ"));
  ((bs "ABCDEFGHIJKLMNOPQRSTUVWXYZABCDEFGHIJKLMNOPQRSTUVWXYZ" ++ CRLF ++ bs "ABCDEFGHIJKLMNOPQRSTUVWXYZ"), (bs "ABCDEFGHIJKLMNOPQRSTUVWXYZABCDEFGHIJKLMNOPQRSTUVWXYZ" ++ CRLF ++ bs "ABCDEFGHIJKLMNOPQRSTUVWXYZ"));
  ((bs "ABCDEFGHIJKLMNOPQRSTUVWXYZABCDEFGHIJKLMNOPQRSTUVWXYZABCDEFGHIJKLMNOPQRSTUV" ++ [chr 226] ++ [chr 130] ++ [chr 172] ++ bs "XYZ"), (bs "ABCDEFGHIJKLMNOPQRSTUVWXYZABCDEFGHIJKLMNOPQRSTUVWXYZABCDEFGHIJKLMNOPQRSTUV" ++ CRLF ++ bs " " ++ [chr 226] ++ [chr 130] ++ [chr 172] ++ bs "XYZ"))].
Proof. repeat (apply Forall_cons; [hnf; split; run|]). apply Forall_nil. Qed.
Example unfolder_test : Forall unfolded [
  ((bs "A"), (bs "A"));
  ((bs "A" ++ [LF] ++ bs "B"), (bs "A" ++ [LF] ++ bs "B"));
  ((bs "A" ++ CRLF ++ bs " B"), (bs "AB"));
  ((bs "ABCDEFGHIJKL" ++ CRLF ++ bs " MNOP" ++ CRLF ++ bs " QRSTUV" ++ CRLF ++ bs "WXY" ++ CRLF ++ bs " Z"), (bs "ABCDEFGHIJKLMNOPQRSTUV" ++ CRLF ++ bs "WXYZ"));
  (([chr 226] ++ CRLF ++ bs " " ++ [chr 130] ++ CRLF ++ bs " " ++ [chr 172]), ([chr 226] ++ [chr 130] ++ [chr 172]));
  ((bs "BEGIN:VCALENDAR" ++ CRLF ++ bs "PRODID:TestDecode" ++ CRLF ++ bs "VERSION:2.0" ++ CRLF ++ bs "END:VCALENDAR" ++ CRLF), (bs "BEGIN:VCALENDAR" ++ CRLF ++ bs "PRODID:TestDecode" ++ CRLF ++ bs "VERSION:2.0" ++ CRLF ++ bs "END:VCALENDAR" ++ CRLF))].
Proof. repeat (apply Forall_cons; [hnf; split; run|]). apply Forall_nil. Qed.
Example tokeniser_read : Forall line_read [
  ((bs "Name:Value" ++ CRLF), [Token tokenName (bs "Name"); Token tokenValue (bs "Value")]);
  ((bs "Name:!Value HERE09" ++ [chr 9] ++ bs "z" ++ [chr 195] ++ [chr 184] ++ CRLF), [Token tokenName (bs "Name"); Token tokenValue (bs "!Value HERE09" ++ [chr 9] ++ bs "z" ++ [chr 195] ++ [chr 184])]);
  ((bs "Name;param=paramValue:Value" ++ CRLF), [Token tokenName (bs "Name"); Token tokenParamName (bs "param"); Token tokenParamValue (bs "paramValue"); Token tokenValue (bs "Value")]);
  ((bs "Name;param=""paramValue"":Value" ++ CRLF), [Token tokenName (bs "Name"); Token tokenParamName (bs "param"); Token tokenParamQuotedValue (bs "paramValue"); Token tokenValue (bs "Value")]);
  ((bs "Name;param="":;,"":Value" ++ CRLF), [Token tokenName (bs "Name"); Token tokenParamName (bs "param"); Token tokenParamQuotedValue (bs ":;,"); Token tokenValue (bs "Value")]);
  ((bs "Name;param=paramValue1,""paramValue2"":Value" ++ CRLF), [Token tokenName (bs "Name"); Token tokenParamName (bs "param"); Token tokenParamValue (bs "paramValue1"); Token tokenParamQuotedValue (bs "paramValue2"); Token tokenValue (bs "Value")]);
  ((bs "Name;param1=""ABC"";param2=DEF:Value" ++ CRLF), [Token tokenName (bs "Name"); Token tokenParamName (bs "param1"); Token tokenParamQuotedValue (bs "ABC"); Token tokenParamName (bs "param2"); Token tokenParamValue (bs "DEF"); Token tokenValue (bs "Value")])].
Proof. repeat (apply Forall_cons; [hnf; run|]). apply Forall_nil. Qed.
Example tokeniser_refused : Forall line_refused [
  ((bs ":Value" ++ CRLF), ErrInvalidContentLine);
  ((bs "Name+:Value" ++ CRLF), ErrInvalidContentLineName);
  ((bs "Name:" ++ [LF] ++ bs "Value" ++ CRLF), ErrInvalidContentLineValue);
  ((bs "Name:Va" ++ [chr 0] ++ bs "lue" ++ CRLF), ErrInvalidContentLineValue);
  ((bs "Name:Value" ++ [chr 127] ++ CRLF), ErrInvalidContentLineValue)].
Proof. repeat (apply Forall_cons; [hnf; run|]). apply Forall_nil. Qed.
