# Formal model of MJKWoolnough/ics in Rocq

`properties.jsonl` lists the properties, `MANIFEST.json` says which theorem settles which property,
`ASSUMPTIONS.md` what each theorem assumes, `seeded/LOG.jsonl` which wrong programs were tried.

## 1. What is modelled

The model is a set of total Gallina functions that follow the Go code function by function.
Every definition cites the Go file and lines it models.

| Coq file | Go code |
|---|---|
| `Base.v`, `Utf8.v`, `GoStrings.v`, `Strtok.v` | the parts of `strings`, `strconv`, `unicode/utf8`, and of the `parser` library that the code calls |
| `Folder.v` | `folder.go` (writer with sticky error, 75-octet folding) |
| `Unfolder.v` | `unfolder.go` (look-ahead buffer, in-place fold removal, recursion) over an arbitrary reader |
| `Tokeniser.v` | `tokeniser.go` (state functions and phraser) |
| `GoTime.v` | the parts of `time` used: `Parse`, `ParseInLocation`, `AppendFormat`, `Date`, `IsZero`, `After`, `LoadLocation` |
| `Types.v` | `types.go` |
| `Params.v`, `ParamTable.v` | `params.go` |
| `Props.v`, `PropTable.v` | `properties.go` |
| `Sections.v`, `SecTable.v` | `sections.go`, `sections_alarm.go` |
| `Codec.v` | `decoder.go`, `encoder.go` |
| `OnDemand.v` | the same, reading only when a byte is needed |
| `AnyReader.v` | `unfolder.go` and `decoder.go` once more, with an `io.Reader` that is any function with a state |
| `RuneTok.v` | the scanning functions of the parsing library and their callers once more, rune by rune (proved the same: C107) |
| `Stack.v` | the calls of the decoding functions that are pending at once (sections.go, all `decode` methods of components, and `decodeDummy`) |
| `Work.v` | the lines that the same functions handle, with a cost for each |
| `Pointers.v` | sections_alarm.go:27-36, 82-135 and encoder.go:15-26 on nil pointers: the calendar, the alarm interface, `Type` |
| `ShortWrites.v` | folder.go:18-62 and encoder.go:15-25 with the counts that `Write` returns, which `Folder.v` leaves out |
| `Generator.v` | names.sh, genParams.sh, genProperties.sh, genSections.sh: from a description to the rows of the tables |
| `GenFiles.v` | names.gen, params.gen, properties.gen, sections.gen, as they are |
| `Messages.v`, `LabelTable.v` | the decode and valid methods again, with the texts of their errors |

`params.go`, `properties.go` and `sections.go` are generated Go: each type is an instance of one of a few
templates. The model has one generic function per template (decode, encode, valid) and one table
entry per generated type. `tools/check_tables.py` reads `/repo/*.go` as text, checks that each
generated Go method body is exactly the template instance described by the table entry, and emits
the tables with their line numbers. No Go code is run.

### Results
* A Go error is modelled by the sentinel `errors.Is` would find. `Messages.v` models the decoders and validation again with
  the texts put around it; C98 and C101 tie the two together.
* A panic is the explicit result `Panic`; a loop that never ends is the explicit event `Hang`
  (encoder) or running out of every amount of fuel (`NoFuel`: unfolder, decoder).
* Decoding loops carry fuel; theorems show that enough fuel always exists and that the result
  does not depend on it.

### Oracles
Code outside the repository that cannot sensibly be rewritten is a field of the record `Env`
(functions only, no assumptions): `url.Parse`, `(*URL).String`, the time-zone database (name to
zone, zone lookup), the `Local` zone, and finite `ParseFloat`/`FormatFloat`.
Every theorem is quantified over all `Env`; facts about a URL or zone are hypotheses about
that value only, visible in the theorem's statement.

### Readers, writers
`io.Writer`: an arbitrary state machine returning (n, err) for each call. `io.Reader`: a list of
chunks (the pieces the reader chooses to return) with a final error, optionally delivered with the last data.
Any run of any reader is one such list: `AnyReader.v` has any reader, and C122 is the proof. The buffering of the `parser` library is
represented by an arbitrary sequence of request sizes.

### Simplifications
* `Codec.v` has `Decode` drain the unfolder before it parses. Go reads on demand: `OnDemand.v` models that, with the
  tokeniser asking the unfolder for bytes only when it needs one that it has not got, and C82 proves
  that the two give the same result. Most theorems are stated for `Decode` or for `decode_bytes` (the text left by the unfolder).
* `Folder.v` drops the counts that the caller's writer returns; `ShortWrites.v` keeps them, and C118 shows that they change nothing.
* The byte count of the unfolder's `Read` can become negative (C11). What a caller does with such a count is taken for
  a panic, as it is no slice bound.
* A struct is a list of fields in struct order, each a list of values (empty for a nil pointer).
* An error is compared up to its sentinel, except in `Messages.v` (C98 to C101), where the texts of standard library errors are opaque,
  and the label of a field in validation is that of the type of its value.
* `float64` values are NaN, infinities, and finite ones as an opaque type of `Env`.

## 2. Trusted base
* Coq 8.16.1 kernel (and `vm_compute`). `Print Assumptions` prints "Closed under the global context"
  for every property theorem (`ASSUMPTIONS.md`); there are no axioms, not even of the standard library.
  (`coqchk` also lists axioms of `Coq.ssr.ssrunder`, which is loaded by the standard library and not used.)
* The reading of Go source into Gallina, and `tools/check_tables.py` for the generated part.
* The behaviour of `vimagination.zapto.org/parser` v1.0.3, which is not in the sandbox and was
  modelled from its documented behaviour, and cross-checked against how the repository's code and
  tests use it: `Accept`, `AcceptRun`, `ExceptRun`, `Peek` do not consume the rune that stops them,
  `Next` consumes, `Get` returns what was read since the last `Get`, a token function returned as nil
  means that the next token is `TokenDone`, a `Tokeniser` passed by value shares its position, a reader
  is asked for more only when a byte is looked at that has not come yet, and any error of the reader is seen as the end of the text.
* Go standard library behaviour (strconv, utf8, base64, time, strings), modelled by hand.
* The specifications (`Spec*.v`), which are meant to be read; they say in relations and tables written by hand
  what the theorems claim.

## 3. Not modelled
The texts of standard library errors; memory and time; `CalendarAddress`/`URI` internals (URL is opaque); concurrency (the
package has none); Go values not constructible without reflection; the `New…`
functions, which return a pointer to a copy of their argument; of the shell scripts that generate the Go code, the layout
and the comments of the code (`Generator.v` has what they get from the descriptions; what they make of it is checked by `tools/check_tables.py`).

## 4. How the proofs go

| Files | Content |
|---|---|
| `Lib`, `Utf8Proofs`, `NumProofs` | lists, UTF-8, decimal numbers |
| `SpecLines`, `FolderProofs`, `EncodeProofs` | folding: induction over the written runes with the invariant relating the count to the length of the open line; write failures: latch invariant (C01–C06, C59) |
| `UnfolderProofs` | delivered ++ buffered ++ remaining = input; single read: invariant of the in-place removal (C07–C10, C53) |
| `SpecContent`, `TokeniserProofs`, `DecodeProofs` | the tokeniser against a grammar of content lines, both ways (C12, C13) |
| `SpecText`, `TextProofs`, `SpecDuration`, `DurationProofs`, `BinaryProofs`, `ValueProofs` | values: round trips and exact reading (C14–C25) |
| `SpecTime`, `TimeProofs`, `DateProofs`, `SpecRecur`, `RecurProofs` | times, periods, recurrence rules (C26–C33, C54) |
| `SpecParams`, `ParamProofs`, `SpecProps`, `PropProofs`, `GroupProofs` | parameters and properties (C34–C39, C56–C58) |
| `SpecTree`, `TreeProofs`, `ExactProofs` | a text as a tree of components and lines; decoding a text is decoding its tree (C55) |
| `SpecPanic`, `TotalProofs`, `SpecRules`, `ShapeProofs`, `RulesProofs` | panics, termination, rules of presence (C10, C11, C40–C43) |
| `SpecEdits`, `AddProofs`, `CaseProofs`, `PrefixProofs` | pairs of texts: unknown lines and components, letter case, cut and extended texts (C45–C47, C49, C50) |
| `HangProofs`, `SpecCal`, `CalProofs`, `RoundProofs`, `EncodableProofs` | calendars through Encode and Decode (C35, C44, C48, C51, C52) |
| `SpecValid`, `ValidProofs` | what Encode refuses (C60) |
| `SpecOut`, `OutProofs`, `DecodedProofs` | what Encode writes, line by line (C61) |
| `SpecRfc`, `SpecLine`, `LineProofs`, `SpecComp`, `CompProofs`, `RfcProofs` | Decode against tables from RFC 5545 and the Go API (C62–C65) |
| `SpecKeep`, `KeepProofs` | what survives reading, writing and reading again (C66) |
| `SpecLang`, `SpecRule`, `Lang*Proofs` | for each value type, exactly the texts that are read, and how they compare with RFC 5545 (C67–C76) |
| `SpecWrite`, `Write*Proofs` | for each value type, exactly the text that is written, and when it is one of RFC 5545 (C77, C78) |
| `SpecWritten`, `Written*Proofs` | exactly the text that Encode writes for a calendar, line by line (C79) |
| `SpecReaders`, `ReadersProofs`, `StartProofs` | readers that give bytes, lines or buffers that end in a fold (C07, C10, C53); how lines begin and end (C80, C81) |
| `SpecCuts`, `CutsProofs`, `SampleCuts` | folded text in any number of reads: which reads are made, and what is read when no fold lies across the end of one (C07, C10, C48) |
| `SpecStick`, `StickProofs`, `DemandErrProofs`, `DemandStickProofs`, `SampleStick` | exactly which readers keep the unfolder from returning (C10), and what Decode returns before they do (C10, C88) |
| `SpecOrder`, `OrderProofs`, `SpecAlone`, `AloneProofs`, `LastModProofs`, `SampleOrder` | other orders of the same lines, lines judged by themselves, zones, stamps, calendars written alike (C92 to C97) |
| `SpecDemand`, `Demand*Proofs` | reading on demand: a simulation between the decoders on a text that is there and on one that is still coming (C82–C85, C11) |
| `SpecFail`, `SpecBadLine`, `SpecTrunc`, `SpecErrors`, `Fail*Proofs`, `BadLineProofs`, `TruncProofs`, `ErrorsProofs` | how Decode fails: the first fault of a tree of lines, by mutual induction both ways; cut calendars; which errors say what (C86–C91) |
| `SpecMessage`, `Message*Proofs` | error messages of Decode and Encode: the same trees of lines as for C87, with the names on the way (C98 to C101) |
| `SpecSource`, `SourceProofs` | the bytes that are parsed are bytes of the reader in their order (C102) |
| `SpecMachine`, `MachineProofs` | the same text on two machines with other time zones: a simulation between the decoders (C103) |
| `SpecSize`, `SizeProofs` | how much a decoded calendar holds, against the length of its text (C104) |
| `SpecMerge`, `MergeProofs` | calendars put together and taken apart (C105) |
| `SpecFull`, `FullProofs` | where the folds are: as late as possible (C106) |
| `SpecRune`, `RuneProofs` | scanning by characters and by octets (C107) |
| `SpecStack`, `StackProofs` | how many calls of Decode are pending at once: C108 |
| `SpecUtf`, `UtfProofs`, `UtfReadProofs` | UTF-8 in both directions: C109, C110 |
| SpecNormal, NormalProofs, SampleNormal, PropertiesNormal | C111: what exactly is read back from what was written, and that it is written the same again |
| SpecPointers, PointersProofs, SamplePointers, PropertiesPointers | C112, C113: when a nil pointer makes Encode panic, and the types of alarms |
| SpecPlace, PlaceProofs, SamplePlace, PropertiesPlace | C114: what one line adds, at any place in a calendar |
| SpecInsert, InsertProofs, SampleInsert, PropertiesInsert | C115: what one value adds to the output |
| SpecSpell, SpellProofs, SampleSpell, PropertiesSpell | C116: order and quotes of parameters, letter case |
| SpecAnywhere, AnywhereProofs, SampleAnywhere, PropertiesAnywhere | C117: folds at any place |
| SpecShortWrites, ShortWritesProofs, SampleShortWrites, PropertiesShortWrites | C118: what becomes of the counts that a writer returns |
| BoxProofs, SampleBox, PropertiesBox | C46: in an alarm, a component ends Decode wherever it stands |
| SpecGen, GenProofs, GenPropProofs, SampleGen, PropertiesGen | C119, C120: the tables of the model are what the scripts get from the descriptions, or not |
| SpecUnreadable, FatalProofs, UnreadableProofs, SampleUnreadable, PropertiesUnreadable | C121: a line that cannot be read, at any place in a calendar; C11: exactly the recurrence rules on which reading panics, at any place; C91: every alarm can be given a component that ends in ErrUnexpectedEOF |
| SpecAnyReader, AnyReaderProofs, AnyDecodeProofs, AnyTextProofs, SampleAnyReader, PropertiesAnyReader | C122: what Decode does with any reader at all, it does with the list of the pieces that the reader returned |
| SpecWork, WorkProofs, SampleWork, PropertiesWork | C123: each line is handed out twice at most, once without alarms, and read as a property once |
| SpecFolded, FoldedProofs | C02, C04: that nothing but folds is added, and when the content lines come back as they are |
| SpecCalls, CallProofs, SampleCalls, PropertiesCalls | C124: induction over the folding loop, with the text that is held back never longer than its line |
| SpecGrow, GrowProofs, WordProofs, SampleGrow, PropertiesGrow | C125: a bound for each value type, parameter and property, summed over the components |
| SpecMoments, MomentProofs, SampleMoments, PropertiesMoments | C126: the order of dates and of moments in UTC is that of their texts; a zone in which it is not |
| SpecLetters, LetterProofs, SampleLetters, PropertiesLetters | C47, C109, C110: letter case and UTF-8, which the specifications borrow from the model, are those of the alphabet and of RFC 3629 |
| SpecMedia, MediaProofs, SampleMedia, PropertiesMedia | C127: media types of RFC 4288, what FMTTYPE accepts, and the caret |
| SpecClock, ClockProofs, SampleClock, PropertiesClock | C128: what clocks show, zones with transitions, overlaps |
| SpecRevise, ReviseProofs, SampleRevise, PropertiesRevise | C129: calendars that are read, changed step by step, put together, and kept |
| SpecAbroad, AbroadProofs, SampleAbroad, PropertiesAbroad | C130: a calendar with an event at a moment in any location, through Encode and Decode |
| SpecBuilt, BuiltProofs, SampleBuilt, PropertiesBuilt | C131: calendars that a program has put together, and what is left of their values |
| SpecRetimed, RetimedProofs, SampleRetimed, PropertiesRetimed | C130: calendars with any number of times in locations that the system has under the same name |
| SpecAgain, AgainProofs, PropertiesAgain | C130 and C131 for texts that come in any number of reads |
| SpecLined, LinedProofs, ZonedProofs, SampleLined, PropertiesLined | C132: one value that cannot be read makes the calendar unreadable; C130 for unknown locations anywhere |
| BackProofs, PropertiesBack | C48 and C131 exactly: which calendars come back, and what comes back of the others |
| UnreadProofs, PropertiesUnread | C132 for texts that come in any number of reads |
| SpecReadAs, ReadAsProofs, ReadAllProofs, SampleReadAll, PropertiesReadAll | C132 exactly: a calendar can be read if and only if its properties can, and is read property by property |
| `Sample*` | concrete cases that meet the hypotheses |
| `Properties*` | the property theorems, nothing else |
| `Repo*` | the project's own tests run on the model (tests, not proofs) |

Properties false of the code are settled by a theorem `…_refuted`, a characterisation of all
failing inputs where possible and otherwise a concrete witness, and the largest true restriction found
is proved as `…_partial`.

Theorems are tried against wrong programs with `tools/mutate.py`, which edits the model in a
scratch copy and reports the property theorems whose proofs no longer go through.

The model itself is tried against the tests of the project: every case of `types_test.go` (118),
`folder_test.go`, `unfolder_test.go`, `tokeniser_test.go`, `decoder_test.go`, `encoder_test.go` and
`examples_test.go` is computed on the model in `Repo*.v` and gives what the test expects. The inputs
are copied from `/repo` by `tools/gen_repo_tests.py`; the six calendars of `RepoTests.v` are copied by hand.

## 5. Findings

Defects of the code that the theorems establish (property in brackets):

* Encode never returns if a parameter text has `^`, `"` or a line feed (C34, C35); `^` escapes in parameters are read wrongly (C56).
* Decode panics on `BYDAY=+d` and on a text that ends inside an alarm (C11).
* A reader that returns no bytes and no error inside of folds makes the unfolder return a negative count (C11).
* The unfolder loses data or hangs when a fold meets the end of a read, or data comes with EOF (C07, C10, C53, C102).
* Whether a rule with UNTIL and COUNT is accepted can depend on the local time zone of the machine (C103).
* A decoded calendar can hold more bytes than its text, but never more than twice as many (C104).
- The stack that Decode needs has no bound: skipping a component of an unknown name takes one call for every component inside it (sections.go:4176-4198). A text of nested components, 16 octets each, exhausts the stack, which ends a Go program (C108).
- Nothing checks for UTF-8: octets that are not UTF-8 are accepted by Decode, written as they are by Encode in parameters, and replaced by U+FFFD without an error in texts (C110).
- A time in the first second of the year 1 with a fraction is accepted and written without the fraction; what is then read is the unset time, which Encode refuses (C111).
- Encode panics, before anything is written, on a nil calendar and on an alarm that is a nil pointer of a type other than AlarmNone; the nil interface is refused (C112).
- A writer that takes less than it is given and reports no error goes unnoticed by Encode (C118).
- genProperties.sh has tabs in IFS, so that `read` removes the tab before a parameter and every parameter becomes a property: it cannot write the properties.go that is there from any description (C119).
- genSections.sh uses the length of the first rule as the index of the next, so that of three or more rules of a component only the first and the last are kept; sections.gen has at most two (C120).
* A moment in a location without a name (time.Parse of a numeric offset, time.FixedZone("", n)) is written with an empty TZID and read back in UTC, moved by the offset; one in a location whose name the system does not know is written and then refused by Decode (C130).
* Finite FLOAT and GEO values are refused by Encode (C51, C60).
* Addresses in parameters (ALTREP, DIR, DELEGATED-TO, ...) are written without quotes and cannot be read back (C37).
* LAST-MODIFIED is never read: the decoder looks for LAST-MOD (C44, C64).
* The DURATION/REPEAT rule of email and URI alarms is inverted (C43).
* Encode writes calendars that break the rules between fields (C52).
* END is case-sensitive in its component name; unknown components inside alarms are not skipped (C46, C47).
* Durations, offsets over 99 hours, rules out of range do not round-trip (C20, C24, C33).
* A period with TZID and an end is read as one that Encode refuses (C30).
* A duplicate TZID or ENCODING parameter is not refused (C38).
* FMTTYPE is checked by a pattern that is not anchored, URLs are written as they are: a line can be injected (C61).
* RELATED of TRIGGER is ignored (C62); lists in EXDATE, RDATE and FREEBUSY and every RFC 5545 REQUEST-STATUS reject the calendar (C63).
* CALSCALE, METHOD, RRULE of a to-do and ATTACH of an email alarm are dropped (C64).
* Ranges, states and the order of start and end are not checked (C65).
* Fractions of seconds are read but not written (C66).
* The error for a property that is given twice matches nothing with errors.Is; validation errors of properties and parameters say "error decoding" (C99, C101).
* UTC offsets without a sign and with up to 99 hours are read; seconds of 60 are refused in offsets and times (C70, C71).
* Durations like `P1H` and `PT1HT2H` are read; so are rules with FREQ twice, and rules in small letters are refused (C72, C74).
* NaN and infinities are read as FLOAT and GEO (C76).
* UTC offsets of zero or more are written without the sign that RFC 5545 demands, so no TZOFFSETTO or TZOFFSETFROM east of Greenwich is valid; the only FLOAT and GEO values written are NaN and infinities (C78).
* From a reader that gives one byte at a time no folded calendar is read; from one that gives one line at a time, and where a fold meets the end of the buffer, each fold leaves its space in the value (C07). Lines folded with a tab are never read (C80).
* Decode takes one byte of what follows the calendar even when the calendar is exactly what one read gave, so a second calendar from the same reader is refused (C84).
* Decode panics at every cut inside an alarm (C86); a complete calendar with a component in an alarm can give ErrUnexpectedEOF (C91).
* VTIMEZONE is read and not used: moments in zones that the system does not know refuse the whole calendar, and no VTIMEZONE is written for a TZID (C93, C94). Stamps need not be in UTC (C95), and no rule between values is kept (C96).
* One value that Encode writes and Decode cannot read, anywhere in a calendar, loses the whole calendar (C132).
