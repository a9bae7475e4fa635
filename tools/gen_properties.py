"""Writes /verif/properties.jsonl."""
import json
P=[]
def p(title, statement, quantifier, why, anchors):
    P.append(dict(id="C%02d"%(len(P)+1), title=title, statement=statement, quantifier=quantifier, why_tests_cant=why, anchors=anchors))

p("Output lines are at most 75 octets",
  "For every calendar Encode accepts whose contents have no bare CR or LF, every physical line that Encode hands to the writer (text between CRLFs) is at most 75 octets long.",
  "all calendars, all contents of every length, all line positions",
  "the fold point depends on the exact byte count modulo multi-byte runes and on every earlier write; tests try a few lengths",
  ["folder.go: folder.Write","encoder.go: Encode"])
p("Folding is reversible",
  "Removing every CRLF-space from what Encode writes gives back exactly the logical content lines the calendar stands for; folding adds nothing else, removes nothing and reorders nothing.",
  "all calendars and all byte contents",
  "a lost or duplicated byte can occur only at particular alignments of write boundaries and fold points",
  ["folder.go: folder.Write, folder.WriteString"])
p("Folding never splits a character",
  "When the text being written is valid UTF-8, no fold is inserted inside the encoding of a character: every physical line Encode writes is itself valid UTF-8.",
  "all valid UTF-8 contents",
  "needs every position of every 1..4 byte character relative to the 75 octet limit",
  ["folder.go: folder.Write"])
p("Folding does not depend on internal write boundaries",
  "The bytes Encode produces depend only on the concatenation of the pieces it writes internally, not on how they are cut (cuts at character boundaries).",
  "all ways of cutting all contents into pieces",
  "exponentially many cuts",
  ["folder.go: folder.Write"])
p("Writer failures are reported and stop output",
  "If the writer fails at any call, Encode returns that (first) error, makes no further Write call after it, and what was passed to the writer is a prefix of the full output. Encode returns nil only if every Write succeeded and the full output was passed.",
  "all writers (all failure points and short writes), all calendars",
  "one failure point per write call per calendar",
  ["folder.go: folder.Write","encoder.go: Encode"])
p("Rejected calendars write nothing",
  "If Encode rejects the calendar as invalid it has not called the writer at all.",
  "all calendars, all writers",
  "every way of being invalid at every nesting depth",
  ["encoder.go: Encode","sections.go: valid methods"])
p("Decoding does not depend on how the reader chunks its data",
  "Decode gives the same result for the same bytes however the io.Reader splits them over Read calls.",
  "all inputs, all splits into reads, all request sizes",
  "exponentially many splits; folds interact with read boundaries",
  ["unfolder.go: unfolder.Read","decoder.go: Decode"])
p("Fold-free input passes through unchanged",
  "Input with no CRLF-space anywhere reaches the content-line parser byte for byte, whatever the read boundaries and request sizes of two bytes or more, from a reader that reports its end in a read of its own.",
  "all fold-free inputs, all splits into reads, all request sizes >= 2",
  "the look-ahead buffer carries 0, 1 or 2 bytes between reads: every interleaving matters",
  ["unfolder.go: unfolder.Read"])
p("Folded lines are joined when input arrives in one read",
  "When the reader delivers the whole input in one read and the input ends in a complete line that does not end in a space, Decode sees exactly the input with every CRLF-space removed.",
  "all inputs with any number of folds at any positions",
  "in-place removal with overlapping copies depends on every fold position",
  ["unfolder.go: unfolder.Read"])
p("Decode returns for every finite input",
  "Decode terminates on every finite input.",
  "all inputs and all readers that end",
  "non-termination cannot be observed by a test, and needs the right chunk ending",
  ["unfolder.go: unfolder.Read","tokeniser.go","sections.go: decode methods"])
p("Decode never panics",
  "Decode returns a calendar or an error, and never panics, on every input.",
  "all byte strings",
  "fuzzing samples inputs; slices and indexes must be in range for all",
  ["types.go: Recur.decode","sections_alarm.go: Alarm.decode","decoder.go: Decode"])
p("Content lines: everything accepted is grammatical",
  "Every content line the parser yields is NAME *(;PARAM=VALUE*(,VALUE)) : VALUE, ended by CRLF or the end of input, over the permitted characters (a parameter name may be empty), and its tokens spell exactly the bytes that were read.",
  "all byte strings",
  "infinite language",
  ["tokeniser.go: parseName, parseParamName, parseParamValue, parseValue, newTokeniser"])
p("Content lines: everything grammatical is accepted",
  "Every grammatical content line, followed by anything, is parsed to exactly its name, parameters (quoted or not) and value, leaving the rest of the input for the next line.",
  "all grammatical content lines and all continuations",
  "infinite language",
  ["tokeniser.go: parseName, parseParamName, parseParamValue, parseValue, newTokeniser"])
p("Text values round-trip",
  "Any text of valid UTF-8 that Encode accepts (backslashes, commas, semicolons and newlines included) decodes back to itself.",
  "all valid UTF-8 strings that pass validation",
  "escaping must be injective over all strings",
  ["types.go: Text.encode, Text.decode, decodeText"])
p("Text values cannot inject lines",
  "The encoding of any accepted text has no CR, LF or other control character, and no unescaped comma or semicolon, so no text can start a new content line or list element.",
  "all strings that pass validation",
  "infinite set of adversarial strings",
  ["types.go: Text.encode, Text.valid"])
p("Text list values round-trip",
  "Every non-empty list of valid UTF-8 texts that Encode accepts decodes back to the same list.",
  "all non-empty lists of strings",
  "element separators interact with escapes at every position",
  ["types.go: MText.encode, MText.decode"])
p("Text decoding is exact about delimiters",
  "Text decoding fails exactly when the value has an unescaped semicolon or an unescaped comma; otherwise it returns the text with every known escape replaced and unknown escapes kept.",
  "all byte strings",
  "infinite language",
  ["types.go: Text.decode, decodeText"])
p("Integer values round-trip and are range checked",
  "Every 32-bit signed integer decodes back to itself after encoding, and decoding never yields a value outside that range.",
  "all integers, all byte strings",
  "4 billion values and an infinite language of inputs",
  ["types.go: Integer.decode, Integer.encode"])
p("Boolean values round-trip and nothing else is accepted",
  "TRUE and FALSE round-trip, and decoding accepts exactly twelve spellings (1, t, T, true, True, TRUE and 0, f, F, false, False, FALSE), each with its meaning.",
  "all byte strings",
  "infinite set of inputs",
  ["types.go: Boolean.decode, Boolean.encode"])
p("Durations round-trip",
  "Every duration that Encode accepts and that does not mix weeks with other units decodes back to itself.",
  "all combinations of sign, weeks, days, hours, minutes, seconds over all machine integers",
  "six 64-bit fields",
  ["types.go: Duration.decode, Duration.encode, Duration.valid, itoa"])
p("Every accepted duration keeps its fields",
  "Every duration that Encode accepts decodes back to itself.",
  "all durations that pass validation",
  "six 64-bit fields",
  ["types.go: Duration.encode, Duration.valid"])
p("Duration decoding accepts every RFC 5545 duration",
  "Every dur-value of the RFC 5545 grammar whose numbers fit a machine word is accepted and gives the named fields.",
  "all strings of the grammar",
  "infinite language",
  ["types.go: Duration.decode"])
p("UTC offsets round-trip",
  "Every UTC offset strictly between -100 and +100 hours decodes back to itself; Decode never yields one outside that range.",
  "all offsets in range, all byte strings",
  "720 000 values and an infinite language",
  ["types.go: UTCOffset.decode, UTCOffset.encode"])
p("Every accepted UTC offset keeps its value",
  "Every UTC offset that Encode accepts decodes back to itself.",
  "all machine integers",
  "64-bit range",
  ["types.go: UTCOffset.encode, UTCOffset.valid"])
p("Binary values round-trip",
  "Every byte string round-trips through the base64 encoding of binary values.",
  "all byte strings of every length",
  "padding depends on length modulo three and every byte value",
  ["types.go: Binary.encode, Binary.decode"])
p("UTC dates and date-times round-trip",
  "Every whole-second UTC instant in the years 0000 to 9999 other than the zero time decodes back to itself when written as DATE-TIME, and every such UTC midnight as DATE.",
  "all 316 billion instants",
  "leap years, month lengths and century rules across the whole range",
  ["types.go: Date, DateTime encode/decode"])
p("Only real calendar dates are accepted",
  "A decoded DATE or DATE-TIME always names a day that exists in the Gregorian calendar, in years 0 to 9999.",
  "all byte strings",
  "infinite language",
  ["types.go: Date.decode, DateTime.decode"])
p("Zoned and local date-times round-trip",
  "A whole-second time in a zone that its own name loads, and whose wall-clock reading is unambiguous there, decodes back to the same instant in the same zone.",
  "all instants, all zones",
  "zone rules are arbitrary",
  ["types.go: DateTime.decode, DateTime.encode, writeTimezone"])
p("Periods round-trip",
  "Every UTC period that Encode accepts (explicit end, or duration not mixing weeks) with whole seconds decodes back to itself.",
  "all start and end instants and durations",
  "product of two infinite families",
  ["types.go: Period.encode, Period.decode, Period.valid"])
p("A decoded period can be encoded",
  "Every period that Decode returns with its end after its start is accepted by Encode.",
  "all period texts, all zones",
  "depends on identity of zone objects",
  ["types.go: Period.decode, Period.valid"])
p("Recurrence rules round-trip",
  "Every recurrence rule Encode accepts, with day ordinals within -53..53 with UNTIL a date or a moment in whole seconds that its written clock determines, and not combined with COUNT, decodes back to itself.",
  "all recurrence rules (all list lengths and contents)",
  "a dozen unbounded lists",
  ["types.go: Recur.encode, Recur.decode, Recur.valid"])
p("Decoded recurrence rules are in range",
  "Every component of a decoded recurrence rule is within its RFC 5545 range, COUNT and UNTIL are never both set, and a decoded rule passes validation.",
  "all byte strings",
  "infinite language",
  ["types.go: Recur.decode, Recur.valid"])
p("Every accepted recurrence rule keeps its meaning",
  "Every recurrence rule Encode accepts decodes back to itself.",
  "all rules that pass validation",
  "a dozen unbounded lists",
  ["types.go: Recur.encode, Recur.valid"])
p("Parameter text escaping round-trips",
  "Decoding the RFC 6868 encoding of any parameter text gives back the text.",
  "all parameter texts",
  "infinite set of strings",
  ["params.go: encode6868, decode6868"])
p("Encode returns for every calendar",
  "Encode terminates for every finite calendar.",
  "all calendars",
  "non-termination cannot be observed by a test",
  ["params.go: encode6868","encoder.go: Encode"])
p("Enumerated parameters and properties round-trip",
  "Every named choice of every enumerated parameter and property decodes back to itself, case-insensitively; an unlisted word is rejected or becomes the Unknown choice, never a different named choice.",
  "all enumerated types, all choices, all byte strings",
  "infinite set of words per type",
  ["params.go: enumerated Param types","properties.go: PropAction, PropClass, ..."])
p("URI parameters round-trip",
  "ALTREP, URI, DELEGATED-FROM and DELEGATED-TO parameters that Encode accepts decode back to themselves.",
  "all URIs",
  "infinite set of values",
  ["params.go: ParamAlternativeRepresentation, ParamURI, ParamDelegator, ParamDelegatee"])
p("Duplicate parameters are rejected",
  "A property that gives a parameter it knows twice is rejected; its result never silently keeps one of two.",
  "all properties, all parameter lists",
  "all positions and interleavings",
  ["properties.go: generated decode methods"])
p("Properties round-trip",
  "Every property of every type whose parts round-trip decodes back to itself with all its parameters and its value type.",
  "all 54 property types, all parameter subsets, all values",
  "product of all parameter subsets and values",
  ["properties.go: generated encode/decode/valid"])
p("Missing required properties are rejected",
  "Decode succeeds only if every required property of every component in the input is present; otherwise it fails.",
  "all inputs",
  "all subsets of properties in all components at every depth",
  ["sections.go: decode methods"])
p("Duplicate single-valued properties are rejected",
  "Decode succeeds only if each single-valued property of a component occurs at most once in it.",
  "all inputs, all positions",
  "all positions and interleavings",
  ["sections.go: decode methods"])
p("Cross-property rules hold after Decode",
  "No decoded event has both DTEND and DURATION; no decoded to-do has both DUE and DURATION, or DURATION without DTSTART; every decoded time zone has a STANDARD or DAYLIGHT part; no decoded alarm has a geo location without proximity.",
  "all inputs",
  "all combinations of properties in all orders",
  ["sections.go: Event.decode, Todo.decode, Timezone.decode, AlarmX.decode"])
p("E-mail and URI alarms repeat consistently",
  "An e-mail or URI alarm decodes exactly when DURATION and REPEAT are both present or both absent (other rules being met).",
  "all alarms",
  "all combinations in all orders",
  ["sections.go: AlarmEmail.decode, AlarmURI.decode"])
p("LAST-MODIFIED survives a round trip",
  "A component with a last-modified time decodes back with the same last-modified time.",
  "all components that have the field",
  "one per component type and value",
  ["sections.go: decode methods","properties.go: PropLastModified"])
p("Unknown properties are ignored",
  "Inserting well-formed content lines with unknown names anywhere inside a component does not change what Decode returns.",
  "all components, all unknown lines, all positions",
  "all positions in all inputs",
  ["sections.go: decode methods"])
p("Unknown components are skipped",
  "Inserting a well-nested component with an unknown upper-case name, with any content and nested components, between the lines of a component does not change what Decode returns.",
  "all unknown component trees, all positions",
  "unbounded nesting",
  ["sections.go: decodeDummy"])
p("Names are case-insensitive",
  "Changing the letter case of property names, parameter names and component names in the input does not change what Decode returns.",
  "all inputs, all case changes",
  "2^n case changes",
  ["sections.go","properties.go","sections_alarm.go","decoder.go"])
p("Calendars round-trip",
  "For every calendar Encode accepts whose values each round-trip and whose components satisfy the cross-property rules, Decode of the output gives back an equal calendar.",
  "all calendars: any number of components, properties, alarms and parameters",
  "unbounded structures",
  ["encoder.go: Encode","decoder.go: Decode","sections.go","properties.go","params.go","types.go","tokeniser.go","folder.go","unfolder.go"])
p("Data after the calendar is ignored",
  "If Decode succeeds on some bytes, it succeeds with the same calendar when anything is appended after the final line.",
  "all inputs, all trailing data",
  "all continuations",
  ["decoder.go: Decode","sections.go: Calendar.decode"])
p("Truncated calendars never decode",
  "No proper prefix of Encode's output that cuts it before the end of the text END:VCALENDAR decodes successfully.",
  "all calendars, all cut points",
  "every crash point of every output",
  ["decoder.go: Decode","sections.go: Calendar.decode"])
p("A decoded calendar can be encoded",
  "Every calendar that Decode returns is accepted by Encode.",
  "all inputs",
  "infinite set of inputs",
  ["encoder.go: Encode","types.go: Float.valid, TFloat.valid","sections.go: valid methods"])
p("What Encode accepts, Decode accepts",
  "For every calendar Encode accepts, Decode accepts the output.",
  "all calendars",
  "all combinations of fields",
  ["encoder.go: Encode","sections.go: valid methods"])
p("Data delivered together with the end of input is not lost",
  "Decode gives the same result whether the reader reports io.EOF together with its last bytes or in a read of its own.",
  "all inputs, all readers",
  "needs a reader of the rarer kind together with input that makes the line joiner look ahead at that moment",
  ["unfolder.go: unfolder.Read"])
p("UTC times of day round-trip",
  "Every whole-second UTC time of day, as Decode represents it (on the first day of year 0), decodes back to itself when written as TIME.",
  "all 86400 times of day",
  "the formatting and the parsing are separate code with a layout each; a unit test checks a few times",
  ["types.go: Time.decode, Time.encode"])
p("Decode accepts exactly the texts that spell a calendar",
  "Decode accepts a text if and only if its lines are grammatical, its components are balanced, each known property line and component decodes, the required, single and combined properties are as they should be, and the calendar returned holds exactly the values of the known lines, in order; nothing else influences the result.",
  "all texts, all calendars",
  "an equivalence over all texts: tests can only sample acceptance and rejection",
  ["decoder.go: Decode","sections.go: every decode method","tokeniser.go"])
p("RFC 6868 escapes written by other programs are read",
  "A parameter text with the escapes ^n, ^^ and ^' is read as the text with a line feed, a caret and a double quote in their place.",
  "all parameter texts",
  "all sequences of escapes and other characters; the repository has no test with an escape in it",
  ["params.go: decode6868"])
p("The parameters and the value type of a property are those given",
  "In a property that Decode accepts, each known parameter that the line gives is set to its meaning, every other one is nil, and the value is of the type that the VALUE parameter names, or of the default type if there is none; exactly one of the alternative values is set.",
  "all property types with parameters, all parameter lists in any order and case",
  "every subset, order and spelling of up to eleven parameters",
  ["properties.go: decode methods","tokeniser.go"])
p("Unknown parameters are ignored",
  "Adding a parameter that a property does not know, such as an X- parameter, anywhere in its line changes neither whether the line is accepted nor what it is read as.",
  "all property types, all parameter lists, all unknown names and values",
  "all positions, names and values",
  ["properties.go: decode methods"])
p("Lines that fit are not folded",
  "If no content line of a calendar is longer than 75 octets, Encode writes the content lines as they are, without any fold.",
  "all calendars Encode accepts",
  "the folder keeps a running count across many small writes; a count that is off by one shows only for lines of one length",
  ["folder.go: folder.Write","encoder.go: Encode"])
p("Encode refuses exactly the calendars with an unacceptable value",
  "Encode returns a validity error if and only if some property of the calendar, in whatever component, has an unacceptable value or parameter, or an alarm is nil; then nothing has been written. Texts must have no control characters except TAB and LF, times must be set, a period must run forwards between times of one location, the numbers of a recurrence rule must be in range, choices must be among the listed words, and exactly one of alternative values must be set.",
  "all calendars, all writers",
  "the check visits every property of every component of trees of any size",
  ["sections.go: valid methods", "properties.go: valid methods", "types.go: valid methods", "params.go: valid methods", "encoder.go: Encode"])
p("One content line for each property, whatever it holds",
  "If Encode writes a calendar whose addresses, names of time zones and media types have no control characters, then what it wrote, unfolded, is exactly BEGIN:VCALENDAR, one line without control characters starting with the property's name for each property in order, BEGIN and END lines around each component, and END:VCALENDAR; so no text in any field can add, split or lose a line. Every calendar that Decode returned is such a calendar. The condition is needed: a media type with a carriage return is accepted and written and the result cannot be read, and an address with a line break adds a property.",
  "for all calendars made of values of the right types, and for all decoded calendars",
  "Line injection depends on any byte in any field of any property; tests try a few texts.",
  ["encoder.go:15-26", "sections.go", "properties.go", "params.go:355-401", "types.go"])
p("Each property is read by the grammar of RFC 5545",
  "A content line is accepted as a property if and only if each parameter that the property knows is given at most once and has a value of its form (listed words, quoted addresses, text, ...) and the value has the form of the type that the property has by default or by its VALUE parameter; the property returned then holds these values. Every parameter that RFC 5545 lists for a property is known.",
  "all property types, all parameter lists, all values",
  "some fifty properties, each with its own set of parameters and value types; a word missing from one of the tables shows only for the lines that use it",
  ["properties.go", "params.go", "types.go"])
p("Lists of dates and structured texts are read",
  "EXDATE, RDATE and FREEBUSY lines with a comma-separated list of values, and REQUEST-STATUS lines with their semicolons, as RFC 5545 defines them, are read.",
  "all lists of dates, times and periods, all request status values, in all calendars",
  "the tests have no such line, and one rejects the whole calendar",
  ["properties.go: ExceptionDateTime, RecurrenceDateTimes, FreeBusy, RequestStatus", "types.go: decode methods"])
p("Each field holds the lines with its name, in order, and no property of RFC 5545 is dropped",
  "A text decodes to a calendar if and only if it has the shape of one and, for each component, every field of its struct holds exactly the values of the lines or inner components with its name: the one such line of a single field, all of them in order for a repeated field, and the rules for presence are met. Each property that RFC 5545 allows in a component has a field.",
  "all texts, all calendars",
  "the decoder dispatches on some two hundred pairs of component and property; a swapped pair, a wrong name or a missing case shows only for texts using it",
  ["sections.go: decode methods", "decoder.go: Decode"])
p("Values out of the range of RFC 5545 are refused",
  "Decode refuses a calendar whose version is not 2.0, priorities over 9, percentages over 100, negative sequence numbers, states that the component does not have, and events that end before they start.",
  "all numbers, all calendars",
  "all integers and all combinations of values",
  ["properties.go", "sections.go", "types.go: Integer"])
p("Reading, writing and reading again changes nothing",
  "If Decode accepts a text, Encode writes the calendar and Decode reads what was written as the same calendar.",
  "all texts that Decode accepts",
  "all calendars that can be read",
  ["decoder.go: Decode", "encoder.go: Encode"])
p("Integers are read exactly as RFC 5545 writes them",
  "A text is read as an INTEGER if and only if it is an optional sign and decimal digits and the number fits 32 bits, and it is read as that number.",
  "all texts",
  "all texts and all numbers",
  ["types.go: Integer.decode"])
p("Dates are read exactly as RFC 5545 writes them",
  "A text is read as a DATE if and only if it is eight digits naming a day of the Gregorian calendar in the years 0 to 9999, and it is read as the start of that day in UTC.",
  "all texts",
  "all texts, leap years included",
  ["types.go: Date.decode"])
p("Binary values are read exactly as RFC 4648 writes them",
  "A text is read as BINARY if and only if the parameter ENCODING is BASE64 and the text, line breaks skipped, is padded base64; it is read as the bytes it stands for.",
  "all texts, all parameters",
  "all byte strings and paddings",
  ["types.go: Binary.decode"])
p("UTC offsets are read exactly as RFC 5545 writes them",
  "A text is read as a UTC-OFFSET if and only if it is a sign, two digits of hours, two of minutes and perhaps two of seconds within the ranges of RFC 5545 and not a negative zero; it is read as that number of seconds.",
  "all texts",
  "all texts",
  ["types.go: UTCOffset.decode"])
p("Date-times and times are read exactly as RFC 5545 writes them",
  "A text is read as a DATE-TIME or TIME if and only if it has the form of RFC 5545, and it is read as the moment it names in the zone of TZID, in UTC or in local time.",
  "all texts, all zones",
  "all texts and zones",
  ["types.go: DateTime.decode, Time.decode"])
p("Durations are read exactly as RFC 5545 writes them",
  "A text is read as a DURATION if and only if it has the form of RFC 5545.",
  "all texts",
  "all texts",
  ["types.go: Duration.decode"])
p("Periods are a date-time, a slash, and a date-time or a duration",
  "A text is read as a PERIOD if and only if it is a date-time, a slash, and a date-time or a duration without minus sign, and it is read as these.",
  "all texts, all zones",
  "all texts",
  ["types.go: Period.decode"])
p("Recurrence rules are read exactly as RFC 5545 writes them",
  "A text is read as a RECUR if and only if it is a rule of RFC 5545, whatever the order of its parts and the case of its letters, and it is read as that rule.",
  "all texts, all orders of parts",
  "all rules and all orders of up to fourteen parts",
  ["types.go: Recur.decode"])
p("Lists of texts are read item by item",
  "A text is read as a list of TEXT if and only if it is texts, escaped as RFC 5545 demands, with commas between them; it is read as these, in order.",
  "all texts",
  "all texts, all escapes",
  ["types.go: MText.decode"])
p("Numbers and pairs of numbers are read exactly as RFC 5545 writes them",
  "A text is read as a FLOAT, or as the pair of GEO, if and only if it is a decimal number, or two with a semicolon between them.",
  "all texts",
  "all texts",
  ["types.go: Float.decode, TFloat.decode"])
p("What is written for a value is determined and described for every value type",
  "For every value that validation accepts, with years 0 to 9999, texts in UTF-8 and offsets below a hundred hours, Encode writes exactly one text: the digits, date and clock of its location, escapes, units and rule parts that the description of its type demands (no leading zeros, no plus signs, rule parts that are set, in one order), and no other text fits the description.",
  "all values of all sixteen types, all locations and zones",
  "all numbers, instants, zones, byte strings, rules",
  ["types.go: encode methods"])
p("What is written for a value has the form of RFC 5545",
  "For every value that validation accepts, what Encode writes for it is a text of its RFC 5545 type.",
  "all values of all sixteen types",
  "all values",
  ["types.go: encode methods, UTCOffset.encode, Float.valid"])
p("Exactly one text is written for a calendar, and it is described line by line",
  "For every calendar that Encode writes, the unfolded output is the one text described as follows: BEGIN:VCALENDAR, then for every component its properties and components in the order of the fields of the Go types and of the slices, one line for each, and END. A property line is its name, a semicolon, name and value for each parameter that is set, in the order of the fields (texts between quotes where they hold a colon, semicolon, comma or where the code always quotes, lists separated by commas, registered words in capitals), a VALUE parameter exactly if the value is not of the default type, ENCODING=BASE64 for binary values, TZID for times in a zone, a colon and the text of the value (C77).",
  "all calendars of the Go types whose free texts hold no control characters, whose years have four digits and whose texts are in UTF-8; all calendars that Decode returns for texts in UTF-8",
  "unbounded components, properties, parameters, values and nesting",
  ["encoder.go: Encode", "sections.go: encode methods", "properties.go: encode methods", "params.go: encode methods", "types.go: encode methods, aencode"])
p("Lines folded with a tab are read",
  "RFC 5545 section 3.1 lets a line be folded with CR LF and either a space or a tab. A calendar folded with tabs is read as if it were not folded.",
  "all calendars, all places of a fold, all ways the reader cuts the input",
  "unbounded input and all ways of cutting it into reads",
  ["unfolder.go: Read", "tokeniser.go: parseName", "decoder.go: Decode"])
p("Every line up to the end of the calendar begins with a name and ends with CR LF",
  "Up to the end of the calendar, blank lines, lines that begin with a space, a tab, a byte order mark or anything else that is not a character of a name, and line feeds without a carriage return are refused: if Decode returns a calendar for a text that has one of these, the text before it is already a complete calendar, and gives the same value.",
  "all texts before and after the place, all calendars",
  "unbounded text before and after",
  ["tokeniser.go: parseName, parseValue", "decoder.go: Decode"])
p("Reading on demand gives what reading everything first gives",
  "Decode takes bytes from the reader only when it needs them. What it returns is what it would return for the whole text given at once, and the error with which the reader ends makes no difference.",
  "all texts, all ways of cutting them into reads, all buffer sizes, all errors at the end",
  "the interleaving of reading and parsing is unbounded",
  ["decoder.go: Decode", "tokeniser.go: newTokeniser", "unfolder.go: Read", "sections.go: decode of every section"])
p("A calendar is returned as soon as it is there",
  "When the reader has given a complete calendar, Decode returns it, whatever the reader does afterwards: give more text, fail, or never end. And every calendar that Decode returns is spelt by what was read.",
  "all calendars, all texts after them, all readers",
  "all behaviours of a reader after the calendar, including those that never end",
  ["decoder.go: Decode", "unfolder.go: Read"])
p("Decode leaves what follows the calendar in the reader",
  "If the reader gives exactly a calendar, and then another, two calls of Decode give the two calendars.",
  "all calendars, all readers",
  "unbounded input, all ways of cutting it",
  ["decoder.go: Decode", "unfolder.go: Read"])
p("A reader that fails early gives no calendar",
  "If the reader fails, with any error, before it has given the whole of a calendar, Decode does not return a calendar.",
  "all calendars, all places to stop, all errors, all ways of cutting the text into reads",
  "all cuts of all calendars",
  ["decoder.go: Decode", "unfolder.go: Read", "sections.go: decode of every section"])
p("A calendar that is cut off gives ErrUnexpectedEOF",
  "If a valid calendar is cut off between two of its lines, Decode returns io.ErrUnexpectedEOF.",
  "all calendars, all places between two lines, at any depth",
  "every cut of every calendar; the result depends on where in the nesting the cut is",
  ["decoder.go: Decode", "sections.go: decode of every section, decodeDummy", "sections_alarm.go: Alarm.decode"])
p("Decode reports the first fault, and exactly that one",
  "The error of Decode is the one of the first thing in the text that is wrong: a line that is not a content line, a value or parameter that cannot be read, a property that is there twice, an END of another name, a component that lacks a property or breaks a rule, an alarm without ACTION, or the end of the text. Every text spells exactly one calendar or has exactly one such result.",
  "all texts, all errors, panics included",
  "an equivalence over all texts and all combinations of faults",
  ["decoder.go: Decode", "tokeniser.go", "sections.go: decode of every section, decodeDummy", "sections_alarm.go: Alarm.decode"])
p("Decode fails as soon as it can",
  "If some whole lines make Decode fail, with an error other than ErrUnexpectedEOF, then every text that begins with these lines makes it fail with the same error.",
  "all texts that end with a line end, all continuations, all errors",
  "all continuations of all texts",
  ["decoder.go: Decode", "tokeniser.go", "sections.go: decode of every section"])
p("The error for a bad line names the part that is wrong",
  "A line that is not a content line gives the error for what is wrong first in it: its start, its name, a parameter name, a quoted or plain parameter value, or its value. If Decode returns one of these errors, the text has such a line after lines that are all right.",
  "all texts, all errors",
  "an equivalence over all byte strings",
  ["tokeniser.go"])
p("The error tells what is wrong",
  "ErrInvalidCalendar is returned exactly if the first line does not begin a calendar. An error about a value or a parameter is returned only if a property line of the text cannot be read because of it, and is one of the errors of the types that this property's value may have, or of parameters; these errors are never used for the structure of the text.",
  "all texts, all properties, all errors",
  "all texts that lead to an error",
  ["decoder.go: Decode", "types.go: decode of every type", "params.go", "properties.go"])
p("ErrUnexpectedEOF means that the text has ended",
  "If Decode returns ErrUnexpectedEOF, the text ended before the calendar did.",
  "all texts",
  "all texts that lead to this error",
  ["sections_alarm.go: psuedoTokeniser, Alarm.decode", "sections.go: decodeDummy"])
p("The order of different properties and components does not matter",
  "If the lines and components of a calendar are put in another order, at any depth, so that those with the same name stay in the order they had, Decode returns the same calendar as before, or fails as before. In alarms too.",
  "all texts with the shape of a calendar, all such reorderings",
  "the number of orders grows with the factorial of the number of lines",
  ["sections.go: decode methods", "sections_alarm.go: Alarm.decode"])
p("A moment in a time zone that the calendar defines is read by that definition",
  "If a date-time names with TZID a zone for which the calendar has a VTIMEZONE, it is read as the moment that the rules of that VTIMEZONE give.",
  "all calendars, all zones and definitions of zones",
  "all zones, all rules",
  ["types.go: DateTime.decode, Period.decode", "sections.go: Calendar.decode, Timezone.decode"])
p("Zones that are named in the output are defined in the output",
  "If Encode writes a TZID parameter it also writes a VTIMEZONE with that name, as RFC 5545 section 3.2.19 demands.",
  "all calendars, all zones",
  "all calendars and zones",
  ["types.go: DateTime.aencode, writeTimezone", "sections.go: Calendar.encode"])
p("Stamps are in UTC",
  "DTSTAMP, CREATED, COMPLETED, ACKNOWLEDGED and LAST-TRIGGERED are only read, and only written, in UTC.",
  "all moments, all parameters",
  "all texts and moments",
  ["properties.go: DateTimeStamp, Created, Completed, Acknowledged, LastTriggered", "types.go: DateTime.decode, DateTime.valid"])
p("Rules between the values of different lines are checked",
  "Decode refuses calendars whose values do not fit together: an end before its start, or a DTEND, DUE, RECURRENCE-ID or UNTIL of another type than DTSTART, or two components with the same UID and RECURRENCE-ID.",
  "all calendars",
  "all combinations of values",
  ["sections.go: decode methods"])
p("Different calendars are written differently",
  "If Encode writes the same bytes for two calendars, they are the same calendar.",
  "all pairs of calendars",
  "all pairs",
  ["encoder.go: Encode", "sections.go: encode methods"])
p("The error message is about the first thing that is wrong",
  "If Decode fails, its error text leads from the calendar to the first thing that is wrong, and says what is wrong with it.",
  "all texts",
  "all combinations of faults at all places",
  ["decoder.go: Decode", "sections.go: decode methods", "sections_alarm.go: Alarm.decode", "properties.go: decode methods", "params.go: decode methods", "types.go: decode methods"])
p("errors.Is tells errors apart",
  "If Decode fails, errors.Is matches exactly one of the exported errors of the package (or an error of the standard library).",
  "all texts",
  "all causes of failure",
  ["decoder.go: Decode", "sections.go: errors", "types.go: errors"])
p("Error messages name the way to the fault",
  "The names in an error text of Decode start at Calendar, and each is a field of the struct named before it.",
  "all texts",
  "all places of faults",
  ["sections.go: decode methods", "sections_alarm.go: Alarm.decode", "properties.go: decode methods"])
p("Encode says what it refuses",
  "If Encode refuses a calendar, its error is that of the first value in the order of the fields that is not acceptable, and its text leads to it and says that it was validated.",
  "all calendars, all writers",
  "all combinations of wrong values at all places",
  ["encoder.go: Encode", "sections.go: valid methods", "sections_alarm.go: Alarm.valid", "properties.go: valid methods", "params.go: valid methods", "types.go: valid methods"])
p("What Decode parses comes from the reader",
  "The bytes that Decode parses are bytes of the reader in their order: none is made up, moved or repeated, and none but those of folds is left out.",
  "all readers, including those that return no bytes, data with an error, or fail; all buffer sizes",
  "all splits of all inputs over reads and buffers; the line joiner copies inside the caller's buffer and can leave old bytes behind",
  ["unfolder.go: unfolder.Read", "decoder.go: Decode"])
p("The same text gives the same calendar on every machine",
  "Whether Decode reads a text, the error it returns if not, and the calendar it returns do not depend on the local time zone of the machine or on its time zone database: the fields, texts and numbers are the same, and each moment is the same reading of calendar and clock at the same place. Calendars with moments of UTC only are the same to the second and are written as the same bytes.",
  "all texts; all pairs of machines with any local time zones, zone databases and zone rules",
  "a test runs on one machine with one local zone and one database; the claim compares two machines on all texts",
  ["types.go: DateTime.decode", "types.go: Time.decode", "types.go: Recur.decode", "decoder.go: Decode", "encoder.go: Encode"])
p("A decoded calendar is no larger than its text",
  "The components, properties, parameters, list members and bytes of text and binary data in the calendar that Decode returns are together no more than the bytes of the input, so that memory is bounded by the size of what is read.",
  "all texts, all readers, all buffer sizes",
  "a bound on all inputs, including malformed escapes that no test lists; the decoder copies and rewrites texts with several different escape rules",
  ["decoder.go: Decode", "types.go: Text.decode", "types.go: MText.decode", "types.go: Recur.decode", "params.go: decode6868"])
p("Components are read by themselves",
  "Whether a component of a calendar is read, and as what, does not depend on the other components: a calendar is read exactly if each of its components is read alone, its components are those of its parts in order, the components of two calendars can be put into one, and one can be taken out without changing the others.",
  "all texts with the shape of a calendar, all ways to divide their content, all pairs of calendars",
  "a relation between the results on unboundedly many different texts",
  ["decoder.go: Decode", "sections.go: Calendar.decode"])
p("Lines are folded as late as possible",
  "Each content line that Encode writes is cut only where the next character does not fit into the 75 octets of its line. There is only one such way to fold. A line that is continued has at least 72 octets, folding costs three octets each time, and there is at most one fold per 71 octets of content.",
  "all calendars, lines of any length, characters of one to four octets at any place",
  "whether a fold comes too early depends on the widths of all the characters before it; tests look at a few lengths",
  ["folder.go: folder.Write", "encoder.go: Encode"])
p("No octet of a letter is taken for a delimiter",
  "Reading character by character, as the parsing library does, and reading octet by octet give the same lines, parameters and values: no octet of a character outside ASCII, and no octet that is not valid UTF-8, is taken for one of the characters that the format gives a meaning to.",
  "all inputs, valid UTF-8 or not",
  "there are infinitely many ways to place letters and broken sequences around delimiters",
  ["tokeniser.go: parser.parseName", "tokeniser.go: parser.parseValue", "types.go: decodeText", "types.go: Duration.decode", "types.go: UTCOffset.decode", "params.go: decode6868", "params.go: encode6868"])
p("Decode needs a bounded stack",
  "The number of calls that Decode has pending at the same time, and with it the stack it needs, is bounded whatever the input is.",
  "all inputs, of any depth of nesting",
  "a test nests to one depth; the depth that exhausts a stack depends on the machine, and no test shows that there is no deeper text",
  ["sections.go: decodeDummy", "decoder.go: Decode"])
p("UTF-8 stays UTF-8",
  "If the text given to Decode is UTF-8, every text of the calendar it returns is UTF-8, those of parameters included: nothing is cut inside a character. What Encode writes for a calendar with UTF-8 parameters is UTF-8, every write, every line and the whole.",
  "all texts and all calendars",
  "tests have a few letters at a few places",
  ["decoder.go: Decode", "encoder.go: Encode", "types.go: Text.decode", "types.go: Text.encode", "params.go: decode6868", "params.go: encode6868", "folder.go: folder.Write"])
p("Only UTF-8 is read and written",
  "Decode refuses a text that is not UTF-8, and Encode writes only UTF-8 or returns an error.",
  "all texts and all calendars",
  "tests use well formed texts",
  ["decoder.go: Decode", "encoder.go: Encode", "types.go: Text.encode", "params.go: ParamLanguage.encode"])
p("What was written once is written again the same",
  "If Decode accepts a text and Encode writes the calendar it returned, then decoding what was written and encoding that calendar writes the same octets again, to any writer: after one round nothing changes any more.",
  "all texts that Decode accepts (in UTF-8 or not), all writers, any number of rounds",
  "tests compare one round on a few calendars, and only of calendars that lose nothing",
  ["decoder.go: Decode", "encoder.go: Encode", "types.go: DateTime.decode", "types.go: DateTime.encode", "types.go: Text.encode", "params.go: ParamRSVP.encode"])
p("Encode does not panic",
  "Encode, given any calendar pointer and any writer, returns: it does not panic, whatever the caller put into the calendar.",
  "all calendars a caller can build, with nil pointers wherever Go allows them (the calendar itself, alarms that are a nil interface or a nil pointer of any of the alarm types), and all writers",
  "tests encode calendars built by hand from literals; none holds a nil pointer inside an interface",
  ["encoder.go: Encode", "sections_alarm.go: Alarm.valid", "sections_alarm.go: Alarm.encode", "sections.go: AlarmAudio.valid"])
p("The type of an alarm is its action",
  "Type, called on an alarm that Decode returned, gives the value of an ACTION line of the text, letter by letter, and it is the action that Encode writes for the alarm.",
  "all texts that Decode accepts, all alarms anywhere in the calendar",
  "no test calls Type, and the words are repeated in three switches",
  ["sections_alarm.go: AlarmAudio.Type", "sections_alarm.go: AlarmDisplay.Type", "sections_alarm.go: AlarmEmail.Type", "sections_alarm.go: AlarmURI.Type", "sections_alarm.go: AlarmNone.Type", "sections_alarm.go: Alarm.decode", "sections_alarm.go: Alarm.encode"])
p("Each line adds its own value and nothing else",
  "A property line anywhere in a calendar, in any component or alarm at any depth, is read exactly if it can be read by itself and the calendar without it can be read; the result is the calendar without it with the value of the line added to its field, after the values of the lines with that name before it. No other value changes.",
  "all calendars, all places in them, all lines whose name belongs to a property of the component there and whose presence or absence does not touch the rules of that component (required, at most once, together, not together)",
  "a test looks at one calendar at a time; this relates the results of two Decode calls on all pairs of texts that differ in a line",
  ["decoder.go: Decode", "sections.go: Event.decode", "sections_alarm.go: Alarm.decode", "properties.go"])
p("Encode writes value by value",
  "Each property, component and alarm has a text of its own, of whole lines, that does not depend on where it stands: the output of Encode for a calendar with one more value is the output for the calendar without it, with the text of the value put between two of its lines. A value that can be written in one calendar can be written in any.",
  "all calendars, all values, all fields at any depth",
  "a test looks at one calendar at a time; folding counts bytes across writes, so that what was written before could shift what follows",
  ["encoder.go: Encode", "folder.go: folder.Write", "sections.go: Event.encode", "sections_alarm.go: Alarm.encode"])
p("The spelling of a line does not matter",
  "Two texts that differ in the order of the parameters of their lines (those with different names), in quotes around parameter values that need none, and in the letter case of names, are read as the same calendar, or neither is read.",
  "all texts, lines at any depth, alarms included; parameters that RFC 5545 wants in quotes (ALTREP, DELEGATED-FROM, DELEGATED-TO, DIR, MEMBER, SENT-BY, URI, ID, AGENT-ID) keep them",
  "tests have one spelling for each calendar; this relates the results of two Decode calls on all pairs of texts",
  ["tokeniser.go", "params.go", "properties.go", "sections.go"])
p("A text may be folded anywhere",
  "A text in which CR LF SP is put at any places, also within names and within letters of several octets, any number of times, is read like the text without, if it comes in one read, or in reads that do not end within a fold.",
  "all texts without folds and all ways to cut them into pieces; the folded text does not end like a fold (then Decode does not return, see C10)",
  "tests fold in a few places",
  ["unfolder.go", "decoder.go: Decode"])
p("Success means that the writer has taken everything",
  "If Encode returns nil, the writer has reported that it took every byte of the calendar, whatever writer it is.",
  "all writers, as state machines that return any count and any error for each call, and all calendars",
  "tests write to a buffer that takes everything",
  ["folder.go: folder.Write", "encoder.go: Encode"])
p("The code is what its descriptions say",
  "What is read and written for every parameter, property and component - its name, its type, the values and parameters it may have, how often a field may be there, and the rules between fields - is what the scripts get from the descriptions (names.gen, params.gen, properties.gen, sections.gen) in the repository, so that the code can be generated again.",
  "the whole descriptions in the repository, and, for properties, all descriptions and all tables of names (without backslashes, spaces and empty lines)",
  "the scripts are not run by the tests, and what they would do with another description is a question about all texts",
  ["names.sh", "genParams.sh", "genProperties.sh", "genSections.sh", "names.gen", "params.gen", "properties.gen", "sections.gen"])
p("Every rule of a description is in the code",
  "Every rule of presence that sections.gen has for a component is checked by the code that genSections.sh writes for it.",
  "all descriptions made of words, with any number of components, fields and rules, and all tables of names",
  "a test of the code has the rules of one description; this is about all of them",
  ["genSections.sh"])
p("A line that cannot be read makes Decode fail with its error, wherever it stands",
  "If a calendar can be read, and a line with a value or a parameter that cannot be read is put into it at any place where its property is read - in the calendar, in a component, in a component of a component or in an alarm - Decode fails, and with what is wrong with that line, not with anything that comes after it.",
  "all calendars that can be read, all places in them at any depth, all properties and all lines of them that cannot be read",
  "tests have one broken line in one place of one calendar; that the error is that of the line, in whichever nested component and whatever follows, is a claim about all places and all calendars",
  ["sections.go", "properties.go", "types.go"])
p("Decode depends on its reader only through what the reader returns",
  "Whatever an io.Reader does - whether it has a state, looks at the size of the buffer, returns little or much, or fails in the middle - Decode does with it what it does with the list of the pieces that it returned, independent of anything that the reader could return later; the reader is left as it is after those pieces; it is called at most once for each byte that it gives and once more; the calendar is written in those pieces; and for a text without folds neither the pieces nor what the reader makes them depend on matter at all, nor can Decode go on for ever.",
  "all readers, as functions with any type of state, that return no more than there is room for; all buffer sizes",
  "tests have a few readers over a fixed text (strings.Reader, one byte at a time); an io.Reader is any code at all, with any state",
  ["decoder.go", "unfolder.go"])
p("Decode handles no line more than twice",
  "No input makes Decode go over its lines again and again: each line is handed to the decoding functions at most twice, at most once if no alarm is begun, and is read as a property at most once; so the tokens and bytes looked at are no more than three times those of the input, however deep components are nested and whatever is skipped.",
  "all inputs, and any cost for each line",
  "that no input is slow is a claim about all inputs; tests and benchmarks time a few of them",
  ["sections.go", "sections_alarm.go", "decoder.go", "tokeniser.go"])
p("A writer gets no empty calls and no call longer than a line",
  "Whatever the writer does with its calls, and whatever the calendar is, Encode makes no Write call without data, so there are no more calls than bytes; and if the texts that come from outside (addresses, names of zones, media types) have no control characters, each call is a fold or a part of one line: at most 75 bytes, and after them at most a line break.",
  "all writers and all calendars; for the length, all calendars with values of the Go types and without control characters in what comes from outside",
  "a writer that treats an empty write as the end, or that has room for a line only, is met by no test; that no calendar leads to such a call is a claim about all of them",
  ["folder.go:18-66", "encoder.go", "sections.go", "properties.go"])
p("What is written is in proportion to what is held",
  "Encode writes at most 251 bytes for each thing the calendar holds (components, properties, parameters, members of lists, bytes of texts and of data, and of what the standard library writes), whatever must be escaped and folded; so a text that is read and written again grows by no more than a constant factor, and no short input makes a server write without bound.",
  "all calendars with numbers that fit into 64 bits, and all texts",
  "that no value is written at a length out of proportion is a claim about all values; tests measure a few",
  ["types.go", "params.go", "properties.go", "sections.go", "folder.go"])
p("Moments are in the order of their texts",
  "A date that is read is after another exactly if its text comes later in the order of the bytes, and two dates are equal only if their texts are; the same holds of date-times in UTC without a fraction. So texts of dates and of UTC moments can be sorted, indexed and compared without being read. It does not hold of date-times in a zone: where clocks are put forward from 01:00 to 02:00, the text 01:30, which no clock shows, is read as half an hour after 02:00.",
  "all pairs of texts that are read as dates, and all pairs of texts of 16 bytes that end in Z and are read as date-times, with any other parameters; one zone for the case that fails",
  "that no pair of days is out of order across months, leap years and centuries is a claim about all pairs; tests compare a few days",
  ["types.go:123-133", "types.go:158-189"])
p("Media types are accepted, and nothing else is",
  "An FMTTYPE parameter of an attachment is accepted by Decode and by Encode exactly if its text is a media type as RFC 4288 defines it, and a calendar with one can be written.",
  "all texts of the parameter, in quotes or not, every attachment with a URI that is read; every calendar with such an attachment, and every writer",
  "a test tries a few media types; that nothing else gets through, and that each media type does, is about all texts",
  ["params.go:355-401", "params.go:1238-1240"])
p("A date-time in a zone is read as a moment when clocks there show it",
  "A date-time without Z that is read is a moment at which the clocks of its zone show what the text says, if there is such a moment; otherwise it is off by an offset the zone has within a day of it. A moment that is written and read again has the same reading, zone and text, also where clocks are put back. Of two moments with the same reading, one is not read back as it was.",
  "all texts that are read as date-times, all zones with offsets of less than a day that say until when they hold, all moments within two days of which the zone has no more than two offsets; all moments in the years that can be written",
  "the transitions of zones are the cases that a test has to happen upon, and they are different in each zone and year",
  ["types.go:158-210"])
p("What was read can be changed and kept",
  "A calendar that was read, and then changed field by field (values removed, reordered, replaced or added, at any depth), or put together from components of calendars that were read, is written by Encode, and Decode returns exactly it from what was written. The new values have to be such as survive by themselves, no field may hold more or fewer values than RFC 5545 allows, and a field that takes part in a rule between fields may not be set or emptied.",
  "all calendars that come of any number of such steps from any number of calendars that were read from UTF-8 and have nothing that is lost (see C66), all buffer sizes, all ways to cut the text into reads if no line is folded",
  "programs read, change and write calendars again and again; no test has all sequences of changes",
  ["decoder.go:16-37", "encoder.go:15-25", "sections.go:1-4198", "sections_alarm.go:82-109"])
p("A moment in any location is the same moment when it is read back",
  "A user fills in DateTimeStart with the time.Time they have, in whatever location it is, and expects that Encode followed by Decode gives back the same moment, or that Encode refuses it.",
  "for every moment in the years 0 to 9999 and every location, whatever its name, its offsets and the zones known to the system that reads",
  "A test takes UTC or one zone of the database. Whether the moment survives depends on the name of the location and on what another system knows by that name: the empty name that time.Parse gives to numeric offsets, and names given to time.FixedZone, are not names of the database.",
  ["types.go:158-210", "types.go:1568-1575"])
p("What is read of a calendar that a program has put together",
  "A program puts a calendar together from whatever values the Go types allow, and Encode writes it. What Decode returns from the text is that calendar with exactly these changes: fractions of a second are gone and zones are loaded anew; a date is midnight UTC of the day that the calendar shows at its location; a period with an end has no duration; a rule with a count has no last moment; octets that are not UTF-8 are U+FFFD; parameters that are empty or false are not set; numbers of choices that do not exist are the unknown choice; last-modified times are not set. Values that survive by themselves are not changed at all.",
  "all calendars that Encode accepts and whose values, so changed, survive being written; all values in all fields of all components, all buffer sizes",
  "Go types hold values that iCalendar has no text for, in any combination; a test has a few of them. That nothing but these is changed is a statement about all values.",
  ["types.go:123-146", "types.go:186-203", "types.go:539-548", "types.go:973-1161", "params.go:1-1274", "sections.go:1-4198"])
p("One value that cannot be read makes the whole calendar unreadable",
  "If one property of a calendar, in any component at any depth, alarms included, is written as a line of which Decode can make no value, then Encode writes the calendar and gives no error, and Decode returns no calendar from the text: the value is not left out, and the rest of the calendar cannot be had. If on the other hand each property can be read by itself, and the rules between fields that Decode has are met, then the calendar is read, with in each place the property that is read by itself (last-modified times aside).",
  "all calendars that Encode accepts and of which every property is written as one line; all properties but LAST-MODIFIED, in all components; all buffer sizes",
  "A test has one bad value at one place; the claim is about all values, all places and all calendars around them.",
  ["decoder.go:1-37", "encoder.go:1-30", "sections.go:1-4221", "sections_alarm.go:1-141", "properties.go:1-4375"])

open("/verif/properties.jsonl","w").write("".join(json.dumps(x)+"\n" for x in P))
print(len(P))
