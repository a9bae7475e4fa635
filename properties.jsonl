{"id": "C01", "title": "Output lines are at most 75 octets", "statement": "For every calendar Encode accepts whose contents have no bare CR or LF, every physical line that Encode hands to the writer (text between CRLFs) is at most 75 octets long.", "quantifier": "all calendars, all contents of every length, all line positions", "why_tests_cant": "the fold point depends on the exact byte count modulo multi-byte runes and on every earlier write; tests try a few lengths", "anchors": ["folder.go: folder.Write", "encoder.go: Encode"]}
{"id": "C02", "title": "Folding is reversible", "statement": "Removing every CRLF-space from what Encode writes gives back exactly the logical content lines the calendar stands for; folding adds nothing else, removes nothing and reorders nothing.", "quantifier": "all calendars and all byte contents", "why_tests_cant": "a lost or duplicated byte can occur only at particular alignments of write boundaries and fold points", "anchors": ["folder.go: folder.Write, folder.WriteString"]}
{"id": "C03", "title": "Folding never splits a character", "statement": "When the text being written is valid UTF-8, no fold is inserted inside the encoding of a character: every physical line Encode writes is itself valid UTF-8.", "quantifier": "all valid UTF-8 contents", "why_tests_cant": "needs every position of every 1..4 byte character relative to the 75 octet limit", "anchors": ["folder.go: folder.Write"]}
{"id": "C04", "title": "Folding does not depend on internal write boundaries", "statement": "The bytes Encode produces depend only on the concatenation of the pieces it writes internally, not on how they are cut (cuts at character boundaries).", "quantifier": "all ways of cutting all contents into pieces", "why_tests_cant": "exponentially many cuts", "anchors": ["folder.go: folder.Write"]}
{"id": "C05", "title": "Writer failures are reported and stop output", "statement": "If the writer fails at any call, Encode returns that (first) error, makes no further Write call after it, and what was passed to the writer is a prefix of the full output. Encode returns nil only if every Write succeeded and the full output was passed.", "quantifier": "all writers (all failure points and short writes), all calendars", "why_tests_cant": "one failure point per write call per calendar", "anchors": ["folder.go: folder.Write", "encoder.go: Encode"]}
{"id": "C06", "title": "Rejected calendars write nothing", "statement": "If Encode rejects the calendar as invalid it has not called the writer at all.", "quantifier": "all calendars, all writers", "why_tests_cant": "every way of being invalid at every nesting depth", "anchors": ["encoder.go: Encode", "sections.go: valid methods"]}
{"id": "C07", "title": "Decoding does not depend on how the reader chunks its data", "statement": "Decode gives the same result for the same bytes however the io.Reader splits them over Read calls.", "quantifier": "all inputs, all splits into reads, all request sizes", "why_tests_cant": "exponentially many splits; folds interact with read boundaries", "anchors": ["unfolder.go: unfolder.Read", "decoder.go: Decode"]}
{"id": "C08", "title": "Fold-free input passes through unchanged", "statement": "Input with no CRLF-space anywhere reaches the content-line parser byte for byte, whatever the read boundaries and request sizes of two bytes or more, from a reader that reports its end in a read of its own.", "quantifier": "all fold-free inputs, all splits into reads, all request sizes >= 2", "why_tests_cant": "the look-ahead buffer carries 0, 1 or 2 bytes between reads: every interleaving matters", "anchors": ["unfolder.go: unfolder.Read"]}
{"id": "C09", "title": "Folded lines are joined when input arrives in one read", "statement": "When the reader delivers the whole input in one read and the input ends in a complete line that does not end in a space, Decode sees exactly the input with every CRLF-space removed.", "quantifier": "all inputs with any number of folds at any positions", "why_tests_cant": "in-place removal with overlapping copies depends on every fold position", "anchors": ["unfolder.go: unfolder.Read"]}
{"id": "C10", "title": "Decode returns for every finite input", "statement": "Decode terminates on every finite input.", "quantifier": "all inputs and all readers that end", "why_tests_cant": "non-termination cannot be observed by a test, and needs the right chunk ending", "anchors": ["unfolder.go: unfolder.Read", "tokeniser.go", "sections.go: decode methods"]}
{"id": "C11", "title": "Decode never panics", "statement": "Decode returns a calendar or an error, and never panics, on every input.", "quantifier": "all byte strings", "why_tests_cant": "fuzzing samples inputs; slices and indexes must be in range for all", "anchors": ["types.go: Recur.decode", "sections_alarm.go: Alarm.decode", "decoder.go: Decode"]}
{"id": "C12", "title": "Content lines: everything accepted is grammatical", "statement": "Every content line the parser yields is NAME *(;PARAM=VALUE*(,VALUE)) : VALUE, ended by CRLF or the end of input, over the permitted characters (a parameter name may be empty), and its tokens spell exactly the bytes that were read.", "quantifier": "all byte strings", "why_tests_cant": "infinite language", "anchors": ["tokeniser.go: parseName, parseParamName, parseParamValue, parseValue, newTokeniser"]}
{"id": "C13", "title": "Content lines: everything grammatical is accepted", "statement": "Every grammatical content line, followed by anything, is parsed to exactly its name, parameters (quoted or not) and value, leaving the rest of the input for the next line.", "quantifier": "all grammatical content lines and all continuations", "why_tests_cant": "infinite language", "anchors": ["tokeniser.go: parseName, parseParamName, parseParamValue, parseValue, newTokeniser"]}
{"id": "C14", "title": "Text values round-trip", "statement": "Any text of valid UTF-8 that Encode accepts (backslashes, commas, semicolons and newlines included) decodes back to itself.", "quantifier": "all valid UTF-8 strings that pass validation", "why_tests_cant": "escaping must be injective over all strings", "anchors": ["types.go: Text.encode, Text.decode, decodeText"]}
{"id": "C15", "title": "Text values cannot inject lines", "statement": "The encoding of any accepted text has no CR, LF or other control character, and no unescaped comma or semicolon, so no text can start a new content line or list element.", "quantifier": "all strings that pass validation", "why_tests_cant": "infinite set of adversarial strings", "anchors": ["types.go: Text.encode, Text.valid"]}
{"id": "C16", "title": "Text list values round-trip", "statement": "Every non-empty list of valid UTF-8 texts that Encode accepts decodes back to the same list.", "quantifier": "all non-empty lists of strings", "why_tests_cant": "element separators interact with escapes at every position", "anchors": ["types.go: MText.encode, MText.decode"]}
{"id": "C17", "title": "Text decoding is exact about delimiters", "statement": "Text decoding fails exactly when the value has an unescaped semicolon or an unescaped comma; otherwise it returns the text with every known escape replaced and unknown escapes kept.", "quantifier": "all byte strings", "why_tests_cant": "infinite language", "anchors": ["types.go: Text.decode, decodeText"]}
{"id": "C18", "title": "Integer values round-trip and are range checked", "statement": "Every 32-bit signed integer decodes back to itself after encoding, and decoding never yields a value outside that range.", "quantifier": "all integers, all byte strings", "why_tests_cant": "4 billion values and an infinite language of inputs", "anchors": ["types.go: Integer.decode, Integer.encode"]}
{"id": "C19", "title": "Boolean values round-trip and nothing else is accepted", "statement": "TRUE and FALSE round-trip, and decoding accepts exactly twelve spellings (1, t, T, true, True, TRUE and 0, f, F, false, False, FALSE), each with its meaning.", "quantifier": "all byte strings", "why_tests_cant": "infinite set of inputs", "anchors": ["types.go: Boolean.decode, Boolean.encode"]}
{"id": "C20", "title": "Durations round-trip", "statement": "Every duration that Encode accepts and that does not mix weeks with other units decodes back to itself.", "quantifier": "all combinations of sign, weeks, days, hours, minutes, seconds over all machine integers", "why_tests_cant": "six 64-bit fields", "anchors": ["types.go: Duration.decode, Duration.encode, Duration.valid, itoa"]}
{"id": "C21", "title": "Every accepted duration keeps its fields", "statement": "Every duration that Encode accepts decodes back to itself.", "quantifier": "all durations that pass validation", "why_tests_cant": "six 64-bit fields", "anchors": ["types.go: Duration.encode, Duration.valid"]}
{"id": "C22", "title": "Duration decoding accepts every RFC 5545 duration", "statement": "Every dur-value of the RFC 5545 grammar whose numbers fit a machine word is accepted and gives the named fields.", "quantifier": "all strings of the grammar", "why_tests_cant": "infinite language", "anchors": ["types.go: Duration.decode"]}
{"id": "C23", "title": "UTC offsets round-trip", "statement": "Every UTC offset strictly between -100 and +100 hours decodes back to itself; Decode never yields one outside that range.", "quantifier": "all offsets in range, all byte strings", "why_tests_cant": "720 000 values and an infinite language", "anchors": ["types.go: UTCOffset.decode, UTCOffset.encode"]}
{"id": "C24", "title": "Every accepted UTC offset keeps its value", "statement": "Every UTC offset that Encode accepts decodes back to itself.", "quantifier": "all machine integers", "why_tests_cant": "64-bit range", "anchors": ["types.go: UTCOffset.encode, UTCOffset.valid"]}
{"id": "C25", "title": "Binary values round-trip", "statement": "Every byte string round-trips through the base64 encoding of binary values.", "quantifier": "all byte strings of every length", "why_tests_cant": "padding depends on length modulo three and every byte value", "anchors": ["types.go: Binary.encode, Binary.decode"]}
{"id": "C26", "title": "UTC dates and date-times round-trip", "statement": "Every whole-second UTC instant in the years 0000 to 9999 other than the zero time decodes back to itself when written as DATE-TIME, and every such UTC midnight as DATE.", "quantifier": "all 316 billion instants", "why_tests_cant": "leap years, month lengths and century rules across the whole range", "anchors": ["types.go: Date, DateTime encode/decode"]}
{"id": "C27", "title": "Only real calendar dates are accepted", "statement": "A decoded DATE or DATE-TIME always names a day that exists in the Gregorian calendar, in years 0 to 9999.", "quantifier": "all byte strings", "why_tests_cant": "infinite language", "anchors": ["types.go: Date.decode, DateTime.decode"]}
{"id": "C28", "title": "Zoned and local date-times round-trip", "statement": "A whole-second time in a zone that its own name loads, and whose wall-clock reading is unambiguous there, decodes back to the same instant in the same zone.", "quantifier": "all instants, all zones", "why_tests_cant": "zone rules are arbitrary", "anchors": ["types.go: DateTime.decode, DateTime.encode, writeTimezone"]}
{"id": "C29", "title": "Periods round-trip", "statement": "Every UTC period that Encode accepts (explicit end, or duration not mixing weeks) with whole seconds decodes back to itself.", "quantifier": "all start and end instants and durations", "why_tests_cant": "product of two infinite families", "anchors": ["types.go: Period.encode, Period.decode, Period.valid"]}
{"id": "C30", "title": "A decoded period can be encoded", "statement": "Every period that Decode returns with its end after its start is accepted by Encode.", "quantifier": "all period texts, all zones", "why_tests_cant": "depends on identity of zone objects", "anchors": ["types.go: Period.decode, Period.valid"]}
{"id": "C31", "title": "Recurrence rules round-trip", "statement": "Every recurrence rule Encode accepts, with day ordinals within -53..53 with UNTIL a date or a moment in whole seconds that its written clock determines, and not combined with COUNT, decodes back to itself.", "quantifier": "all recurrence rules (all list lengths and contents)", "why_tests_cant": "a dozen unbounded lists", "anchors": ["types.go: Recur.encode, Recur.decode, Recur.valid"]}
{"id": "C32", "title": "Decoded recurrence rules are in range", "statement": "Every component of a decoded recurrence rule is within its RFC 5545 range, COUNT and UNTIL are never both set, and a decoded rule passes validation.", "quantifier": "all byte strings", "why_tests_cant": "infinite language", "anchors": ["types.go: Recur.decode, Recur.valid"]}
{"id": "C33", "title": "Every accepted recurrence rule keeps its meaning", "statement": "Every recurrence rule Encode accepts decodes back to itself.", "quantifier": "all rules that pass validation", "why_tests_cant": "a dozen unbounded lists", "anchors": ["types.go: Recur.encode, Recur.valid"]}
{"id": "C34", "title": "Parameter text escaping round-trips", "statement": "Decoding the RFC 6868 encoding of any parameter text gives back the text.", "quantifier": "all parameter texts", "why_tests_cant": "infinite set of strings", "anchors": ["params.go: encode6868, decode6868"]}
{"id": "C35", "title": "Encode returns for every calendar", "statement": "Encode terminates for every finite calendar.", "quantifier": "all calendars", "why_tests_cant": "non-termination cannot be observed by a test", "anchors": ["params.go: encode6868", "encoder.go: Encode"]}
{"id": "C36", "title": "Enumerated parameters and properties round-trip", "statement": "Every named choice of every enumerated parameter and property decodes back to itself, case-insensitively; an unlisted word is rejected or becomes the Unknown choice, never a different named choice.", "quantifier": "all enumerated types, all choices, all byte strings", "why_tests_cant": "infinite set of words per type", "anchors": ["params.go: enumerated Param types", "properties.go: PropAction, PropClass, ..."]}
{"id": "C37", "title": "URI parameters round-trip", "statement": "ALTREP, URI, DELEGATED-FROM and DELEGATED-TO parameters that Encode accepts decode back to themselves.", "quantifier": "all URIs", "why_tests_cant": "infinite set of values", "anchors": ["params.go: ParamAlternativeRepresentation, ParamURI, ParamDelegator, ParamDelegatee"]}
{"id": "C38", "title": "Duplicate parameters are rejected", "statement": "A property that gives a parameter it knows twice is rejected; its result never silently keeps one of two.", "quantifier": "all properties, all parameter lists", "why_tests_cant": "all positions and interleavings", "anchors": ["properties.go: generated decode methods"]}
{"id": "C39", "title": "Properties round-trip", "statement": "Every property of every type whose parts round-trip decodes back to itself with all its parameters and its value type.", "quantifier": "all 54 property types, all parameter subsets, all values", "why_tests_cant": "product of all parameter subsets and values", "anchors": ["properties.go: generated encode/decode/valid"]}
{"id": "C40", "title": "Missing required properties are rejected", "statement": "Decode succeeds only if every required property of every component in the input is present; otherwise it fails.", "quantifier": "all inputs", "why_tests_cant": "all subsets of properties in all components at every depth", "anchors": ["sections.go: decode methods"]}
{"id": "C41", "title": "Duplicate single-valued properties are rejected", "statement": "Decode succeeds only if each single-valued property of a component occurs at most once in it.", "quantifier": "all inputs, all positions", "why_tests_cant": "all positions and interleavings", "anchors": ["sections.go: decode methods"]}
{"id": "C42", "title": "Cross-property rules hold after Decode", "statement": "No decoded event has both DTEND and DURATION; no decoded to-do has both DUE and DURATION, or DURATION without DTSTART; every decoded time zone has a STANDARD or DAYLIGHT part; no decoded alarm has a geo location without proximity.", "quantifier": "all inputs", "why_tests_cant": "all combinations of properties in all orders", "anchors": ["sections.go: Event.decode, Todo.decode, Timezone.decode, AlarmX.decode"]}
{"id": "C43", "title": "E-mail and URI alarms repeat consistently", "statement": "An e-mail or URI alarm decodes exactly when DURATION and REPEAT are both present or both absent (other rules being met).", "quantifier": "all alarms", "why_tests_cant": "all combinations in all orders", "anchors": ["sections.go: AlarmEmail.decode, AlarmURI.decode"]}
{"id": "C44", "title": "LAST-MODIFIED survives a round trip", "statement": "A component with a last-modified time decodes back with the same last-modified time.", "quantifier": "all components that have the field", "why_tests_cant": "one per component type and value", "anchors": ["sections.go: decode methods", "properties.go: PropLastModified"]}
{"id": "C45", "title": "Unknown properties are ignored", "statement": "Inserting well-formed content lines with unknown names anywhere inside a component does not change what Decode returns.", "quantifier": "all components, all unknown lines, all positions", "why_tests_cant": "all positions in all inputs", "anchors": ["sections.go: decode methods"]}
{"id": "C46", "title": "Unknown components are skipped", "statement": "Inserting a well-nested component with an unknown upper-case name, with any content and nested components, between the lines of a component does not change what Decode returns.", "quantifier": "all unknown component trees, all positions", "why_tests_cant": "unbounded nesting", "anchors": ["sections.go: decodeDummy"]}
{"id": "C47", "title": "Names are case-insensitive", "statement": "Changing the letter case of property names, parameter names and component names in the input does not change what Decode returns.", "quantifier": "all inputs, all case changes", "why_tests_cant": "2^n case changes", "anchors": ["sections.go", "properties.go", "sections_alarm.go", "decoder.go"]}
{"id": "C48", "title": "Calendars round-trip", "statement": "For every calendar Encode accepts whose values each round-trip and whose components satisfy the cross-property rules, Decode of the output gives back an equal calendar.", "quantifier": "all calendars: any number of components, properties, alarms and parameters", "why_tests_cant": "unbounded structures", "anchors": ["encoder.go: Encode", "decoder.go: Decode", "sections.go", "properties.go", "params.go", "types.go", "tokeniser.go", "folder.go", "unfolder.go"]}
{"id": "C49", "title": "Data after the calendar is ignored", "statement": "If Decode succeeds on some bytes, it succeeds with the same calendar when anything is appended after the final line.", "quantifier": "all inputs, all trailing data", "why_tests_cant": "all continuations", "anchors": ["decoder.go: Decode", "sections.go: Calendar.decode"]}
{"id": "C50", "title": "Truncated calendars never decode", "statement": "No proper prefix of Encode's output that cuts it before the end of the text END:VCALENDAR decodes successfully.", "quantifier": "all calendars, all cut points", "why_tests_cant": "every crash point of every output", "anchors": ["decoder.go: Decode", "sections.go: Calendar.decode"]}
{"id": "C51", "title": "A decoded calendar can be encoded", "statement": "Every calendar that Decode returns is accepted by Encode.", "quantifier": "all inputs", "why_tests_cant": "infinite set of inputs", "anchors": ["encoder.go: Encode", "types.go: Float.valid, TFloat.valid", "sections.go: valid methods"]}
{"id": "C52", "title": "What Encode accepts, Decode accepts", "statement": "For every calendar Encode accepts, Decode accepts the output.", "quantifier": "all calendars", "why_tests_cant": "all combinations of fields", "anchors": ["encoder.go: Encode", "sections.go: valid methods"]}
{"id": "C53", "title": "Data delivered together with the end of input is not lost", "statement": "Decode gives the same result whether the reader reports io.EOF together with its last bytes or in a read of its own.", "quantifier": "all inputs, all readers", "why_tests_cant": "needs a reader of the rarer kind together with input that makes the line joiner look ahead at that moment", "anchors": ["unfolder.go: unfolder.Read"]}
{"id": "C54", "title": "UTC times of day round-trip", "statement": "Every whole-second UTC time of day, as Decode represents it (on the first day of year 0), decodes back to itself when written as TIME.", "quantifier": "all 86400 times of day", "why_tests_cant": "the formatting and the parsing are separate code with a layout each; a unit test checks a few times", "anchors": ["types.go: Time.decode, Time.encode"]}
{"id": "C55", "title": "Decode accepts exactly the texts that spell a calendar", "statement": "Decode accepts a text if and only if its lines are grammatical, its components are balanced, each known property line and component decodes, the required, single and combined properties are as they should be, and the calendar returned holds exactly the values of the known lines, in order; nothing else influences the result.", "quantifier": "all texts, all calendars", "why_tests_cant": "an equivalence over all texts: tests can only sample acceptance and rejection", "anchors": ["decoder.go: Decode", "sections.go: every decode method", "tokeniser.go"]}
{"id": "C56", "title": "RFC 6868 escapes written by other programs are read", "statement": "A parameter text with the escapes ^n, ^^ and ^' is read as the text with a line feed, a caret and a double quote in their place.", "quantifier": "all parameter texts", "why_tests_cant": "all sequences of escapes and other characters; the repository has no test with an escape in it", "anchors": ["params.go: decode6868"]}
{"id": "C57", "title": "The parameters and the value type of a property are those given", "statement": "In a property that Decode accepts, each known parameter that the line gives is set to its meaning, every other one is nil, and the value is of the type that the VALUE parameter names, or of the default type if there is none; exactly one of the alternative values is set.", "quantifier": "all property types with parameters, all parameter lists in any order and case", "why_tests_cant": "every subset, order and spelling of up to eleven parameters", "anchors": ["properties.go: decode methods", "tokeniser.go"]}
{"id": "C58", "title": "Unknown parameters are ignored", "statement": "Adding a parameter that a property does not know, such as an X- parameter, anywhere in its line changes neither whether the line is accepted nor what it is read as.", "quantifier": "all property types, all parameter lists, all unknown names and values", "why_tests_cant": "all positions, names and values", "anchors": ["properties.go: decode methods"]}
{"id": "C59", "title": "Lines that fit are not folded", "statement": "If no content line of a calendar is longer than 75 octets, Encode writes the content lines as they are, without any fold.", "quantifier": "all calendars Encode accepts", "why_tests_cant": "the folder keeps a running count across many small writes; a count that is off by one shows only for lines of one length", "anchors": ["folder.go: folder.Write", "encoder.go: Encode"]}
{"id": "C60", "title": "Encode refuses exactly the calendars with an unacceptable value", "statement": "Encode returns a validity error if and only if some property of the calendar, in whatever component, has an unacceptable value or parameter, or an alarm is nil; then nothing has been written. Texts must have no control characters except TAB and LF, times must be set, a period must run forwards between times of one location, the numbers of a recurrence rule must be in range, choices must be among the listed words, and exactly one of alternative values must be set.", "quantifier": "all calendars, all writers", "why_tests_cant": "the check visits every property of every component of trees of any size", "anchors": ["sections.go: valid methods", "properties.go: valid methods", "types.go: valid methods", "params.go: valid methods", "encoder.go: Encode"]}
{"id": "C61", "title": "One content line for each property, whatever it holds", "statement": "If Encode writes a calendar whose addresses, names of time zones and media types have no control characters, then what it wrote, unfolded, is exactly BEGIN:VCALENDAR, one line without control characters starting with the property's name for each property in order, BEGIN and END lines around each component, and END:VCALENDAR; so no text in any field can add, split or lose a line. Every calendar that Decode returned is such a calendar. The condition is needed: a media type with a carriage return is accepted and written and the result cannot be read, and an address with a line break adds a property.", "quantifier": "for all calendars made of values of the right types, and for all decoded calendars", "why_tests_cant": "Line injection depends on any byte in any field of any property; tests try a few texts.", "anchors": ["encoder.go:15-26", "sections.go", "properties.go", "params.go:355-401", "types.go"]}
{"id": "C62", "title": "Each property is read by the grammar of RFC 5545", "statement": "A content line is accepted as a property if and only if each parameter that the property knows is given at most once and has a value of its form (listed words, quoted addresses, text, ...) and the value has the form of the type that the property has by default or by its VALUE parameter; the property returned then holds these values. Every parameter that RFC 5545 lists for a property is known.", "quantifier": "all property types, all parameter lists, all values", "why_tests_cant": "some fifty properties, each with its own set of parameters and value types; a word missing from one of the tables shows only for the lines that use it", "anchors": ["properties.go", "params.go", "types.go"]}
{"id": "C63", "title": "Lists of dates and structured texts are read", "statement": "EXDATE, RDATE and FREEBUSY lines with a comma-separated list of values, and REQUEST-STATUS lines with their semicolons, as RFC 5545 defines them, are read.", "quantifier": "all lists of dates, times and periods, all request status values, in all calendars", "why_tests_cant": "the tests have no such line, and one rejects the whole calendar", "anchors": ["properties.go: ExceptionDateTime, RecurrenceDateTimes, FreeBusy, RequestStatus", "types.go: decode methods"]}
{"id": "C64", "title": "Each field holds the lines with its name, in order, and no property of RFC 5545 is dropped", "statement": "A text decodes to a calendar if and only if it has the shape of one and, for each component, every field of its struct holds exactly the values of the lines or inner components with its name: the one such line of a single field, all of them in order for a repeated field, and the rules for presence are met. Each property that RFC 5545 allows in a component has a field.", "quantifier": "all texts, all calendars", "why_tests_cant": "the decoder dispatches on some two hundred pairs of component and property; a swapped pair, a wrong name or a missing case shows only for texts using it", "anchors": ["sections.go: decode methods", "decoder.go: Decode"]}
{"id": "C65", "title": "Values out of the range of RFC 5545 are refused", "statement": "Decode refuses a calendar whose version is not 2.0, priorities over 9, percentages over 100, negative sequence numbers, states that the component does not have, and events that end before they start.", "quantifier": "all numbers, all calendars", "why_tests_cant": "all integers and all combinations of values", "anchors": ["properties.go", "sections.go", "types.go: Integer"]}
{"id": "C66", "title": "Reading, writing and reading again changes nothing", "statement": "If Decode accepts a text, Encode writes the calendar and Decode reads what was written as the same calendar.", "quantifier": "all texts that Decode accepts", "why_tests_cant": "all calendars that can be read", "anchors": ["decoder.go: Decode", "encoder.go: Encode"]}
{"id": "C67", "title": "Integers are read exactly as RFC 5545 writes them", "statement": "A text is read as an INTEGER if and only if it is an optional sign and decimal digits and the number fits 32 bits, and it is read as that number.", "quantifier": "all texts", "why_tests_cant": "all texts and all numbers", "anchors": ["types.go: Integer.decode"]}
{"id": "C68", "title": "Dates are read exactly as RFC 5545 writes them", "statement": "A text is read as a DATE if and only if it is eight digits naming a day of the Gregorian calendar in the years 0 to 9999, and it is read as the start of that day in UTC.", "quantifier": "all texts", "why_tests_cant": "all texts, leap years included", "anchors": ["types.go: Date.decode"]}
{"id": "C69", "title": "Binary values are read exactly as RFC 4648 writes them", "statement": "A text is read as BINARY if and only if the parameter ENCODING is BASE64 and the text, line breaks skipped, is padded base64; it is read as the bytes it stands for.", "quantifier": "all texts, all parameters", "why_tests_cant": "all byte strings and paddings", "anchors": ["types.go: Binary.decode"]}
{"id": "C70", "title": "UTC offsets are read exactly as RFC 5545 writes them", "statement": "A text is read as a UTC-OFFSET if and only if it is a sign, two digits of hours, two of minutes and perhaps two of seconds within the ranges of RFC 5545 and not a negative zero; it is read as that number of seconds.", "quantifier": "all texts", "why_tests_cant": "all texts", "anchors": ["types.go: UTCOffset.decode"]}
{"id": "C71", "title": "Date-times and times are read exactly as RFC 5545 writes them", "statement": "A text is read as a DATE-TIME or TIME if and only if it has the form of RFC 5545, and it is read as the moment it names in the zone of TZID, in UTC or in local time.", "quantifier": "all texts, all zones", "why_tests_cant": "all texts and zones", "anchors": ["types.go: DateTime.decode, Time.decode"]}
{"id": "C72", "title": "Durations are read exactly as RFC 5545 writes them", "statement": "A text is read as a DURATION if and only if it has the form of RFC 5545.", "quantifier": "all texts", "why_tests_cant": "all texts", "anchors": ["types.go: Duration.decode"]}
{"id": "C73", "title": "Periods are a date-time, a slash, and a date-time or a duration", "statement": "A text is read as a PERIOD if and only if it is a date-time, a slash, and a date-time or a duration without minus sign, and it is read as these.", "quantifier": "all texts, all zones", "why_tests_cant": "all texts", "anchors": ["types.go: Period.decode"]}
{"id": "C74", "title": "Recurrence rules are read exactly as RFC 5545 writes them", "statement": "A text is read as a RECUR if and only if it is a rule of RFC 5545, whatever the order of its parts and the case of its letters, and it is read as that rule.", "quantifier": "all texts, all orders of parts", "why_tests_cant": "all rules and all orders of up to fourteen parts", "anchors": ["types.go: Recur.decode"]}
{"id": "C75", "title": "Lists of texts are read item by item", "statement": "A text is read as a list of TEXT if and only if it is texts, escaped as RFC 5545 demands, with commas between them; it is read as these, in order.", "quantifier": "all texts", "why_tests_cant": "all texts, all escapes", "anchors": ["types.go: MText.decode"]}
{"id": "C76", "title": "Numbers and pairs of numbers are read exactly as RFC 5545 writes them", "statement": "A text is read as a FLOAT, or as the pair of GEO, if and only if it is a decimal number, or two with a semicolon between them.", "quantifier": "all texts", "why_tests_cant": "all texts", "anchors": ["types.go: Float.decode, TFloat.decode"]}
{"id": "C77", "title": "What is written for a value is determined and described for every value type", "statement": "For every value that validation accepts, with years 0 to 9999, texts in UTF-8 and offsets below a hundred hours, Encode writes exactly one text: the digits, date and clock of its location, escapes, units and rule parts that the description of its type demands (no leading zeros, no plus signs, rule parts that are set, in one order), and no other text fits the description.", "quantifier": "all values of all sixteen types, all locations and zones", "why_tests_cant": "all numbers, instants, zones, byte strings, rules", "anchors": ["types.go: encode methods"]}
{"id": "C78", "title": "What is written for a value has the form of RFC 5545", "statement": "For every value that validation accepts, what Encode writes for it is a text of its RFC 5545 type.", "quantifier": "all values of all sixteen types", "why_tests_cant": "all values", "anchors": ["types.go: encode methods, UTCOffset.encode, Float.valid"]}
{"id": "C79", "title": "Exactly one text is written for a calendar, and it is described line by line", "statement": "For every calendar that Encode writes, the unfolded output is the one text described as follows: BEGIN:VCALENDAR, then for every component its properties and components in the order of the fields of the Go types and of the slices, one line for each, and END. A property line is its name, a semicolon, name and value for each parameter that is set, in the order of the fields (texts between quotes where they hold a colon, semicolon, comma or where the code always quotes, lists separated by commas, registered words in capitals), a VALUE parameter exactly if the value is not of the default type, ENCODING=BASE64 for binary values, TZID for times in a zone, a colon and the text of the value (C77).", "quantifier": "all calendars of the Go types whose free texts hold no control characters, whose years have four digits and whose texts are in UTF-8; all calendars that Decode returns for texts in UTF-8", "why_tests_cant": "unbounded components, properties, parameters, values and nesting", "anchors": ["encoder.go: Encode", "sections.go: encode methods", "properties.go: encode methods", "params.go: encode methods", "types.go: encode methods, aencode"]}
{"id": "C80", "title": "Lines folded with a tab are read", "statement": "RFC 5545 section 3.1 lets a line be folded with CR LF and either a space or a tab. A calendar folded with tabs is read as if it were not folded.", "quantifier": "all calendars, all places of a fold, all ways the reader cuts the input", "why_tests_cant": "unbounded input and all ways of cutting it into reads", "anchors": ["unfolder.go: Read", "tokeniser.go: parseName", "decoder.go: Decode"]}
{"id": "C81", "title": "Every line up to the end of the calendar begins with a name and ends with CR LF", "statement": "Up to the end of the calendar, blank lines, lines that begin with a space, a tab, a byte order mark or anything else that is not a character of a name, and line feeds without a carriage return are refused: if Decode returns a calendar for a text that has one of these, the text before it is already a complete calendar, and gives the same value.", "quantifier": "all texts before and after the place, all calendars", "why_tests_cant": "unbounded text before and after", "anchors": ["tokeniser.go: parseName, parseValue", "decoder.go: Decode"]}
{"id": "C82", "title": "Reading on demand gives what reading everything first gives", "statement": "Decode takes bytes from the reader only when it needs them. What it returns is what it would return for the whole text given at once, and the error with which the reader ends makes no difference.", "quantifier": "all texts, all ways of cutting them into reads, all buffer sizes, all errors at the end", "why_tests_cant": "the interleaving of reading and parsing is unbounded", "anchors": ["decoder.go: Decode", "tokeniser.go: newTokeniser", "unfolder.go: Read", "sections.go: decode of every section"]}
{"id": "C83", "title": "A calendar is returned as soon as it is there", "statement": "When the reader has given a complete calendar, Decode returns it, whatever the reader does afterwards: give more text, fail, or never end. And every calendar that Decode returns is spelt by what was read.", "quantifier": "all calendars, all texts after them, all readers", "why_tests_cant": "all behaviours of a reader after the calendar, including those that never end", "anchors": ["decoder.go: Decode", "unfolder.go: Read"]}
{"id": "C84", "title": "Decode leaves what follows the calendar in the reader", "statement": "If the reader gives exactly a calendar, and then another, two calls of Decode give the two calendars.", "quantifier": "all calendars, all readers", "why_tests_cant": "unbounded input, all ways of cutting it", "anchors": ["decoder.go: Decode", "unfolder.go: Read"]}
{"id": "C85", "title": "A reader that fails early gives no calendar", "statement": "If the reader fails, with any error, before it has given the whole of a calendar, Decode does not return a calendar.", "quantifier": "all calendars, all places to stop, all errors, all ways of cutting the text into reads", "why_tests_cant": "all cuts of all calendars", "anchors": ["decoder.go: Decode", "unfolder.go: Read", "sections.go: decode of every section"]}
{"id": "C86", "title": "A calendar that is cut off gives ErrUnexpectedEOF", "statement": "If a valid calendar is cut off between two of its lines, Decode returns io.ErrUnexpectedEOF.", "quantifier": "all calendars, all places between two lines, at any depth", "why_tests_cant": "every cut of every calendar; the result depends on where in the nesting the cut is", "anchors": ["decoder.go: Decode", "sections.go: decode of every section, decodeDummy", "sections_alarm.go: Alarm.decode"]}
{"id": "C87", "title": "Decode reports the first fault, and exactly that one", "statement": "The error of Decode is the one of the first thing in the text that is wrong: a line that is not a content line, a value or parameter that cannot be read, a property that is there twice, an END of another name, a component that lacks a property or breaks a rule, an alarm without ACTION, or the end of the text. Every text spells exactly one calendar or has exactly one such result.", "quantifier": "all texts, all errors, panics included", "why_tests_cant": "an equivalence over all texts and all combinations of faults", "anchors": ["decoder.go: Decode", "tokeniser.go", "sections.go: decode of every section, decodeDummy", "sections_alarm.go: Alarm.decode"]}
{"id": "C88", "title": "Decode fails as soon as it can", "statement": "If some whole lines make Decode fail, with an error other than ErrUnexpectedEOF, then every text that begins with these lines makes it fail with the same error.", "quantifier": "all texts that end with a line end, all continuations, all errors", "why_tests_cant": "all continuations of all texts", "anchors": ["decoder.go: Decode", "tokeniser.go", "sections.go: decode of every section"]}
{"id": "C89", "title": "The error for a bad line names the part that is wrong", "statement": "A line that is not a content line gives the error for what is wrong first in it: its start, its name, a parameter name, a quoted or plain parameter value, or its value. If Decode returns one of these errors, the text has such a line after lines that are all right.", "quantifier": "all texts, all errors", "why_tests_cant": "an equivalence over all byte strings", "anchors": ["tokeniser.go"]}
{"id": "C90", "title": "The error tells what is wrong", "statement": "ErrInvalidCalendar is returned exactly if the first line does not begin a calendar. An error about a value or a parameter is returned only if a property line of the text cannot be read because of it, and is one of the errors of the types that this property's value may have, or of parameters; these errors are never used for the structure of the text.", "quantifier": "all texts, all properties, all errors", "why_tests_cant": "all texts that lead to an error", "anchors": ["decoder.go: Decode", "types.go: decode of every type", "params.go", "properties.go"]}
{"id": "C91", "title": "ErrUnexpectedEOF means that the text has ended", "statement": "If Decode returns ErrUnexpectedEOF, the text ended before the calendar did.", "quantifier": "all texts", "why_tests_cant": "all texts that lead to this error", "anchors": ["sections_alarm.go: psuedoTokeniser, Alarm.decode", "sections.go: decodeDummy"]}
{"id": "C92", "title": "The order of different properties and components does not matter", "statement": "If the lines and components of a calendar are put in another order, at any depth, so that those with the same name stay in the order they had, Decode returns the same calendar as before, or fails as before. In alarms too.", "quantifier": "all texts with the shape of a calendar, all such reorderings", "why_tests_cant": "the number of orders grows with the factorial of the number of lines", "anchors": ["sections.go: decode methods", "sections_alarm.go: Alarm.decode"]}
{"id": "C93", "title": "A moment in a time zone that the calendar defines is read by that definition", "statement": "If a date-time names with TZID a zone for which the calendar has a VTIMEZONE, it is read as the moment that the rules of that VTIMEZONE give.", "quantifier": "all calendars, all zones and definitions of zones", "why_tests_cant": "all zones, all rules", "anchors": ["types.go: DateTime.decode, Period.decode", "sections.go: Calendar.decode, Timezone.decode"]}
{"id": "C94", "title": "Zones that are named in the output are defined in the output", "statement": "If Encode writes a TZID parameter it also writes a VTIMEZONE with that name, as RFC 5545 section 3.2.19 demands.", "quantifier": "all calendars, all zones", "why_tests_cant": "all calendars and zones", "anchors": ["types.go: DateTime.aencode, writeTimezone", "sections.go: Calendar.encode"]}
{"id": "C95", "title": "Stamps are in UTC", "statement": "DTSTAMP, CREATED, COMPLETED, ACKNOWLEDGED and LAST-TRIGGERED are only read, and only written, in UTC.", "quantifier": "all moments, all parameters", "why_tests_cant": "all texts and moments", "anchors": ["properties.go: DateTimeStamp, Created, Completed, Acknowledged, LastTriggered", "types.go: DateTime.decode, DateTime.valid"]}
{"id": "C96", "title": "Rules between the values of different lines are checked", "statement": "Decode refuses calendars whose values do not fit together: an end before its start, or a DTEND, DUE, RECURRENCE-ID or UNTIL of another type than DTSTART, or two components with the same UID and RECURRENCE-ID.", "quantifier": "all calendars", "why_tests_cant": "all combinations of values", "anchors": ["sections.go: decode methods"]}
{"id": "C97", "title": "Different calendars are written differently", "statement": "If Encode writes the same bytes for two calendars, they are the same calendar.", "quantifier": "all pairs of calendars", "why_tests_cant": "all pairs", "anchors": ["encoder.go: Encode", "sections.go: encode methods"]}
{"id": "C98", "title": "The error message is about the first thing that is wrong", "statement": "If Decode fails, its error text leads from the calendar to the first thing that is wrong, and says what is wrong with it.", "quantifier": "all texts", "why_tests_cant": "all combinations of faults at all places", "anchors": ["decoder.go: Decode", "sections.go: decode methods", "sections_alarm.go: Alarm.decode", "properties.go: decode methods", "params.go: decode methods", "types.go: decode methods"]}
{"id": "C99", "title": "errors.Is tells errors apart", "statement": "If Decode fails, errors.Is matches exactly one of the exported errors of the package (or an error of the standard library).", "quantifier": "all texts", "why_tests_cant": "all causes of failure", "anchors": ["decoder.go: Decode", "sections.go: errors", "types.go: errors"]}
{"id": "C100", "title": "Error messages name the way to the fault", "statement": "The names in an error text of Decode start at Calendar, and each is a field of the struct named before it.", "quantifier": "all texts", "why_tests_cant": "all places of faults", "anchors": ["sections.go: decode methods", "sections_alarm.go: Alarm.decode", "properties.go: decode methods"]}
{"id": "C101", "title": "Encode says what it refuses", "statement": "If Encode refuses a calendar, its error is that of the first value in the order of the fields that is not acceptable, and its text leads to it and says that it was validated.", "quantifier": "all calendars, all writers", "why_tests_cant": "all combinations of wrong values at all places", "anchors": ["encoder.go: Encode", "sections.go: valid methods", "sections_alarm.go: Alarm.valid", "properties.go: valid methods", "params.go: valid methods", "types.go: valid methods"]}
{"id": "C102", "title": "What Decode parses comes from the reader", "statement": "The bytes that Decode parses are bytes of the reader in their order: none is made up, moved or repeated, and none but those of folds is left out.", "quantifier": "all readers, including those that return no bytes, data with an error, or fail; all buffer sizes", "why_tests_cant": "all splits of all inputs over reads and buffers; the line joiner copies inside the caller's buffer and can leave old bytes behind", "anchors": ["unfolder.go: unfolder.Read", "decoder.go: Decode"]}
{"id": "C103", "title": "The same text gives the same calendar on every machine", "statement": "Whether Decode reads a text, the error it returns if not, and the calendar it returns do not depend on the local time zone of the machine or on its time zone database: the fields, texts and numbers are the same, and each moment is the same reading of calendar and clock at the same place. Calendars with moments of UTC only are the same to the second and are written as the same bytes.", "quantifier": "all texts; all pairs of machines with any local time zones, zone databases and zone rules", "why_tests_cant": "a test runs on one machine with one local zone and one database; the claim compares two machines on all texts", "anchors": ["types.go: DateTime.decode", "types.go: Time.decode", "types.go: Recur.decode", "decoder.go: Decode", "encoder.go: Encode"]}
{"id": "C104", "title": "A decoded calendar is no larger than its text", "statement": "The components, properties, parameters, list members and bytes of text and binary data in the calendar that Decode returns are together no more than the bytes of the input, so that memory is bounded by the size of what is read.", "quantifier": "all texts, all readers, all buffer sizes", "why_tests_cant": "a bound on all inputs, including malformed escapes that no test lists; the decoder copies and rewrites texts with several different escape rules", "anchors": ["decoder.go: Decode", "types.go: Text.decode", "types.go: MText.decode", "types.go: Recur.decode", "params.go: decode6868"]}
{"id": "C105", "title": "Components are read by themselves", "statement": "Whether a component of a calendar is read, and as what, does not depend on the other components: a calendar is read exactly if each of its components is read alone, its components are those of its parts in order, the components of two calendars can be put into one, and one can be taken out without changing the others.", "quantifier": "all texts with the shape of a calendar, all ways to divide their content, all pairs of calendars", "why_tests_cant": "a relation between the results on unboundedly many different texts", "anchors": ["decoder.go: Decode", "sections.go: Calendar.decode"]}
{"id": "C106", "title": "Lines are folded as late as possible", "statement": "Each content line that Encode writes is cut only where the next character does not fit into the 75 octets of its line. There is only one such way to fold. A line that is continued has at least 72 octets, folding costs three octets each time, and there is at most one fold per 71 octets of content.", "quantifier": "all calendars, lines of any length, characters of one to four octets at any place", "why_tests_cant": "whether a fold comes too early depends on the widths of all the characters before it; tests look at a few lengths", "anchors": ["folder.go: folder.Write", "encoder.go: Encode"]}
{"id": "C107", "title": "No octet of a letter is taken for a delimiter", "statement": "Reading character by character, as the parsing library does, and reading octet by octet give the same lines, parameters and values: no octet of a character outside ASCII, and no octet that is not valid UTF-8, is taken for one of the characters that the format gives a meaning to.", "quantifier": "all inputs, valid UTF-8 or not", "why_tests_cant": "there are infinitely many ways to place letters and broken sequences around delimiters", "anchors": ["tokeniser.go: parser.parseName", "tokeniser.go: parser.parseValue", "types.go: decodeText", "types.go: Duration.decode", "types.go: UTCOffset.decode", "params.go: decode6868", "params.go: encode6868"]}
{"id": "C108", "title": "Decode needs a bounded stack", "statement": "The number of calls that Decode has pending at the same time, and with it the stack it needs, is bounded whatever the input is.", "quantifier": "all inputs, of any depth of nesting", "why_tests_cant": "a test nests to one depth; the depth that exhausts a stack depends on the machine, and no test shows that there is no deeper text", "anchors": ["sections.go: decodeDummy", "decoder.go: Decode"]}
{"id": "C109", "title": "UTF-8 stays UTF-8", "statement": "If the text given to Decode is UTF-8, every text of the calendar it returns is UTF-8, those of parameters included: nothing is cut inside a character. What Encode writes for a calendar with UTF-8 parameters is UTF-8, every write, every line and the whole.", "quantifier": "all texts and all calendars", "why_tests_cant": "tests have a few letters at a few places", "anchors": ["decoder.go: Decode", "encoder.go: Encode", "types.go: Text.decode", "types.go: Text.encode", "params.go: decode6868", "params.go: encode6868", "folder.go: folder.Write"]}
{"id": "C110", "title": "Only UTF-8 is read and written", "statement": "Decode refuses a text that is not UTF-8, and Encode writes only UTF-8 or returns an error.", "quantifier": "all texts and all calendars", "why_tests_cant": "tests use well formed texts", "anchors": ["decoder.go: Decode", "encoder.go: Encode", "types.go: Text.encode", "params.go: ParamLanguage.encode"]}
{"id": "C111", "title": "What was written once is written again the same", "statement": "If Decode accepts a text and Encode writes the calendar it returned, then decoding what was written and encoding that calendar writes the same octets again, to any writer: after one round nothing changes any more.", "quantifier": "all texts that Decode accepts (in UTF-8 or not), all writers, any number of rounds", "why_tests_cant": "tests compare one round on a few calendars, and only of calendars that lose nothing", "anchors": ["decoder.go: Decode", "encoder.go: Encode", "types.go: DateTime.decode", "types.go: DateTime.encode", "types.go: Text.encode", "params.go: ParamRSVP.encode"]}
{"id": "C112", "title": "Encode does not panic", "statement": "Encode, given any calendar pointer and any writer, returns: it does not panic, whatever the caller put into the calendar.", "quantifier": "all calendars a caller can build, with nil pointers wherever Go allows them (the calendar itself, alarms that are a nil interface or a nil pointer of any of the alarm types), and all writers", "why_tests_cant": "tests encode calendars built by hand from literals; none holds a nil pointer inside an interface", "anchors": ["encoder.go: Encode", "sections_alarm.go: Alarm.valid", "sections_alarm.go: Alarm.encode", "sections.go: AlarmAudio.valid"]}
{"id": "C113", "title": "The type of an alarm is its action", "statement": "Type, called on an alarm that Decode returned, gives the value of an ACTION line of the text, letter by letter, and it is the action that Encode writes for the alarm.", "quantifier": "all texts that Decode accepts, all alarms anywhere in the calendar", "why_tests_cant": "no test calls Type, and the words are repeated in three switches", "anchors": ["sections_alarm.go: AlarmAudio.Type", "sections_alarm.go: AlarmDisplay.Type", "sections_alarm.go: AlarmEmail.Type", "sections_alarm.go: AlarmURI.Type", "sections_alarm.go: AlarmNone.Type", "sections_alarm.go: Alarm.decode", "sections_alarm.go: Alarm.encode"]}
{"id": "C114", "title": "Each line adds its own value and nothing else", "statement": "A property line anywhere in a calendar, in any component or alarm at any depth, is read exactly if it can be read by itself and the calendar without it can be read; the result is the calendar without it with the value of the line added to its field, after the values of the lines with that name before it. No other value changes.", "quantifier": "all calendars, all places in them, all lines whose name belongs to a property of the component there and whose presence or absence does not touch the rules of that component (required, at most once, together, not together)", "why_tests_cant": "a test looks at one calendar at a time; this relates the results of two Decode calls on all pairs of texts that differ in a line", "anchors": ["decoder.go: Decode", "sections.go: Event.decode", "sections_alarm.go: Alarm.decode", "properties.go"]}
{"id": "C115", "title": "Encode writes value by value", "statement": "Each property, component and alarm has a text of its own, of whole lines, that does not depend on where it stands: the output of Encode for a calendar with one more value is the output for the calendar without it, with the text of the value put between two of its lines. A value that can be written in one calendar can be written in any.", "quantifier": "all calendars, all values, all fields at any depth", "why_tests_cant": "a test looks at one calendar at a time; folding counts bytes across writes, so that what was written before could shift what follows", "anchors": ["encoder.go: Encode", "folder.go: folder.Write", "sections.go: Event.encode", "sections_alarm.go: Alarm.encode"]}
{"id": "C116", "title": "The spelling of a line does not matter", "statement": "Two texts that differ in the order of the parameters of their lines (those with different names), in quotes around parameter values that need none, and in the letter case of names, are read as the same calendar, or neither is read.", "quantifier": "all texts, lines at any depth, alarms included; parameters that RFC 5545 wants in quotes (ALTREP, DELEGATED-FROM, DELEGATED-TO, DIR, MEMBER, SENT-BY, URI, ID, AGENT-ID) keep them", "why_tests_cant": "tests have one spelling for each calendar; this relates the results of two Decode calls on all pairs of texts", "anchors": ["tokeniser.go", "params.go", "properties.go", "sections.go"]}
{"id": "C117", "title": "A text may be folded anywhere", "statement": "A text in which CR LF SP is put at any places, also within names and within letters of several octets, any number of times, is read like the text without, if it comes in one read, or in reads that do not end within a fold.", "quantifier": "all texts without folds and all ways to cut them into pieces; the folded text does not end like a fold (then Decode does not return, see C10)", "why_tests_cant": "tests fold in a few places", "anchors": ["unfolder.go", "decoder.go: Decode"]}
{"id": "C118", "title": "Success means that the writer has taken everything", "statement": "If Encode returns nil, the writer has reported that it took every byte of the calendar, whatever writer it is.", "quantifier": "all writers, as state machines that return any count and any error for each call, and all calendars", "why_tests_cant": "tests write to a buffer that takes everything", "anchors": ["folder.go: folder.Write", "encoder.go: Encode"]}
{"id": "C119", "title": "The code is what its descriptions say", "statement": "What is read and written for every parameter, property and component - its name, its type, the values and parameters it may have, how often a field may be there, and the rules between fields - is what the scripts get from the descriptions (names.gen, params.gen, properties.gen, sections.gen) in the repository, so that the code can be generated again.", "quantifier": "the whole descriptions in the repository, and, for properties, all descriptions and all tables of names (without backslashes, spaces and empty lines)", "why_tests_cant": "the scripts are not run by the tests, and what they would do with another description is a question about all texts", "anchors": ["names.sh", "genParams.sh", "genProperties.sh", "genSections.sh", "names.gen", "params.gen", "properties.gen", "sections.gen"]}
{"id": "C120", "title": "Every rule of a description is in the code", "statement": "Every rule of presence that sections.gen has for a component is checked by the code that genSections.sh writes for it.", "quantifier": "all descriptions made of words, with any number of components, fields and rules, and all tables of names", "why_tests_cant": "a test of the code has the rules of one description; this is about all of them", "anchors": ["genSections.sh"]}
{"id": "C121", "title": "A line that cannot be read makes Decode fail with its error, wherever it stands", "statement": "If a calendar can be read, and a line with a value or a parameter that cannot be read is put into it at any place where its property is read - in the calendar, in a component, in a component of a component or in an alarm - Decode fails, and with what is wrong with that line, not with anything that comes after it.", "quantifier": "all calendars that can be read, all places in them at any depth, all properties and all lines of them that cannot be read", "why_tests_cant": "tests have one broken line in one place of one calendar; that the error is that of the line, in whichever nested component and whatever follows, is a claim about all places and all calendars", "anchors": ["sections.go", "properties.go", "types.go"]}
{"id": "C122", "title": "Decode depends on its reader only through what the reader returns", "statement": "Whatever an io.Reader does - whether it has a state, looks at the size of the buffer, returns little or much, or fails in the middle - Decode does with it what it does with the list of the pieces that it returned, independent of anything that the reader could return later; the reader is left as it is after those pieces; it is called at most once for each byte that it gives and once more; the calendar is written in those pieces; and for a text without folds neither the pieces nor what the reader makes them depend on matter at all, nor can Decode go on for ever.", "quantifier": "all readers, as functions with any type of state, that return no more than there is room for; all buffer sizes", "why_tests_cant": "tests have a few readers over a fixed text (strings.Reader, one byte at a time); an io.Reader is any code at all, with any state", "anchors": ["decoder.go", "unfolder.go"]}
{"id": "C123", "title": "Decode handles no line more than twice", "statement": "No input makes Decode go over its lines again and again: each line is handed to the decoding functions at most twice, at most once if no alarm is begun, and is read as a property at most once; so the tokens and bytes looked at are no more than three times those of the input, however deep components are nested and whatever is skipped.", "quantifier": "all inputs, and any cost for each line", "why_tests_cant": "that no input is slow is a claim about all inputs; tests and benchmarks time a few of them", "anchors": ["sections.go", "sections_alarm.go", "decoder.go", "tokeniser.go"]}
{"id": "C124", "title": "A writer gets no empty calls and no call longer than a line", "statement": "Whatever the writer does with its calls, and whatever the calendar is, Encode makes no Write call without data, so there are no more calls than bytes; and if the texts that come from outside (addresses, names of zones, media types) have no control characters, each call is a fold or a part of one line: at most 75 bytes, and after them at most a line break.", "quantifier": "all writers and all calendars; for the length, all calendars with values of the Go types and without control characters in what comes from outside", "why_tests_cant": "a writer that treats an empty write as the end, or that has room for a line only, is met by no test; that no calendar leads to such a call is a claim about all of them", "anchors": ["folder.go:18-66", "encoder.go", "sections.go", "properties.go"]}
{"id": "C125", "title": "What is written is in proportion to what is held", "statement": "Encode writes at most 251 bytes for each thing the calendar holds (components, properties, parameters, members of lists, bytes of texts and of data, and of what the standard library writes), whatever must be escaped and folded; so a text that is read and written again grows by no more than a constant factor, and no short input makes a server write without bound.", "quantifier": "all calendars with numbers that fit into 64 bits, and all texts", "why_tests_cant": "that no value is written at a length out of proportion is a claim about all values; tests measure a few", "anchors": ["types.go", "params.go", "properties.go", "sections.go", "folder.go"]}
{"id": "C126", "title": "Moments are in the order of their texts", "statement": "A date that is read is after another exactly if its text comes later in the order of the bytes, and two dates are equal only if their texts are; the same holds of date-times in UTC without a fraction. So texts of dates and of UTC moments can be sorted, indexed and compared without being read. It does not hold of date-times in a zone: where clocks are put forward from 01:00 to 02:00, the text 01:30, which no clock shows, is read as half an hour after 02:00.", "quantifier": "all pairs of texts that are read as dates, and all pairs of texts of 16 bytes that end in Z and are read as date-times, with any other parameters; one zone for the case that fails", "why_tests_cant": "that no pair of days is out of order across months, leap years and centuries is a claim about all pairs; tests compare a few days", "anchors": ["types.go:123-133", "types.go:158-189"]}
{"id": "C127", "title": "Media types are accepted, and nothing else is", "statement": "An FMTTYPE parameter of an attachment is accepted by Decode and by Encode exactly if its text is a media type as RFC 4288 defines it, and a calendar with one can be written.", "quantifier": "all texts of the parameter, in quotes or not, every attachment with a URI that is read; every calendar with such an attachment, and every writer", "why_tests_cant": "a test tries a few media types; that nothing else gets through, and that each media type does, is about all texts", "anchors": ["params.go:355-401", "params.go:1238-1240"]}
{"id": "C128", "title": "A date-time in a zone is read as a moment when clocks there show it", "statement": "A date-time without Z that is read is a moment at which the clocks of its zone show what the text says, if there is such a moment; otherwise it is off by an offset the zone has within a day of it. A moment that is written and read again has the same reading, zone and text, also where clocks are put back. Of two moments with the same reading, one is not read back as it was.", "quantifier": "all texts that are read as date-times, all zones with offsets of less than a day that say until when they hold, all moments within two days of which the zone has no more than two offsets; all moments in the years that can be written", "why_tests_cant": "the transitions of zones are the cases that a test has to happen upon, and they are different in each zone and year", "anchors": ["types.go:158-210"]}
{"id": "C129", "title": "What was read can be changed and kept", "statement": "A calendar that was read, and then changed field by field (values removed, reordered, replaced or added, at any depth), or put together from components of calendars that were read, is written by Encode, and Decode returns exactly it from what was written. The new values have to be such as survive by themselves, no field may hold more or fewer values than RFC 5545 allows, and a field that takes part in a rule between fields may not be set or emptied.", "quantifier": "all calendars that come of any number of such steps from any number of calendars that were read from UTF-8 and have nothing that is lost (see C66), all buffer sizes, all ways to cut the text into reads if no line is folded", "why_tests_cant": "programs read, change and write calendars again and again; no test has all sequences of changes", "anchors": ["decoder.go:16-37", "encoder.go:15-25", "sections.go:1-4198", "sections_alarm.go:82-109"]}
{"id": "C130", "title": "A moment in any location is the same moment when it is read back", "statement": "A user fills in DateTimeStart with the time.Time they have, in whatever location it is, and expects that Encode followed by Decode gives back the same moment, or that Encode refuses it.", "quantifier": "for every moment in the years 0 to 9999 and every location, whatever its name, its offsets and the zones known to the system that reads", "why_tests_cant": "A test takes UTC or one zone of the database. Whether the moment survives depends on the name of the location and on what another system knows by that name: the empty name that time.Parse gives to numeric offsets, and names given to time.FixedZone, are not names of the database.", "anchors": ["types.go:158-210", "types.go:1568-1575"]}
{"id": "C131", "title": "What is read of a calendar that a program has put together", "statement": "A program puts a calendar together from whatever values the Go types allow, and Encode writes it. What Decode returns from the text is that calendar with exactly these changes: fractions of a second are gone and zones are loaded anew; a date is midnight UTC of the day that the calendar shows at its location; a period with an end has no duration; a rule with a count has no last moment; octets that are not UTF-8 are U+FFFD; parameters that are empty or false are not set; numbers of choices that do not exist are the unknown choice; last-modified times are not set. Values that survive by themselves are not changed at all.", "quantifier": "all calendars that Encode accepts and whose values, so changed, survive being written; all values in all fields of all components, all buffer sizes", "why_tests_cant": "Go types hold values that iCalendar has no text for, in any combination; a test has a few of them. That nothing but these is changed is a statement about all values.", "anchors": ["types.go:123-146", "types.go:186-203", "types.go:539-548", "types.go:973-1161", "params.go:1-1274", "sections.go:1-4198"]}
{"id": "C132", "title": "One value that cannot be read makes the whole calendar unreadable", "statement": "If one property of a calendar, in any component at any depth, alarms included, is written as a line of which Decode can make no value, then Encode writes the calendar and gives no error, and Decode returns no calendar from the text: the value is not left out, and the rest of the calendar cannot be had. If on the other hand each property can be read by itself, and the rules between fields that Decode has are met, then the calendar is read, with in each place the property that is read by itself (last-modified times aside).", "quantifier": "all calendars that Encode accepts and of which every property is written as one line; all properties but LAST-MODIFIED, in all components; all buffer sizes", "why_tests_cant": "A test has one bad value at one place; the claim is about all values, all places and all calendars around them.", "anchors": ["decoder.go:1-37", "encoder.go:1-30", "sections.go:1-4221", "sections_alarm.go:1-141", "properties.go:1-4375"]}
