{
"C01": ["proved", ["C01_lines_at_most_75"], ""],
"C02": ["proved", ["C02_folding_is_reversible", "C02_only_folds_are_added", "C02_content_comes_back", "C02_clean_calendars_come_back"], "If a content line has CR LF SP of itself, as only an address or media type with control characters can, it is removed with the folds."],
"C03": ["proved", ["C03_no_character_is_split"], ""],
"C04": ["proved", ["C04_write_boundaries_do_not_matter", "C04_same_content_same_output"], ""],
"C05": ["proved", ["C05_writer_failures"], ""],
"C06": ["proved", ["C06_rejected_calendars_write_nothing", "C05_writer_failures"], ""],
"C07": ["partial", ["C07_read_boundaries_refuted", "C08_fold_free_input_is_unchanged", "C07_byte_readers_refuted", "C07_folds_in_byte_readers_refuted", "C07_line_readers_refuted", "C07_buffers_refuted", "C07_reads_known_partial", "C07_folds_within_reads_partial"], "The property is FALSE of the code. Besides a witness, what is read is proved for three kinds of readers: one byte at a time (no fold is removed, no calendar with a fold is read), one line at a time (each fold leaves its space), and a buffer that ends inside a fold (the space is left). What holds: fold-free input (C08), and, in any number of reads, text in which no fold lies across the end of a read and no read with a fold ends like one. The reads are determined by the reader and the sizes of the buffers, and always exist."],
"C08": ["proved", ["C08_fold_free_input_is_unchanged"], ""],
"C09": ["proved", ["C09_one_read_is_unfolded"], ""],
"C10": ["partial", ["C10_decode_terminates_refuted", "C09_one_read_is_unfolded", "C10_decode_terminates_partial", "C10_first_read_refuted", "C07_folds_within_reads_partial", "C10_any_read_refuted", "C10_sticks_refuted", "C10_returns_partial", "C10_settled_partial", "C10_on_demand_refuted"], "The property is FALSE of the code. C10_sticks_refuted says for all readers, with folds anywhere, exactly when reading everything does not end; C10_returns_partial says that Decode returns from all others that always give a byte or an error, also when it reads on demand; C10_on_demand_refuted and C10_settled_partial say when it does not return on demand. The other theorems say it in terms of the input alone, for input in one read, for reads that no fold lies across, for the first read, and for reads without folds."],
"C100": ["partial", ["C100_names_partial", "C100_begins", "C100_alarms_refuted"], "False in alarms: after the field Alarm comes the name of the alarm type, or none. Proved with this exception, and that there are no names only if the text does not begin as a calendar."],
"C101": ["partial", ["C101_encode_says", "C101_message", "C101_begins", "C101_says_validating_refuted"], "For values of the Go types (cal_typed). False in one detail: the text for a property or parameter type says that it was decoded."],
"C102": ["partial", ["C102_nothing_made_up", "C102_calendars", "C102_calendars_whole", "C102_nothing_lost_refuted"], "The first half holds for every reader. The second half is false: bytes are lost where the end of a buffer or read lies in a fold; C102_nothing_lost_refuted gives a kind of input for which it happens, C08 and C07_folds_within_reads_partial say when it does not."],
"C103": ["partial", ["C103_same_calendar", "C103_same_outcome_partial", "C103_same_moment", "C103_same_text", "C103_same_outcome_refuted", "C103_moments_refuted"], "The calendars are the same whenever both machines read the text. That both read it, or both fail with the same error, is proved if they know the same zone names and no rule has both UNTIL and COUNT. False otherwise: UNTIL=00010101T000000 before COUNT is accepted only where local time is UTC, because the zero moment stands for no UNTIL. Local moments are other moments on other machines."],
"C104": ["partial", ["C104_held_partial", "C104_held_read", "C104_held_decode", "C104_held_tame", "C104_held_refuted", "C104_held_params_refuted"], "False with factor one: a backslash before a byte that is not UTF-8, and a caret in a parameter, give four bytes for two. Proved with factor two for every text and reader, and with factor one for texts without carets in which a printable ASCII character follows every backslash. Not counted: the text of addresses (net/url)."],
"C105": ["proved", ["C105_halves", "C105_each", "C105_merge", "C105_without"], "A text with the shape of a calendar (framed) is any text in which components are balanced; C55 says that nothing else is read."],
"C106": ["proved", ["C106_folded_late", "C106_one_way", "C106_full_lines", "C106_overhead"], "For contents that are UTF-8 and hold no line break of their own, as in C01 and C02; C106_overhead is for all contents."],
"C107": ["proved", ["C107_accept", "C107_accept_run", "C107_except_run", "C107_peek", "C107_sets", "C107_phrases", "C107_decode", "C107_values"], "RuneTok.v is a second model of the scanning functions, rune by rune, and of everything that calls them; the theorems say that it is the same as the model that all other properties are about."],
"C108": ["partial", ["C108_stack_refuted", "C108_begins_refuted", "C108_stack_partial"], "FALSE. A component of an unknown name is skipped by a function that calls itself for every component inside: 16 octets of text for each pending call (9 when it does not end), in any calendar that decodes. Go ends the whole program when a stack exceeds its limit; that is not an error Decode returns. Proved: there are never more pending calls than the text is deep, and five."],
"C109": ["proved", ["C109_decode", "C109_encode", "C109_through", "C109_is_utf8"], "What the outside contributes (net/url, time zone names) is assumed to be UTF-8 where it is written; the assumption is in the statements. This discharges the hypothesis of C02 and C106 that the writes of Encode are UTF-8."],
"C11": ["partial", ["C11_decode_never_panics_refuted", "C11_decode_never_panics_partial", "C11_readers_never_panic", "C11_empty_reads_refuted", "C11_fatal_lines", "C11_fatal_lines_refuted"], "The property is FALSE of the code: two witnesses; and these two causes are proved to be the only ones in the text. A reader that always returns a byte or an error adds no panic of its own, however it cuts its text; one that returns neither, more often than the buffer has bytes and inside of folds, makes the byte count negative, for every text before. The lines on which reading a property panics are exactly the RRULE lines that are good up to a BYDAY entry of a plus sign and one digit, and each of them makes Decode panic at every place of every calendar."],
"C110": ["partial", ["C110_only_utf8_refuted", "C110_texts_kept_refuted", "C110_texts_partial", "C110_what_is_written", "C110_characters"], "FALSE: neither Decode nor Encode checks. Octets that are not UTF-8 in a parameter are kept and written; in a text they are kept by Decode and silently replaced by U+FFFD by Encode, so that the calendar read back differs. Proved: text values are written in UTF-8 whatever octets they have."],
"C111": ["partial", ["C111_written_again_partial", "C111_written_again_refuted"], "FALSE in general: a time in the first second of the year 1 is read and written, and refused by Encode when it is read again (C111_written_again_refuted); address parameters cannot be read back (C37), LAST-MOD lines are written under another name and lost (C44). Proved for calendars whose values settle: what is read back is given exactly (whole seconds, U+FFFD for octets that are not UTF-8, addresses as net/url reads them, no empty parameters), and Encode writes it as it wrote the first calendar, to any writer."],
"C112": ["partial", ["C112_encode_panics_refuted", "C112_encode_panics_iff", "C112_no_nil_partial", "C112_decoded_partial"], "FALSE in general (C112_encode_panics_refuted): a nil *Calendar and an alarm that is a nil pointer, say Alarm{(*AlarmAudio)(nil)}, make Encode panic. Proved: exactly when it panics (nothing is written then; a nil *AlarmNone does not, a nil interface is refused with ErrInvalidAlarm); in every other case, and on every calendar that Decode returns, it does what the other theorems say about Encode."],
"C113": ["proved", ["C113_alarm_type"], ""],
"C114": ["proved", ["C114_line_by_line"], ""],
"C115": ["proved", ["C115_value_by_value", "C115_written_anywhere"], ""],
"C116": ["proved", ["C116_spelling", "C116_steps"], ""],
"C117": ["proved", ["C117_fold_anywhere", "C117_fold_anywhere_in_reads"], "What happens if a read ends within a fold is C07; if a text with folds ends like one, C10."],
"C118": ["partial", ["C118_success_means_taken_refuted", "C118_success_means_taken_partial", "C118_counts_ignored", "C118_folding_writer_honest"], "FALSE in general (C118_success_means_taken_refuted): the counts are ignored, so that a writer that takes less and reports no error goes unnoticed (bufio.Writer and io.Copy report io.ErrShortWrite). Proved for writers that keep to the contract of io.Writer, and that the counts change nothing."],
"C119": ["partial", ["C119_parameters", "C119_components", "C119_properties_partial", "C119_tabs_kept", "C119_tabs_lost", "C119_properties_refuted"], "Proved for parameters and components. FALSE for properties (C119_properties_refuted): genProperties.sh has tabs in IFS, so that read removes the tab by which a parameter is told from a property; no description gives the properties.go that is there. With IFS as in genSections.sh it would."],
"C12": ["proved", ["C12_accepted_lines_are_grammatical"], ""],
"C120": ["partial", ["C120_every_rule_partial", "C120_every_rule_refuted"], "FALSE with three or more rules in a component (C120_every_rule_refuted): the script takes the length of the first rule for the number of rules, and keeps the first and the last. Proved with up to two, as in the repository."],
"C121": ["proved", ["C121_unreadable_line"], "Also for the lines that panic. A second line of a property that may be given once is excluded: it is refused for that, before it is read."],
"C122": ["proved", ["C122_only_pieces", "C122_calls", "C122_calendars", "C122_fold_free"], "Folds are left out of the last part because with them the result does depend on the pieces (C07)."],
"C123": ["proved", ["C123_twice", "C123_once", "C123_size", "C123_lines", "C123_least"], "The work within one value is not counted. C123_least says that the account leaves out no line up to the end of a calendar that is returned."],
"C124": ["proved", ["C124_never_empty", "C124_one_line"], ""],
"C125": ["proved", ["C125_written", "C125_read_and_written", "C125_read_numbers", "C125_text", "C125_value"], "The texts of addresses, names of zones and numbers with a fraction come from the standard library and are counted with their length."],
"C126": ["proved", ["C126_dates_in_order", "C126_utc_in_order", "C126_not_in_zones"], ""],
"C127": ["partial", ["C127_media_types_partial", "C127_types_read", "C127_types_accepted", "C127_only_media_types_refuted", "C127_carets_refuted"], "False as stated: every media type is read and accepted, but so is any text that has, somewhere, a slash between two characters of a set (the pattern is not anchored, and +-^ in it is a range), and a media type with a caret, which RFC 4288 allows, makes Encode run for ever. The theorems say exactly which texts are accepted."],
"C128": ["proved", ["C128_shown", "C128_near", "C128_written_and_read", "C128_one_of_two"], ""],
"C129": ["proved", ["C129_edited_calendars", "C129_one_field", "C129_many_calendars"], "What is lost without any change is said in C66; a folded text has to come in one read (C07)."],
"C13": ["proved", ["C13_grammatical_lines_are_accepted"], ""],
"C130": ["partial", ["C130_unnamed_zone_refuted", "C130_unknown_zone_refuted", "C130_other_zone_refuted", "C130_same_clocks_refuted", "C130_same_moment_partial", "C130_unknown_anywhere_refuted", "C130_any_reads_partial"], "False of the code, which writes the name of every location other than UTC and Local as TZID. With no name the moment is read in UTC, moved by the offset; with a name that is not known Decode fails; with a name that is known it is read at the same time of day in that zone, and so are all times of any calendar. Kept are the moments in UTC, in local time and in zones of the database."],
"C131": ["proved", ["C131_built_calendars", "C131_nothing_else_changes", "C131_any_reads", "C131_exactly"], "For texts that come in one read, and in any number of reads if no fold lies across the end of one (C07). What Encode refuses is C60; moments in locations that the reader does not know are C130; addresses are as in C37."],
"C132": ["proved", ["C132_one_unread", "C132_any_reads", "C132_readable_exactly", "C132_read_by_property"], "For texts that come in one read, and in any number of reads if no fold lies across the end of one (C07). Exactly: from one read a calendar can be read if and only if each of its properties can, and the rules between fields are met. LAST-MODIFIED is left aside since its lines are never read (C44). An instance, date-times in locations that the reader does not know, is C130_unknown_anywhere_refuted."],
"C14": ["proved", ["C14_text_round_trips"], ""],
"C15": ["proved", ["C15_text_cannot_inject"], ""],
"C16": ["proved", ["C16_text_lists_round_trip"], ""],
"C17": ["proved", ["C17_text_decoding_is_exact"], ""],
"C18": ["proved", ["C18_integers_round_trip", "C18_integers_are_in_range"], ""],
"C19": ["proved", ["C19_booleans_round_trip", "C19_boolean_spellings"], ""],
"C20": ["proved", ["C20_durations_round_trip", "C20_decoded_durations_are_plain"], ""],
"C21": ["partial", ["C21_every_duration_refuted", "C20_durations_round_trip"], "The property is FALSE of the code; refuted for exactly the durations that mix weeks with other units; C20 is the part that holds."],
"C22": ["proved", ["C22_rfc_durations_are_accepted"], ""],
"C23": ["proved", ["C23_offsets_round_trip", "C23_decoded_offsets_are_in_range"], ""],
"C24": ["partial", ["C24_every_offset_refuted", "C23_offsets_round_trip"], "The property is FALSE of the code; refuted for exactly the offsets of 100 hours or more; C23 is the part that holds."],
"C25": ["proved", ["C25_binary_round_trips", "C25_binary_needs_its_encoding"], ""],
"C26": ["proved", ["C26_utc_date_times_round_trip", "C26_utc_dates_round_trip"], ""],
"C27": ["proved", ["C27_only_real_dates", "C27_only_real_date_times"], ""],
"C28": ["proved", ["C28_zoned_date_times_round_trip", "C28_local_date_times_round_trip"], "The zone database is an oracle; the hypotheses state what is needed of the one zone: lookups agree with themselves, offsets under a day, at most two offsets within two days of the instant."],
"C29": ["proved", ["C29_periods_round_trip"], ""],
"C30": ["partial", ["C30_decoded_period_refuted", "C30_decoded_period_partial"], "The property is FALSE of the code: refuted for every period with a zone and an explicit end; proved without a zone."],
"C31": ["proved", ["C31_recurrence_rules_round_trip"], ""],
"C32": ["proved", ["C32_decoded_rules_are_in_range"], ""],
"C33": ["partial", ["C33_every_rule_refuted", "C31_recurrence_rules_round_trip"], "The property is FALSE of the code: refuted for every rule out of range, some of which Encode accepts; C31 is the part that holds."],
"C34": ["partial", ["C34_parameter_text_refuted", "C34_parameters_round_trip_partial"], "The property is FALSE of the code: a text with a line feed, caret or double quote is never written (Encode hangs); proved for every other text and every other kind of parameter but addresses."],
"C35": ["partial", ["C35_encode_terminates_refuted"], "The property is FALSE of the code: the calendars for which Encode never returns are characterised exactly."],
"C36": ["proved", ["C36_enumerated_parameters", "C36_enumerated_properties", "C34_parameters_round_trip_partial", "C39_properties_round_trip"], "The way back is in C34_parameters_round_trip_partial and C39_properties_round_trip, which cover all choices."],
"C37": ["partial", ["C37_uri_parameters_refuted", "C57_parameters_are_read"], "The property is FALSE of the code: an address that is written and does not itself start with a double quote never comes back, if the parameters before it are good."],
"C38": ["partial", ["C38_duplicate_parameters_partial", "C38_duplicate_parameters_refuted"], "The property is FALSE of the code for TZID and ENCODING, where the last one is used; proved for all others and for VALUE."],
"C39": ["proved", ["C39_properties_round_trip"], "prop_good states for each kind of parameter and value the conditions of the other round-trip properties."],
"C40": ["proved", ["C40_required_properties", "C42_decoded_calendars_are_lawful"], ""],
"C41": ["proved", ["C41_single_properties", "C40_required_properties", "C42_decoded_calendars_are_lawful"], ""],
"C42": ["proved", ["C42_cross_property_rules", "C42_decoded_calendars_are_lawful"], ""],
"C43": ["partial", ["C43_duration_with_repeat_refuted"], "The property is FALSE of the code: proved to fail for every accepted alarm of these kinds."],
"C44": ["partial", ["C44_last_modified_survives_refuted", "C44_last_modified_lines_refuted"], "The property is FALSE of the code: the sections look for the name LAST-MOD while the property is written as LAST-MODIFIED, so every last-modified time is lost; all else is kept."],
"C45": ["proved", ["C45_unknown_properties_ignored"], "Stated for acceptance and the calendar returned; two rejected texts may be rejected with different errors. In an alarm a line counts as unknown if alarms with its ACTION do not know it."],
"C46": ["partial", ["C46_unknown_components_skipped_partial", "C46_unknown_components_skipped_refuted", "C46_in_alarms_refuted"], "The property is FALSE of the code at every place in every alarm (C46_in_alarms_refuted); proved everywhere else."],
"C47": ["partial", ["C47_names_ignore_case_partial", "C47_names_ignore_case_refuted", "C47_letters", "C47_capitals"], "The property is FALSE of the code for component names after END (refuted in general); proved for everything but the exceptions listed at the theorem."],
"C48": ["partial", ["C48_calendars_round_trip_partial", "C48_many_reads_partial", "C48_exactly_partial"], "For calendars without last-modified times, from one read, from any reads if nothing is folded, and from any reads if no fold lies across the end of a read and no read with a fold ends like one. With a last-modified time it is FALSE (C44), for folded text in several reads it is FALSE (C07). From one read it holds of exactly the calendars whose values all survive, that meet Decode's rules between fields and that have no last-modified time."],
"C49": ["proved", ["C49_trailing_data_ignored"], ""],
"C50": ["proved", ["C50_truncated_calendars_fail", "C50_cut_output_fails"], "For every text of the shape of a calendar."],
"C51": ["partial", ["C51_decoded_calendars_encode_refuted", "C51_refused_calendars", "C51_decoded_calendars_encode_partial"], "The property is FALSE of the code; the calendars that are refused are characterised exactly, and the others are shown to be written."],
"C52": ["partial", ["C52_encoded_calendars_decode_refuted", "C52_encoded_calendars_decode_partial"], "The property is FALSE of the code; for calendars whose values round-trip the output is accepted exactly if the rules between fields are met."],
"C53": ["partial", ["C53_data_with_eof_refuted", "C53_last_byte_refuted"], "The property is FALSE of the code; refuted by a witness and, in general, for every last byte that comes with io.EOF after a read that ended in CR or CR LF."],
"C54": ["proved", ["C54_utc_times_of_day_round_trip"], ""],
"C55": ["proved", ["C55_decode_is_exact", "C55_decode_of_a_shape", "C55_accepted_texts_are_balanced"], ""],
"C56": ["partial", ["C56_parameter_escapes_refuted", "C56_parameter_escapes_exact", "C56_parameter_escapes_partial", "C56_reference_round_trips"], "The property is FALSE of the code for every text with an escape; what the code does instead is stated."],
"C57": ["proved", ["C57_parameters_are_read"], ""],
"C58": ["proved", ["C58_unknown_parameters_ignored"], "All but TZID and ENCODING, which every property passes on to its value."],
"C59": ["proved", ["C59_short_lines_are_not_folded"], ""],
"C60": ["proved", ["C60_encode_refuses_exactly"], "The specification SpecValid.v spells out the accepted values. It records what the code does: for FLOAT and GEO the test is the wrong way round (finite numbers are refused), FMTTYPE is only searched for a slash between two name characters, and the numbers in BYSECOND, BYMINUTE, BYHOUR and BYMONTH have an upper bound only as their Go types are unsigned."],
"C61": ["partial", ["C61_one_line_each_partial", "C61_decoded_one_line_each", "C61_control_characters_refuted", "C61_injection_refuted"], "False without the condition: the pattern that checks FMTTYPE is not anchored, and URL.String() of a URL built by hand (Opaque, RawQuery) is written as it is. Proved under the condition, and for decoded calendars when url.Parse of a text without control characters gives a URL whose String() has none, and zone names have none."],
"C62": ["partial", ["C62_lines_read", "C62_parameters_read_partial", "C62_parameters_read_refuted"], "Proved against tables copied from RFC 5545 and the Go API that do not mention the model's. The last sentence is FALSE of the code: RELATED of TRIGGER and LANGUAGE of REQUEST-STATUS are ignored, in general (C62_parameters_read_refuted); all others are known."],
"C63": ["partial", ["C63_lists_read_refuted", "C63_request_status_refuted"], "The property is FALSE of the code: every calendar with such a line is rejected, for every list with more than one value and every request status."],
"C64": ["partial", ["C64_fields_exact", "C64_properties_read_partial", "C64_properties_read_refuted"], "Proved as stated for the fields that exist, with tables written by hand from the Go structs and RFC 5545. The last sentence is FALSE of the code: CALSCALE, METHOD, RRULE of a to-do, ATTACH of an email alarm and LAST-MODIFIED are dropped without an error (C64_properties_read_refuted, in general); all others have a field."],
"C65": ["partial", ["C65_numbers_refuted", "C65_values_refuted"], "The property is FALSE of the code: for the four number properties every 32-bit number is read; a witness has all the others, and passes the validity check of Encode too."],
"C66": ["partial", ["C66_read_write_read_partial", "C66_read_write_read_refuted"], "False in general; proved for texts in UTF-8 without what C28, C35, C37, C44 and C51 show to be lost, empty parameter texts, RSVP=FALSE and fractions of seconds."],
"C67": ["proved", ["C67_integers_read"], ""],
"C68": ["proved", ["C68_dates_read"], ""],
"C69": ["proved", ["C69_binary_read"], "Unused bits of the last letter may be anything, as encoding/base64 allows."],
"C70": ["partial", ["C70_offsets_of_rfc_partial", "C70_offsets_read", "C70_offsets_of_rfc_refuted"], "The property is FALSE of the code: the sign may be missing, hours go to 99, and 60 seconds are refused. What is read is characterised exactly, and every offset of RFC 5545 but those with 60 seconds is shown to be read."],
"C71": ["partial", ["C71_date_times_of_rfc_partial", "C71_times_of_rfc_partial", "C71_date_times_read", "C71_times_read", "C71_moments_of_rfc_refuted"], "The property is FALSE of the code: leap seconds are refused, fractions of seconds are read. What is read, and as what, is characterised exactly, and everything of RFC 5545 without a leap second is shown to be read if the zone is known."],
"C72": ["partial", ["C72_durations_read_partial", "C72_durations_of_rfc_refuted"], "The property is FALSE of the code: T may be missing before hours or be repeated, and then units may be repeated, the last number being used. What is read is characterised exactly; that it includes RFC 5545 is C22."],
"C73": ["proved", ["C73_periods_read"], "Stated with the date-times and durations of C71 and C72."],
"C74": ["partial", ["C74_rules_of_rfc_partial", "C74_rules_read", "C74_rules_of_rfc_refuted"], "The property is FALSE of the code: small letters are refused, and FREQ, COUNT and UNTIL may be repeated. What is read is characterised exactly, and every rule of RFC 5545 in capitals is shown to be read in any order of its parts."],
"C75": ["proved", ["C75_text_lists_read"], "Stated with the text of SpecText.v, which C14 to C16 are about too."],
"C76": ["partial", ["C76_floats_read_partial", "C76_pairs_read_partial", "C76_only_numbers_refuted"], "The property is FALSE of the code: NaN and the infinities are read. What is read is characterised exactly up to strconv.ParseFloat on finite numbers, which is an oracle."],
"C77": ["proved", ["C77_values_written"], "The description (SpecWrite.v) is written by hand and shares no helper with the model. Addresses are written as net/url writes them (an oracle). value_writable is the scope named in the statement."],
"C78": ["partial", ["C78_conforming_values_partial", "C78_offsets_refuted", "C78_numbers_refuted", "C78_calendars_refuted"], "The property is FALSE of the code: an offset of zero or more is written without the plus sign that RFC 5545 demands; the only numbers accepted are NaN and the infinities; years need not have four digits; BYDAY occurrences beyond 53 are accepted. The values for which it holds are characterised exactly. What an address has to look like is not part of it."],
"C79": ["proved", ["C79_lines_written", "C79_decoded_lines_written"], "The description (SpecWritten.v) is an equivalence: nothing else fits it, and what is written fits it. It uses the hand-written tables of SpecRfc.v. Addresses are written as net/url writes them (an oracle). LAST-MODIFIED is written under that name although it is read as LAST-MOD (C44); parameter texts that need escapes hang (C35), and Encode does not return then."],
"C80": ["partial", ["C80_tab_folds_refuted"], "The property is FALSE of the code: proved for every input without space folds, however it is cut into reads, that no calendar is returned if a line before the end of the calendar is folded with a tab."],
"C81": ["proved", ["C81_lines_begin_with_names", "C81_bare_line_feeds"], "The text is what is left when the unfolder is done (C08, C09 say what that is)."],
"C82": ["proved", ["C82_on_demand", "C82_any_reader"], "Refinement between two models of Decode. That the parser library takes any error of its reader for the end of the text is a library assumption (DESIGN.md)."],
"C83": ["proved", ["C83_when_there", "C83_from_what_was_read"], "What a reader has given is what the unfolder's Read calls have returned (SpecDemand.v); one of these calls may look one byte ahead (C84)."],
"C84": ["partial", ["C84_looks_ahead_refuted", "C84_next_calendar_refuted"], "The property is FALSE of the code: proved for every calendar without folds given in one read that one more byte is always taken, and that the next Decode then fails with ErrInvalidCalendar."],
"C85": ["proved", ["C85_failing_readers"], "Extends C50 (texts that are cut off) to readers on demand and to errors other than io.EOF."],
"C86": ["partial", ["C86_cut_calendars_partial", "C86_cut_calendars_refuted", "C86_every_cut"], "The property is FALSE of the code for cuts inside an alarm: proved for every calendar that Decode panics at each of these cuts, and returns ErrUnexpectedEOF at each other one; there are no further cuts."],
"C87": ["proved", ["C87_first_fault", "C87_settled"], "[fails] (SpecFail.v) describes faults by the tree of lines of C55, without reading. Errors are told apart as errors.Is does; the texts that wrap them are in C98. Within one property value the error is that of the property decoder (C90 bounds it, C67-C76 say which values are read)."],
"C88": ["proved", ["C88_fails_at_once", "C88_when_there"], "For texts, and for readers that are read on demand."],
"C89": ["proved", ["C89_bad_lines", "C89_decode_bad_lines"], "[bad_line] (SpecBadLine.v) is a grammar of bad lines, independent of the tokeniser."],
"C90": ["proved", ["C90_not_a_calendar", "C90_value_errors", "C90_property_errors"], "Errors of the standard library (time, url, strconv, base64) are one error, ErrStd, in the model."],
"C91": ["partial", ["C91_eof_is_the_end_partial", "C91_eof_is_the_end_refuted", "C91_in_alarms_refuted"], "The property is FALSE of the code: a complete calendar with a component in an alarm, begun in lower case and ended in capitals, gives ErrUnexpectedEOF. Proved: if every BEGIN is in capitals, the error is returned only for texts that are good lines to their end. It is false of every calendar with an alarm: such a component can be put anywhere after the ACTION of an alarm."],
"C92": ["proved", ["C92_order_of_names"], "Texts are given as trees of lines; what may follow the calendar is arbitrary. Which error is returned by a text that fails can change."],
"C93": ["partial", ["C93_zones_of_the_calendar_refuted", "C93_global_zones_refuted", "C93_zone_rules_refuted"], "False: only time.LoadLocation is asked. With a zone that the system does not know (any name that starts with a slash, as RFC 5545 has it for global zones) the whole calendar is refused, whatever it defines; with one that it knows the VTIMEZONE has no effect on any moment."],
"C94": ["partial", ["C94_zones_are_defined_refuted"], "False for every moment in a zone that survives being written: a calendar with it and without zones is written, and read back as it was."],
"C95": ["partial", ["C95_stamps_read", "C95_stamps_in_utc_refuted", "C95_stamps_written_refuted"], "False: any date-time is read, and it is described as what; any moment that is not the zero time is written."],
"C96": ["partial", ["C96_rules_between_values_refuted"], "False of every such rule: in any text that decodes, any line, except ACTION in alarms, can be replaced with any other of the same name that can be read by itself."],
"C97": ["partial", ["C97_written_apart_partial", "C97_written_apart_refuted", "C97_written_alike_iff"], "For calendars whose values survive being written, with or without last-modified times. False of others: moments that differ by less than a second are written alike. Which calendars are written alike is known exactly (C97_written_alike_iff): those whose texts say the same (see C131)."],
"C98": ["proved", ["C98_message_of_the_first_fault", "C98_message_of_a_line", "C98_same_outcome"], "SpecMessage.v describes the messages by the tree of lines of C87. The texts of errors of the standard library are not modelled (a parameter of msg_text). Stated for the text that the unfolder gives; C82 says that reading on demand gives the same results."],
"C99": ["partial", ["C99_errors_is_partial", "C99_errors_is_refuted"], "False for properties that are given twice and may be given once: their error wraps nothing, so that errors.Is matches nothing. Proved for all others. Errors of the standard library are one class."]
}
