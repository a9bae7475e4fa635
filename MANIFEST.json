{
 "claims": [
  {
   "property": "C01",
   "status": "proved",
   "theorems": [
    "C01_lines_at_most_75"
   ],
   "note": ""
  },
  {
   "property": "C02",
   "status": "proved",
   "theorems": [
    "C02_folding_is_reversible",
    "C02_only_folds_are_added",
    "C02_content_comes_back",
    "C02_clean_calendars_come_back"
   ],
   "note": "If a content line has CR LF SP of itself, as only an address or media type with control characters can, it is removed with the folds."
  },
  {
   "property": "C03",
   "status": "proved",
   "theorems": [
    "C03_no_character_is_split"
   ],
   "note": ""
  },
  {
   "property": "C04",
   "status": "proved",
   "theorems": [
    "C04_write_boundaries_do_not_matter",
    "C04_same_content_same_output"
   ],
   "note": ""
  },
  {
   "property": "C05",
   "status": "proved",
   "theorems": [
    "C05_writer_failures"
   ],
   "note": ""
  },
  {
   "property": "C06",
   "status": "proved",
   "theorems": [
    "C06_rejected_calendars_write_nothing",
    "C05_writer_failures"
   ],
   "note": ""
  },
  {
   "property": "C07",
   "status": "partial",
   "theorems": [
    "C07_read_boundaries_refuted",
    "C08_fold_free_input_is_unchanged",
    "C07_byte_readers_refuted",
    "C07_folds_in_byte_readers_refuted",
    "C07_line_readers_refuted",
    "C07_buffers_refuted",
    "C07_reads_known_partial",
    "C07_folds_within_reads_partial"
   ],
   "note": "The property is FALSE of the code. Besides a witness, what is read is proved for three kinds of readers: one byte at a time (no fold is removed, no calendar with a fold is read), one line at a time (each fold leaves its space), and a buffer that ends inside a fold (the space is left). What holds: fold-free input (C08), and, in any number of reads, text in which no fold lies across the end of a read and no read with a fold ends like one. The reads are determined by the reader and the sizes of the buffers, and always exist."
  },
  {
   "property": "C08",
   "status": "proved",
   "theorems": [
    "C08_fold_free_input_is_unchanged"
   ],
   "note": ""
  },
  {
   "property": "C09",
   "status": "proved",
   "theorems": [
    "C09_one_read_is_unfolded"
   ],
   "note": ""
  },
  {
   "property": "C10",
   "status": "partial",
   "theorems": [
    "C10_decode_terminates_refuted",
    "C09_one_read_is_unfolded",
    "C10_decode_terminates_partial",
    "C10_first_read_refuted",
    "C07_folds_within_reads_partial",
    "C10_any_read_refuted",
    "C10_sticks_refuted",
    "C10_returns_partial",
    "C10_settled_partial",
    "C10_on_demand_refuted"
   ],
   "note": "The property is FALSE of the code. C10_sticks_refuted says for all readers, with folds anywhere, exactly when reading everything does not end; C10_returns_partial says that Decode returns from all others that always give a byte or an error, also when it reads on demand; C10_on_demand_refuted and C10_settled_partial say when it does not return on demand. The other theorems say it in terms of the input alone, for input in one read, for reads that no fold lies across, for the first read, and for reads without folds."
  },
  {
   "property": "C11",
   "status": "partial",
   "theorems": [
    "C11_decode_never_panics_refuted",
    "C11_decode_never_panics_partial",
    "C11_readers_never_panic",
    "C11_empty_reads_refuted",
    "C11_fatal_lines",
    "C11_fatal_lines_refuted"
   ],
   "note": "The property is FALSE of the code: two witnesses; and these two causes are proved to be the only ones in the text. A reader that always returns a byte or an error adds no panic of its own, however it cuts its text; one that returns neither, more often than the buffer has bytes and inside of folds, makes the byte count negative, for every text before. The lines on which reading a property panics are exactly the RRULE lines that are good up to a BYDAY entry of a plus sign and one digit, and each of them makes Decode panic at every place of every calendar."
  },
  {
   "property": "C12",
   "status": "proved",
   "theorems": [
    "C12_accepted_lines_are_grammatical"
   ],
   "note": ""
  },
  {
   "property": "C13",
   "status": "proved",
   "theorems": [
    "C13_grammatical_lines_are_accepted"
   ],
   "note": ""
  },
  {
   "property": "C14",
   "status": "proved",
   "theorems": [
    "C14_text_round_trips"
   ],
   "note": ""
  },
  {
   "property": "C15",
   "status": "proved",
   "theorems": [
    "C15_text_cannot_inject"
   ],
   "note": ""
  },
  {
   "property": "C16",
   "status": "proved",
   "theorems": [
    "C16_text_lists_round_trip"
   ],
   "note": ""
  },
  {
   "property": "C17",
   "status": "proved",
   "theorems": [
    "C17_text_decoding_is_exact"
   ],
   "note": ""
  },
  {
   "property": "C18",
   "status": "proved",
   "theorems": [
    "C18_integers_round_trip",
    "C18_integers_are_in_range"
   ],
   "note": ""
  },
  {
   "property": "C19",
   "status": "proved",
   "theorems": [
    "C19_booleans_round_trip",
    "C19_boolean_spellings"
   ],
   "note": ""
  },
  {
   "property": "C20",
   "status": "proved",
   "theorems": [
    "C20_durations_round_trip",
    "C20_decoded_durations_are_plain"
   ],
   "note": ""
  },
  {
   "property": "C21",
   "status": "partial",
   "theorems": [
    "C21_every_duration_refuted",
    "C20_durations_round_trip"
   ],
   "note": "The property is FALSE of the code; refuted for exactly the durations that mix weeks with other units; C20 is the part that holds."
  },
  {
   "property": "C22",
   "status": "proved",
   "theorems": [
    "C22_rfc_durations_are_accepted"
   ],
   "note": ""
  },
  {
   "property": "C23",
   "status": "proved",
   "theorems": [
    "C23_offsets_round_trip",
    "C23_decoded_offsets_are_in_range"
   ],
   "note": ""
  },
  {
   "property": "C24",
   "status": "partial",
   "theorems": [
    "C24_every_offset_refuted",
    "C23_offsets_round_trip"
   ],
   "note": "The property is FALSE of the code; refuted for exactly the offsets of 100 hours or more; C23 is the part that holds."
  },
  {
   "property": "C25",
   "status": "proved",
   "theorems": [
    "C25_binary_round_trips",
    "C25_binary_needs_its_encoding"
   ],
   "note": ""
  },
  {
   "property": "C26",
   "status": "proved",
   "theorems": [
    "C26_utc_date_times_round_trip",
    "C26_utc_dates_round_trip"
   ],
   "note": ""
  },
  {
   "property": "C27",
   "status": "proved",
   "theorems": [
    "C27_only_real_dates",
    "C27_only_real_date_times"
   ],
   "note": ""
  },
  {
   "property": "C28",
   "status": "proved",
   "theorems": [
    "C28_zoned_date_times_round_trip",
    "C28_local_date_times_round_trip"
   ],
   "note": "The zone database is an oracle; the hypotheses state what is needed of the one zone: lookups agree with themselves, offsets under a day, at most two offsets within two days of the instant."
  },
  {
   "property": "C29",
   "status": "proved",
   "theorems": [
    "C29_periods_round_trip"
   ],
   "note": ""
  },
  {
   "property": "C30",
   "status": "partial",
   "theorems": [
    "C30_decoded_period_refuted",
    "C30_decoded_period_partial"
   ],
   "note": "The property is FALSE of the code: refuted for every period with a zone and an explicit end; proved without a zone."
  },
  {
   "property": "C31",
   "status": "proved",
   "theorems": [
    "C31_recurrence_rules_round_trip"
   ],
   "note": ""
  },
  {
   "property": "C32",
   "status": "proved",
   "theorems": [
    "C32_decoded_rules_are_in_range"
   ],
   "note": ""
  },
  {
   "property": "C33",
   "status": "partial",
   "theorems": [
    "C33_every_rule_refuted",
    "C31_recurrence_rules_round_trip"
   ],
   "note": "The property is FALSE of the code: refuted for every rule out of range, some of which Encode accepts; C31 is the part that holds."
  },
  {
   "property": "C34",
   "status": "partial",
   "theorems": [
    "C34_parameter_text_refuted",
    "C34_parameters_round_trip_partial"
   ],
   "note": "The property is FALSE of the code: a text with a line feed, caret or double quote is never written (Encode hangs); proved for every other text and every other kind of parameter but addresses."
  },
  {
   "property": "C35",
   "status": "partial",
   "theorems": [
    "C35_encode_terminates_refuted"
   ],
   "note": "The property is FALSE of the code: the calendars for which Encode never returns are characterised exactly."
  },
  {
   "property": "C36",
   "status": "proved",
   "theorems": [
    "C36_enumerated_parameters",
    "C36_enumerated_properties",
    "C34_parameters_round_trip_partial",
    "C39_properties_round_trip"
   ],
   "note": "The way back is in C34_parameters_round_trip_partial and C39_properties_round_trip, which cover all choices."
  },
  {
   "property": "C37",
   "status": "partial",
   "theorems": [
    "C37_uri_parameters_refuted",
    "C57_parameters_are_read"
   ],
   "note": "The property is FALSE of the code: an address that is written and does not itself start with a double quote never comes back, if the parameters before it are good."
  },
  {
   "property": "C38",
   "status": "partial",
   "theorems": [
    "C38_duplicate_parameters_partial",
    "C38_duplicate_parameters_refuted"
   ],
   "note": "The property is FALSE of the code for TZID and ENCODING, where the last one is used; proved for all others and for VALUE."
  },
  {
   "property": "C39",
   "status": "proved",
   "theorems": [
    "C39_properties_round_trip"
   ],
   "note": "prop_good states for each kind of parameter and value the conditions of the other round-trip properties."
  },
  {
   "property": "C40",
   "status": "proved",
   "theorems": [
    "C40_required_properties",
    "C42_decoded_calendars_are_lawful"
   ],
   "note": ""
  },
  {
   "property": "C41",
   "status": "proved",
   "theorems": [
    "C41_single_properties",
    "C40_required_properties",
    "C42_decoded_calendars_are_lawful"
   ],
   "note": ""
  },
  {
   "property": "C42",
   "status": "proved",
   "theorems": [
    "C42_cross_property_rules",
    "C42_decoded_calendars_are_lawful"
   ],
   "note": ""
  },
  {
   "property": "C43",
   "status": "partial",
   "theorems": [
    "C43_duration_with_repeat_refuted"
   ],
   "note": "The property is FALSE of the code: proved to fail for every accepted alarm of these kinds."
  },
  {
   "property": "C44",
   "status": "partial",
   "theorems": [
    "C44_last_modified_survives_refuted",
    "C44_last_modified_lines_refuted"
   ],
   "note": "The property is FALSE of the code: the sections look for the name LAST-MOD while the property is written as LAST-MODIFIED, so every last-modified time is lost; all else is kept."
  },
  {
   "property": "C45",
   "status": "proved",
   "theorems": [
    "C45_unknown_properties_ignored"
   ],
   "note": "Stated for acceptance and the calendar returned; two rejected texts may be rejected with different errors. In an alarm a line counts as unknown if alarms with its ACTION do not know it."
  },
  {
   "property": "C46",
   "status": "partial",
   "theorems": [
    "C46_unknown_components_skipped_partial",
    "C46_unknown_components_skipped_refuted",
    "C46_in_alarms_refuted"
   ],
   "note": "The property is FALSE of the code at every place in every alarm (C46_in_alarms_refuted); proved everywhere else."
  },
  {
   "property": "C47",
   "status": "partial",
   "theorems": [
    "C47_names_ignore_case_partial",
    "C47_names_ignore_case_refuted",
    "C47_letters",
    "C47_capitals"
   ],
   "note": "The property is FALSE of the code for component names after END (refuted in general); proved for everything but the exceptions listed at the theorem."
  },
  {
   "property": "C48",
   "status": "partial",
   "theorems": [
    "C48_calendars_round_trip_partial",
    "C48_many_reads_partial",
    "C48_exactly_partial"
   ],
   "note": "For calendars without last-modified times, from one read, from any reads if nothing is folded, and from any reads if no fold lies across the end of a read and no read with a fold ends like one. With a last-modified time it is FALSE (C44), for folded text in several reads it is FALSE (C07). From one read it holds of exactly the calendars whose values all survive, that meet Decode's rules between fields and that have no last-modified time."
  },
  {
   "property": "C49",
   "status": "proved",
   "theorems": [
    "C49_trailing_data_ignored"
   ],
   "note": ""
  },
  {
   "property": "C50",
   "status": "proved",
   "theorems": [
    "C50_truncated_calendars_fail",
    "C50_cut_output_fails"
   ],
   "note": "For every text of the shape of a calendar."
  },
  {
   "property": "C51",
   "status": "partial",
   "theorems": [
    "C51_decoded_calendars_encode_refuted",
    "C51_refused_calendars",
    "C51_decoded_calendars_encode_partial"
   ],
   "note": "The property is FALSE of the code; the calendars that are refused are characterised exactly, and the others are shown to be written."
  },
  {
   "property": "C52",
   "status": "partial",
   "theorems": [
    "C52_encoded_calendars_decode_refuted",
    "C52_encoded_calendars_decode_partial"
   ],
   "note": "The property is FALSE of the code; for calendars whose values round-trip the output is accepted exactly if the rules between fields are met."
  },
  {
   "property": "C53",
   "status": "partial",
   "theorems": [
    "C53_data_with_eof_refuted",
    "C53_last_byte_refuted"
   ],
   "note": "The property is FALSE of the code; refuted by a witness and, in general, for every last byte that comes with io.EOF after a read that ended in CR or CR LF."
  },
  {
   "property": "C54",
   "status": "proved",
   "theorems": [
    "C54_utc_times_of_day_round_trip"
   ],
   "note": ""
  },
  {
   "property": "C55",
   "status": "proved",
   "theorems": [
    "C55_decode_is_exact",
    "C55_decode_of_a_shape",
    "C55_accepted_texts_are_balanced"
   ],
   "note": ""
  },
  {
   "property": "C56",
   "status": "partial",
   "theorems": [
    "C56_parameter_escapes_refuted",
    "C56_parameter_escapes_exact",
    "C56_parameter_escapes_partial",
    "C56_reference_round_trips"
   ],
   "note": "The property is FALSE of the code for every text with an escape; what the code does instead is stated."
  },
  {
   "property": "C57",
   "status": "proved",
   "theorems": [
    "C57_parameters_are_read"
   ],
   "note": ""
  },
  {
   "property": "C58",
   "status": "proved",
   "theorems": [
    "C58_unknown_parameters_ignored"
   ],
   "note": "All but TZID and ENCODING, which every property passes on to its value."
  },
  {
   "property": "C59",
   "status": "proved",
   "theorems": [
    "C59_short_lines_are_not_folded"
   ],
   "note": ""
  },
  {
   "property": "C60",
   "status": "proved",
   "theorems": [
    "C60_encode_refuses_exactly"
   ],
   "note": "The specification SpecValid.v spells out the accepted values. It records what the code does: for FLOAT and GEO the test is the wrong way round (finite numbers are refused), FMTTYPE is only searched for a slash between two name characters, and the numbers in BYSECOND, BYMINUTE, BYHOUR and BYMONTH have an upper bound only as their Go types are unsigned."
  },
  {
   "property": "C61",
   "status": "partial",
   "theorems": [
    "C61_one_line_each_partial",
    "C61_decoded_one_line_each",
    "C61_control_characters_refuted",
    "C61_injection_refuted"
   ],
   "note": "False without the condition: the pattern that checks FMTTYPE is not anchored, and URL.String() of a URL built by hand (Opaque, RawQuery) is written as it is. Proved under the condition, and for decoded calendars when url.Parse of a text without control characters gives a URL whose String() has none, and zone names have none."
  },
  {
   "property": "C62",
   "status": "partial",
   "theorems": [
    "C62_lines_read",
    "C62_parameters_read_partial",
    "C62_parameters_read_refuted"
   ],
   "note": "Proved against tables copied from RFC 5545 and the Go API that do not mention the model's. The last sentence is FALSE of the code: RELATED of TRIGGER and LANGUAGE of REQUEST-STATUS are ignored, in general (C62_parameters_read_refuted); all others are known."
  },
  {
   "property": "C63",
   "status": "partial",
   "theorems": [
    "C63_lists_read_refuted",
    "C63_request_status_refuted"
   ],
   "note": "The property is FALSE of the code: every calendar with such a line is rejected, for every list with more than one value and every request status."
  },
  {
   "property": "C64",
   "status": "partial",
   "theorems": [
    "C64_fields_exact",
    "C64_properties_read_partial",
    "C64_properties_read_refuted"
   ],
   "note": "Proved as stated for the fields that exist, with tables written by hand from the Go structs and RFC 5545. The last sentence is FALSE of the code: CALSCALE, METHOD, RRULE of a to-do, ATTACH of an email alarm and LAST-MODIFIED are dropped without an error (C64_properties_read_refuted, in general); all others have a field."
  },
  {
   "property": "C65",
   "status": "partial",
   "theorems": [
    "C65_numbers_refuted",
    "C65_values_refuted"
   ],
   "note": "The property is FALSE of the code: for the four number properties every 32-bit number is read; a witness has all the others, and passes the validity check of Encode too."
  },
  {
   "property": "C66",
   "status": "partial",
   "theorems": [
    "C66_read_write_read_partial",
    "C66_read_write_read_refuted"
   ],
   "note": "False in general; proved for texts in UTF-8 without what C28, C35, C37, C44 and C51 show to be lost, empty parameter texts, RSVP=FALSE and fractions of seconds."
  },
  {
   "property": "C67",
   "status": "proved",
   "theorems": [
    "C67_integers_read"
   ],
   "note": ""
  },
  {
   "property": "C68",
   "status": "proved",
   "theorems": [
    "C68_dates_read"
   ],
   "note": ""
  },
  {
   "property": "C69",
   "status": "proved",
   "theorems": [
    "C69_binary_read"
   ],
   "note": "Unused bits of the last letter may be anything, as encoding/base64 allows."
  },
  {
   "property": "C70",
   "status": "partial",
   "theorems": [
    "C70_offsets_of_rfc_partial",
    "C70_offsets_read",
    "C70_offsets_of_rfc_refuted"
   ],
   "note": "The property is FALSE of the code: the sign may be missing, hours go to 99, and 60 seconds are refused. What is read is characterised exactly, and every offset of RFC 5545 but those with 60 seconds is shown to be read."
  },
  {
   "property": "C71",
   "status": "partial",
   "theorems": [
    "C71_date_times_of_rfc_partial",
    "C71_times_of_rfc_partial",
    "C71_date_times_read",
    "C71_times_read",
    "C71_moments_of_rfc_refuted"
   ],
   "note": "The property is FALSE of the code: leap seconds are refused, fractions of seconds are read. What is read, and as what, is characterised exactly, and everything of RFC 5545 without a leap second is shown to be read if the zone is known."
  },
  {
   "property": "C72",
   "status": "partial",
   "theorems": [
    "C72_durations_read_partial",
    "C72_durations_of_rfc_refuted"
   ],
   "note": "The property is FALSE of the code: T may be missing before hours or be repeated, and then units may be repeated, the last number being used. What is read is characterised exactly; that it includes RFC 5545 is C22."
  },
  {
   "property": "C73",
   "status": "proved",
   "theorems": [
    "C73_periods_read"
   ],
   "note": "Stated with the date-times and durations of C71 and C72."
  },
  {
   "property": "C74",
   "status": "partial",
   "theorems": [
    "C74_rules_of_rfc_partial",
    "C74_rules_read",
    "C74_rules_of_rfc_refuted"
   ],
   "note": "The property is FALSE of the code: small letters are refused, and FREQ, COUNT and UNTIL may be repeated. What is read is characterised exactly, and every rule of RFC 5545 in capitals is shown to be read in any order of its parts."
  },
  {
   "property": "C75",
   "status": "proved",
   "theorems": [
    "C75_text_lists_read"
   ],
   "note": "Stated with the text of SpecText.v, which C14 to C16 are about too."
  },
  {
   "property": "C76",
   "status": "partial",
   "theorems": [
    "C76_floats_read_partial",
    "C76_pairs_read_partial",
    "C76_only_numbers_refuted"
   ],
   "note": "The property is FALSE of the code: NaN and the infinities are read. What is read is characterised exactly up to strconv.ParseFloat on finite numbers, which is an oracle."
  },
  {
   "property": "C77",
   "status": "proved",
   "theorems": [
    "C77_values_written"
   ],
   "note": "The description (SpecWrite.v) is written by hand and shares no helper with the model. Addresses are written as net/url writes them (an oracle). value_writable is the scope named in the statement."
  },
  {
   "property": "C78",
   "status": "partial",
   "theorems": [
    "C78_conforming_values_partial",
    "C78_offsets_refuted",
    "C78_numbers_refuted",
    "C78_calendars_refuted"
   ],
   "note": "The property is FALSE of the code: an offset of zero or more is written without the plus sign that RFC 5545 demands; the only numbers accepted are NaN and the infinities; years need not have four digits; BYDAY occurrences beyond 53 are accepted. The values for which it holds are characterised exactly. What an address has to look like is not part of it."
  },
  {
   "property": "C79",
   "status": "proved",
   "theorems": [
    "C79_lines_written",
    "C79_decoded_lines_written"
   ],
   "note": "The description (SpecWritten.v) is an equivalence: nothing else fits it, and what is written fits it. It uses the hand-written tables of SpecRfc.v. Addresses are written as net/url writes them (an oracle). LAST-MODIFIED is written under that name although it is read as LAST-MOD (C44); parameter texts that need escapes hang (C35), and Encode does not return then."
  },
  {
   "property": "C80",
   "status": "partial",
   "theorems": [
    "C80_tab_folds_refuted"
   ],
   "note": "The property is FALSE of the code: proved for every input without space folds, however it is cut into reads, that no calendar is returned if a line before the end of the calendar is folded with a tab."
  },
  {
   "property": "C81",
   "status": "proved",
   "theorems": [
    "C81_lines_begin_with_names",
    "C81_bare_line_feeds"
   ],
   "note": "The text is what is left when the unfolder is done (C08, C09 say what that is)."
  },
  {
   "property": "C82",
   "status": "proved",
   "theorems": [
    "C82_on_demand",
    "C82_any_reader"
   ],
   "note": "Refinement between two models of Decode. That the parser library takes any error of its reader for the end of the text is a library assumption (DESIGN.md)."
  },
  {
   "property": "C83",
   "status": "proved",
   "theorems": [
    "C83_when_there",
    "C83_from_what_was_read"
   ],
   "note": "What a reader has given is what the unfolder's Read calls have returned (SpecDemand.v); one of these calls may look one byte ahead (C84)."
  },
  {
   "property": "C84",
   "status": "partial",
   "theorems": [
    "C84_looks_ahead_refuted",
    "C84_next_calendar_refuted"
   ],
   "note": "The property is FALSE of the code: proved for every calendar without folds given in one read that one more byte is always taken, and that the next Decode then fails with ErrInvalidCalendar."
  },
  {
   "property": "C85",
   "status": "proved",
   "theorems": [
    "C85_failing_readers"
   ],
   "note": "Extends C50 (texts that are cut off) to readers on demand and to errors other than io.EOF."
  },
  {
   "property": "C86",
   "status": "partial",
   "theorems": [
    "C86_cut_calendars_partial",
    "C86_cut_calendars_refuted",
    "C86_every_cut"
   ],
   "note": "The property is FALSE of the code for cuts inside an alarm: proved for every calendar that Decode panics at each of these cuts, and returns ErrUnexpectedEOF at each other one; there are no further cuts."
  },
  {
   "property": "C87",
   "status": "proved",
   "theorems": [
    "C87_first_fault",
    "C87_settled"
   ],
   "note": "[fails] (SpecFail.v) describes faults by the tree of lines of C55, without reading. Errors are told apart as errors.Is does; the texts that wrap them are in C98. Within one property value the error is that of the property decoder (C90 bounds it, C67-C76 say which values are read)."
  },
  {
   "property": "C88",
   "status": "proved",
   "theorems": [
    "C88_fails_at_once",
    "C88_when_there"
   ],
   "note": "For texts, and for readers that are read on demand."
  },
  {
   "property": "C89",
   "status": "proved",
   "theorems": [
    "C89_bad_lines",
    "C89_decode_bad_lines"
   ],
   "note": "[bad_line] (SpecBadLine.v) is a grammar of bad lines, independent of the tokeniser."
  },
  {
   "property": "C90",
   "status": "proved",
   "theorems": [
    "C90_not_a_calendar",
    "C90_value_errors",
    "C90_property_errors"
   ],
   "note": "Errors of the standard library (time, url, strconv, base64) are one error, ErrStd, in the model."
  },
  {
   "property": "C91",
   "status": "partial",
   "theorems": [
    "C91_eof_is_the_end_partial",
    "C91_eof_is_the_end_refuted",
    "C91_in_alarms_refuted"
   ],
   "note": "The property is FALSE of the code: a complete calendar with a component in an alarm, begun in lower case and ended in capitals, gives ErrUnexpectedEOF. Proved: if every BEGIN is in capitals, the error is returned only for texts that are good lines to their end. It is false of every calendar with an alarm: such a component can be put anywhere after the ACTION of an alarm."
  },
  {
   "property": "C92",
   "status": "proved",
   "theorems": [
    "C92_order_of_names"
   ],
   "note": "Texts are given as trees of lines; what may follow the calendar is arbitrary. Which error is returned by a text that fails can change."
  },
  {
   "property": "C93",
   "status": "partial",
   "theorems": [
    "C93_zones_of_the_calendar_refuted",
    "C93_global_zones_refuted",
    "C93_zone_rules_refuted"
   ],
   "note": "False: only time.LoadLocation is asked. With a zone that the system does not know (any name that starts with a slash, as RFC 5545 has it for global zones) the whole calendar is refused, whatever it defines; with one that it knows the VTIMEZONE has no effect on any moment."
  },
  {
   "property": "C94",
   "status": "partial",
   "theorems": [
    "C94_zones_are_defined_refuted"
   ],
   "note": "False for every moment in a zone that survives being written: a calendar with it and without zones is written, and read back as it was."
  },
  {
   "property": "C95",
   "status": "partial",
   "theorems": [
    "C95_stamps_read",
    "C95_stamps_in_utc_refuted",
    "C95_stamps_written_refuted"
   ],
   "note": "False: any date-time is read, and it is described as what; any moment that is not the zero time is written."
  },
  {
   "property": "C96",
   "status": "partial",
   "theorems": [
    "C96_rules_between_values_refuted"
   ],
   "note": "False of every such rule: in any text that decodes, any line, except ACTION in alarms, can be replaced with any other of the same name that can be read by itself."
  },
  {
   "property": "C97",
   "status": "partial",
   "theorems": [
    "C97_written_apart_partial",
    "C97_written_apart_refuted",
    "C97_written_alike_iff"
   ],
   "note": "For calendars whose values survive being written, with or without last-modified times. False of others: moments that differ by less than a second are written alike. Which calendars are written alike is known exactly (C97_written_alike_iff): those whose texts say the same (see C131)."
  },
  {
   "property": "C98",
   "status": "proved",
   "theorems": [
    "C98_message_of_the_first_fault",
    "C98_message_of_a_line",
    "C98_same_outcome"
   ],
   "note": "SpecMessage.v describes the messages by the tree of lines of C87. The texts of errors of the standard library are not modelled (a parameter of msg_text). Stated for the text that the unfolder gives; C82 says that reading on demand gives the same results."
  },
  {
   "property": "C99",
   "status": "partial",
   "theorems": [
    "C99_errors_is_partial",
    "C99_errors_is_refuted"
   ],
   "note": "False for properties that are given twice and may be given once: their error wraps nothing, so that errors.Is matches nothing. Proved for all others. Errors of the standard library are one class."
  },
  {
   "property": "C100",
   "status": "partial",
   "theorems": [
    "C100_names_partial",
    "C100_begins",
    "C100_alarms_refuted"
   ],
   "note": "False in alarms: after the field Alarm comes the name of the alarm type, or none. Proved with this exception, and that there are no names only if the text does not begin as a calendar."
  },
  {
   "property": "C101",
   "status": "partial",
   "theorems": [
    "C101_encode_says",
    "C101_message",
    "C101_begins",
    "C101_says_validating_refuted"
   ],
   "note": "For values of the Go types (cal_typed). False in one detail: the text for a property or parameter type says that it was decoded."
  },
  {
   "property": "C102",
   "status": "partial",
   "theorems": [
    "C102_nothing_made_up",
    "C102_calendars",
    "C102_calendars_whole",
    "C102_nothing_lost_refuted"
   ],
   "note": "The first half holds for every reader. The second half is false: bytes are lost where the end of a buffer or read lies in a fold; C102_nothing_lost_refuted gives a kind of input for which it happens, C08 and C07_folds_within_reads_partial say when it does not."
  },
  {
   "property": "C103",
   "status": "partial",
   "theorems": [
    "C103_same_calendar",
    "C103_same_outcome_partial",
    "C103_same_moment",
    "C103_same_text",
    "C103_same_outcome_refuted",
    "C103_moments_refuted"
   ],
   "note": "The calendars are the same whenever both machines read the text. That both read it, or both fail with the same error, is proved if they know the same zone names and no rule has both UNTIL and COUNT. False otherwise: UNTIL=00010101T000000 before COUNT is accepted only where local time is UTC, because the zero moment stands for no UNTIL. Local moments are other moments on other machines."
  },
  {
   "property": "C104",
   "status": "partial",
   "theorems": [
    "C104_held_partial",
    "C104_held_read",
    "C104_held_decode",
    "C104_held_tame",
    "C104_held_refuted",
    "C104_held_params_refuted"
   ],
   "note": "False with factor one: a backslash before a byte that is not UTF-8, and a caret in a parameter, give four bytes for two. Proved with factor two for every text and reader, and with factor one for texts without carets in which a printable ASCII character follows every backslash. Not counted: the text of addresses (net/url)."
  },
  {
   "property": "C105",
   "status": "proved",
   "theorems": [
    "C105_halves",
    "C105_each",
    "C105_merge",
    "C105_without"
   ],
   "note": "A text with the shape of a calendar (framed) is any text in which components are balanced; C55 says that nothing else is read."
  },
  {
   "property": "C106",
   "status": "proved",
   "theorems": [
    "C106_folded_late",
    "C106_one_way",
    "C106_full_lines",
    "C106_overhead"
   ],
   "note": "For contents that are UTF-8 and hold no line break of their own, as in C01 and C02; C106_overhead is for all contents."
  },
  {
   "property": "C107",
   "status": "proved",
   "theorems": [
    "C107_accept",
    "C107_accept_run",
    "C107_except_run",
    "C107_peek",
    "C107_sets",
    "C107_phrases",
    "C107_decode",
    "C107_values"
   ],
   "note": "RuneTok.v is a second model of the scanning functions, rune by rune, and of everything that calls them; the theorems say that it is the same as the model that all other properties are about."
  },
  {
   "property": "C108",
   "status": "partial",
   "theorems": [
    "C108_stack_refuted",
    "C108_begins_refuted",
    "C108_stack_partial"
   ],
   "note": "FALSE. A component of an unknown name is skipped by a function that calls itself for every component inside: 16 octets of text for each pending call (9 when it does not end), in any calendar that decodes. Go ends the whole program when a stack exceeds its limit; that is not an error Decode returns. Proved: there are never more pending calls than the text is deep, and five."
  },
  {
   "property": "C109",
   "status": "proved",
   "theorems": [
    "C109_decode",
    "C109_encode",
    "C109_through",
    "C109_is_utf8"
   ],
   "note": "What the outside contributes (net/url, time zone names) is assumed to be UTF-8 where it is written; the assumption is in the statements. This discharges the hypothesis of C02 and C106 that the writes of Encode are UTF-8."
  },
  {
   "property": "C110",
   "status": "partial",
   "theorems": [
    "C110_only_utf8_refuted",
    "C110_texts_kept_refuted",
    "C110_texts_partial",
    "C110_what_is_written",
    "C110_characters"
   ],
   "note": "FALSE: neither Decode nor Encode checks. Octets that are not UTF-8 in a parameter are kept and written; in a text they are kept by Decode and silently replaced by U+FFFD by Encode, so that the calendar read back differs. Proved: text values are written in UTF-8 whatever octets they have."
  },
  {
   "property": "C111",
   "status": "partial",
   "theorems": [
    "C111_written_again_partial",
    "C111_written_again_refuted"
   ],
   "note": "FALSE in general: a time in the first second of the year 1 is read and written, and refused by Encode when it is read again (C111_written_again_refuted); address parameters cannot be read back (C37), LAST-MOD lines are written under another name and lost (C44). Proved for calendars whose values settle: what is read back is given exactly (whole seconds, U+FFFD for octets that are not UTF-8, addresses as net/url reads them, no empty parameters), and Encode writes it as it wrote the first calendar, to any writer."
  },
  {
   "property": "C112",
   "status": "partial",
   "theorems": [
    "C112_encode_panics_refuted",
    "C112_encode_panics_iff",
    "C112_no_nil_partial",
    "C112_decoded_partial"
   ],
   "note": "FALSE in general (C112_encode_panics_refuted): a nil *Calendar and an alarm that is a nil pointer, say Alarm{(*AlarmAudio)(nil)}, make Encode panic. Proved: exactly when it panics (nothing is written then; a nil *AlarmNone does not, a nil interface is refused with ErrInvalidAlarm); in every other case, and on every calendar that Decode returns, it does what the other theorems say about Encode."
  },
  {
   "property": "C113",
   "status": "proved",
   "theorems": [
    "C113_alarm_type"
   ],
   "note": ""
  },
  {
   "property": "C114",
   "status": "proved",
   "theorems": [
    "C114_line_by_line"
   ],
   "note": ""
  },
  {
   "property": "C115",
   "status": "proved",
   "theorems": [
    "C115_value_by_value",
    "C115_written_anywhere"
   ],
   "note": ""
  },
  {
   "property": "C116",
   "status": "proved",
   "theorems": [
    "C116_spelling",
    "C116_steps"
   ],
   "note": ""
  },
  {
   "property": "C117",
   "status": "proved",
   "theorems": [
    "C117_fold_anywhere",
    "C117_fold_anywhere_in_reads"
   ],
   "note": "What happens if a read ends within a fold is C07; if a text with folds ends like one, C10."
  },
  {
   "property": "C118",
   "status": "partial",
   "theorems": [
    "C118_success_means_taken_refuted",
    "C118_success_means_taken_partial",
    "C118_counts_ignored",
    "C118_folding_writer_honest"
   ],
   "note": "FALSE in general (C118_success_means_taken_refuted): the counts are ignored, so that a writer that takes less and reports no error goes unnoticed (bufio.Writer and io.Copy report io.ErrShortWrite). Proved for writers that keep to the contract of io.Writer, and that the counts change nothing."
  },
  {
   "property": "C119",
   "status": "partial",
   "theorems": [
    "C119_parameters",
    "C119_components",
    "C119_properties_partial",
    "C119_tabs_kept",
    "C119_tabs_lost",
    "C119_properties_refuted"
   ],
   "note": "Proved for parameters and components. FALSE for properties (C119_properties_refuted): genProperties.sh has tabs in IFS, so that read removes the tab by which a parameter is told from a property; no description gives the properties.go that is there. With IFS as in genSections.sh it would."
  },
  {
   "property": "C120",
   "status": "partial",
   "theorems": [
    "C120_every_rule_partial",
    "C120_every_rule_refuted"
   ],
   "note": "FALSE with three or more rules in a component (C120_every_rule_refuted): the script takes the length of the first rule for the number of rules, and keeps the first and the last. Proved with up to two, as in the repository."
  },
  {
   "property": "C121",
   "status": "proved",
   "theorems": [
    "C121_unreadable_line"
   ],
   "note": "Also for the lines that panic. A second line of a property that may be given once is excluded: it is refused for that, before it is read."
  },
  {
   "property": "C122",
   "status": "proved",
   "theorems": [
    "C122_only_pieces",
    "C122_calls",
    "C122_calendars",
    "C122_fold_free"
   ],
   "note": "Folds are left out of the last part because with them the result does depend on the pieces (C07)."
  },
  {
   "property": "C123",
   "status": "proved",
   "theorems": [
    "C123_twice",
    "C123_once",
    "C123_size",
    "C123_lines",
    "C123_least"
   ],
   "note": "The work within one value is not counted. C123_least says that the account leaves out no line up to the end of a calendar that is returned."
  },
  {
   "property": "C124",
   "status": "proved",
   "theorems": [
    "C124_never_empty",
    "C124_one_line"
   ],
   "note": ""
  },
  {
   "property": "C125",
   "status": "proved",
   "theorems": [
    "C125_written",
    "C125_read_and_written",
    "C125_read_numbers",
    "C125_text",
    "C125_value"
   ],
   "note": "The texts of addresses, names of zones and numbers with a fraction come from the standard library and are counted with their length."
  },
  {
   "property": "C126",
   "status": "proved",
   "theorems": [
    "C126_dates_in_order",
    "C126_utc_in_order",
    "C126_not_in_zones"
   ],
   "note": ""
  },
  {
   "property": "C127",
   "status": "partial",
   "theorems": [
    "C127_media_types_partial",
    "C127_types_read",
    "C127_types_accepted",
    "C127_only_media_types_refuted",
    "C127_carets_refuted"
   ],
   "note": "False as stated: every media type is read and accepted, but so is any text that has, somewhere, a slash between two characters of a set (the pattern is not anchored, and +-^ in it is a range), and a media type with a caret, which RFC 4288 allows, makes Encode run for ever. The theorems say exactly which texts are accepted."
  },
  {
   "property": "C128",
   "status": "proved",
   "theorems": [
    "C128_shown",
    "C128_near",
    "C128_written_and_read",
    "C128_one_of_two"
   ],
   "note": ""
  },
  {
   "property": "C129",
   "status": "proved",
   "theorems": [
    "C129_edited_calendars",
    "C129_one_field",
    "C129_many_calendars"
   ],
   "note": "What is lost without any change is said in C66; a folded text has to come in one read (C07)."
  },
  {
   "property": "C130",
   "status": "partial",
   "theorems": [
    "C130_unnamed_zone_refuted",
    "C130_unknown_zone_refuted",
    "C130_other_zone_refuted",
    "C130_same_clocks_refuted",
    "C130_same_moment_partial",
    "C130_unknown_anywhere_refuted",
    "C130_any_reads_partial"
   ],
   "note": "False of the code, which writes the name of every location other than UTC and Local as TZID. With no name the moment is read in UTC, moved by the offset; with a name that is not known Decode fails; with a name that is known it is read at the same time of day in that zone, and so are all times of any calendar. Kept are the moments in UTC, in local time and in zones of the database."
  },
  {
   "property": "C131",
   "status": "proved",
   "theorems": [
    "C131_built_calendars",
    "C131_nothing_else_changes",
    "C131_any_reads",
    "C131_exactly"
   ],
   "note": "For texts that come in one read, and in any number of reads if no fold lies across the end of one (C07). What Encode refuses is C60; moments in locations that the reader does not know are C130; addresses are as in C37."
  },
  {
   "property": "C132",
   "status": "proved",
   "theorems": [
    "C132_one_unread",
    "C132_any_reads",
    "C132_readable_exactly",
    "C132_read_by_property"
   ],
   "note": "For texts that come in one read, and in any number of reads if no fold lies across the end of one (C07). Exactly: from one read a calendar can be read if and only if each of its properties can, and the rules between fields are met. LAST-MODIFIED is left aside since its lines are never read (C44). An instance, date-times in locations that the reader does not know, is C130_unknown_anywhere_refuted."
  }
 ]
}