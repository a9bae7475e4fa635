# Print Assumptions of every property theorem

Generated by tools/gen_assumptions.py.

| Theorem | File | Print Assumptions |
|---|---|---|
| `C130_unnamed_zone_refuted` | `PropertiesAbroad.v` | Closed under the global context |
| `C130_unknown_zone_refuted` | `PropertiesAbroad.v` | Closed under the global context |
| `C130_other_zone_refuted` | `PropertiesAbroad.v` | Closed under the global context |
| `C130_same_moment_partial` | `PropertiesAbroad.v` | Closed under the global context |
| `C130_any_reads_partial` | `PropertiesAgain.v` | Closed under the global context |
| `C131_any_reads` | `PropertiesAgain.v` | Closed under the global context |
| `C122_only_pieces` | `PropertiesAnyReader.v` | Closed under the global context |
| `C122_calls` | `PropertiesAnyReader.v` | Closed under the global context |
| `C122_calendars` | `PropertiesAnyReader.v` | Closed under the global context |
| `C122_fold_free` | `PropertiesAnyReader.v` | Closed under the global context |
| `C117_fold_anywhere` | `PropertiesAnywhere.v` | Closed under the global context |
| `C117_fold_anywhere_in_reads` | `PropertiesAnywhere.v` | Closed under the global context |
| `C131_exactly` | `PropertiesBack.v` | Closed under the global context |
| `C48_exactly_partial` | `PropertiesBack.v` | Closed under the global context |
| `C46_in_alarms_refuted` | `PropertiesBox.v` | Closed under the global context |
| `C131_built_calendars` | `PropertiesBuilt.v` | Closed under the global context |
| `C131_nothing_else_changes` | `PropertiesBuilt.v` | Closed under the global context |
| `C97_written_alike_iff` | `PropertiesBuilt.v` | Closed under the global context |
| `C44_last_modified_survives_refuted` | `PropertiesCal.v` | Closed under the global context |
| `C44_last_modified_lines_refuted` | `PropertiesCal.v` | Closed under the global context |
| `C48_calendars_round_trip_partial` | `PropertiesCal.v` | Closed under the global context |
| `C50_cut_output_fails` | `PropertiesCal.v` | Closed under the global context |
| `C51_decoded_calendars_encode_refuted` | `PropertiesCal.v` | Closed under the global context |
| `C51_refused_calendars` | `PropertiesCal.v` | Closed under the global context |
| `C51_decoded_calendars_encode_partial` | `PropertiesCal.v` | Closed under the global context |
| `C52_encoded_calendars_decode_refuted` | `PropertiesCal.v` | Closed under the global context |
| `C52_encoded_calendars_decode_partial` | `PropertiesCal.v` | Closed under the global context |
| `C59_short_lines_are_not_folded` | `PropertiesCal.v` | Closed under the global context |
| `C124_never_empty` | `PropertiesCalls.v` | Closed under the global context |
| `C124_one_line` | `PropertiesCalls.v` | Closed under the global context |
| `C128_shown` | `PropertiesClock.v` | Closed under the global context |
| `C128_near` | `PropertiesClock.v` | Closed under the global context |
| `C128_written_and_read` | `PropertiesClock.v` | Closed under the global context |
| `C128_one_of_two` | `PropertiesClock.v` | Closed under the global context |
| `C07_reads_known_partial` | `PropertiesCuts.v` | Closed under the global context |
| `C07_folds_within_reads_partial` | `PropertiesCuts.v` | Closed under the global context |
| `C10_any_read_refuted` | `PropertiesCuts.v` | Closed under the global context |
| `C48_many_reads_partial` | `PropertiesCuts.v` | Closed under the global context |
| `C10_decode_terminates_partial` | `PropertiesDecode.v` | Closed under the global context |
| `C11_decode_never_panics_refuted` | `PropertiesDecode.v` | Closed under the global context |
| `C11_decode_never_panics_partial` | `PropertiesDecode.v` | Closed under the global context |
| `C55_decode_is_exact` | `PropertiesDecode.v` | Closed under the global context |
| `C55_decode_of_a_shape` | `PropertiesDecode.v` | Closed under the global context |
| `C55_accepted_texts_are_balanced` | `PropertiesDecode.v` | Closed under the global context |
| `C40_required_properties` | `PropertiesDecode.v` | Closed under the global context |
| `C41_single_properties` | `PropertiesDecode.v` | Closed under the global context |
| `C42_cross_property_rules` | `PropertiesDecode.v` | Closed under the global context |
| `C42_decoded_calendars_are_lawful` | `PropertiesDecode.v` | Closed under the global context |
| `C43_duration_with_repeat_refuted` | `PropertiesDecode.v` | Closed under the global context |
| `C45_unknown_properties_ignored` | `PropertiesDecode.v` | Closed under the global context |
| `C46_unknown_components_skipped_partial` | `PropertiesDecode.v` | Closed under the global context |
| `C46_unknown_components_skipped_refuted` | `PropertiesDecode.v` | Closed under the global context |
| `C47_names_ignore_case_partial` | `PropertiesDecode.v` | Closed under the global context |
| `C47_names_ignore_case_refuted` | `PropertiesDecode.v` | Closed under the global context |
| `C49_trailing_data_ignored` | `PropertiesDecode.v` | Closed under the global context |
| `C50_truncated_calendars_fail` | `PropertiesDecode.v` | Closed under the global context |
| `C82_on_demand` | `PropertiesDemand.v` | Closed under the global context |
| `C82_any_reader` | `PropertiesDemand.v` | Closed under the global context |
| `C11_readers_never_panic` | `PropertiesDemand.v` | Closed under the global context |
| `C11_empty_reads_refuted` | `PropertiesDemand.v` | Closed under the global context |
| `C83_when_there` | `PropertiesDemand.v` | Closed under the global context |
| `C83_from_what_was_read` | `PropertiesDemand.v` | Closed under the global context |
| `C84_looks_ahead_refuted` | `PropertiesDemand.v` | Closed under the global context |
| `C84_next_calendar_refuted` | `PropertiesDemand.v` | Closed under the global context |
| `C85_failing_readers` | `PropertiesDemand.v` | Closed under the global context |
| `C86_cut_calendars_partial` | `PropertiesFail.v` | Closed under the global context |
| `C86_cut_calendars_refuted` | `PropertiesFail.v` | Closed under the global context |
| `C86_every_cut` | `PropertiesFail.v` | Closed under the global context |
| `C87_first_fault` | `PropertiesFail.v` | Closed under the global context |
| `C87_settled` | `PropertiesFail.v` | Closed under the global context |
| `C88_fails_at_once` | `PropertiesFail.v` | Closed under the global context |
| `C89_bad_lines` | `PropertiesFail.v` | Closed under the global context |
| `C89_decode_bad_lines` | `PropertiesFail.v` | Closed under the global context |
| `C90_not_a_calendar` | `PropertiesFail.v` | Closed under the global context |
| `C90_value_errors` | `PropertiesFail.v` | Closed under the global context |
| `C90_property_errors` | `PropertiesFail.v` | Closed under the global context |
| `C91_eof_is_the_end_partial` | `PropertiesFail.v` | Closed under the global context |
| `C91_eof_is_the_end_refuted` | `PropertiesFail.v` | Closed under the global context |
| `C01_lines_at_most_75` | `PropertiesFold.v` | Closed under the global context |
| `C02_folding_is_reversible` | `PropertiesFold.v` | Closed under the global context |
| `C02_only_folds_are_added` | `PropertiesFold.v` | Closed under the global context |
| `C02_content_comes_back` | `PropertiesFold.v` | Closed under the global context |
| `C02_clean_calendars_come_back` | `PropertiesFold.v` | Closed under the global context |
| `C03_no_character_is_split` | `PropertiesFold.v` | Closed under the global context |
| `C04_write_boundaries_do_not_matter` | `PropertiesFold.v` | Closed under the global context |
| `C04_same_content_same_output` | `PropertiesFold.v` | Closed under the global context |
| `C05_writer_failures` | `PropertiesFold.v` | Closed under the global context |
| `C06_rejected_calendars_write_nothing` | `PropertiesFold.v` | Closed under the global context |
| `C106_folded_late` | `PropertiesFull.v` | Closed under the global context |
| `C106_one_way` | `PropertiesFull.v` | Closed under the global context |
| `C106_full_lines` | `PropertiesFull.v` | Closed under the global context |
| `C106_overhead` | `PropertiesFull.v` | Closed under the global context |
| `C119_parameters` | `PropertiesGen.v` | Closed under the global context |
| `C119_components` | `PropertiesGen.v` | Closed under the global context |
| `C119_properties_partial` | `PropertiesGen.v` | Closed under the global context |
| `C119_tabs_kept` | `PropertiesGen.v` | Closed under the global context |
| `C119_tabs_lost` | `PropertiesGen.v` | Closed under the global context |
| `C119_properties_refuted` | `PropertiesGen.v` | Closed under the global context |
| `C120_every_rule_partial` | `PropertiesGen.v` | Closed under the global context |
| `C120_every_rule_refuted` | `PropertiesGen.v` | Closed under the global context |
| `C125_written` | `PropertiesGrow.v` | Closed under the global context |
| `C125_read_and_written` | `PropertiesGrow.v` | Closed under the global context |
| `C125_read_numbers` | `PropertiesGrow.v` | Closed under the global context |
| `C125_text` | `PropertiesGrow.v` | Closed under the global context |
| `C125_value` | `PropertiesGrow.v` | Closed under the global context |
| `C115_value_by_value` | `PropertiesInsert.v` | Closed under the global context |
| `C115_written_anywhere` | `PropertiesInsert.v` | Closed under the global context |
| `C66_read_write_read_partial` | `PropertiesKeep.v` | Closed under the global context |
| `C66_read_write_read_refuted` | `PropertiesKeep.v` | Closed under the global context |
| `C67_integers_read` | `PropertiesLang.v` | Closed under the global context |
| `C68_dates_read` | `PropertiesLang.v` | Closed under the global context |
| `C69_binary_read` | `PropertiesLang.v` | Closed under the global context |
| `C70_offsets_of_rfc_partial` | `PropertiesLang.v` | Closed under the global context |
| `C70_offsets_read` | `PropertiesLang.v` | Closed under the global context |
| `C70_offsets_of_rfc_refuted` | `PropertiesLang.v` | Closed under the global context |
| `C71_date_times_of_rfc_partial` | `PropertiesLang.v` | Closed under the global context |
| `C71_times_of_rfc_partial` | `PropertiesLang.v` | Closed under the global context |
| `C71_date_times_read` | `PropertiesLang.v` | Closed under the global context |
| `C71_times_read` | `PropertiesLang.v` | Closed under the global context |
| `C71_moments_of_rfc_refuted` | `PropertiesLang.v` | Closed under the global context |
| `C72_durations_read_partial` | `PropertiesLang.v` | Closed under the global context |
| `C72_durations_of_rfc_refuted` | `PropertiesLang.v` | Closed under the global context |
| `C73_periods_read` | `PropertiesLang.v` | Closed under the global context |
| `C74_rules_of_rfc_partial` | `PropertiesLang.v` | Closed under the global context |
| `C74_rules_read` | `PropertiesLang.v` | Closed under the global context |
| `C74_rules_of_rfc_refuted` | `PropertiesLang.v` | Closed under the global context |
| `C75_text_lists_read` | `PropertiesLang.v` | Closed under the global context |
| `C76_floats_read_partial` | `PropertiesLang.v` | Closed under the global context |
| `C76_pairs_read_partial` | `PropertiesLang.v` | Closed under the global context |
| `C76_only_numbers_refuted` | `PropertiesLang.v` | Closed under the global context |
| `C47_letters` | `PropertiesLetters.v` | Closed under the global context |
| `C47_capitals` | `PropertiesLetters.v` | Closed under the global context |
| `C109_is_utf8` | `PropertiesLetters.v` | Closed under the global context |
| `C110_what_is_written` | `PropertiesLetters.v` | Closed under the global context |
| `C110_characters` | `PropertiesLetters.v` | Closed under the global context |
| `C132_one_unread` | `PropertiesLined.v` | Closed under the global context |
| `C130_unknown_anywhere_refuted` | `PropertiesLined.v` | Closed under the global context |
| `C12_accepted_lines_are_grammatical` | `PropertiesLines.v` | Closed under the global context |
| `C13_grammatical_lines_are_accepted` | `PropertiesLines.v` | Closed under the global context |
| `C103_same_calendar` | `PropertiesMachine.v` | Closed under the global context |
| `C103_same_outcome_partial` | `PropertiesMachine.v` | Closed under the global context |
| `C103_same_moment` | `PropertiesMachine.v` | Closed under the global context |
| `C103_same_text` | `PropertiesMachine.v` | Closed under the global context |
| `C103_same_outcome_refuted` | `PropertiesMachine.v` | Closed under the global context |
| `C103_moments_refuted` | `PropertiesMachine.v` | Closed under the global context |
| `C127_media_types_partial` | `PropertiesMedia.v` | Closed under the global context |
| `C127_types_read` | `PropertiesMedia.v` | Closed under the global context |
| `C127_types_accepted` | `PropertiesMedia.v` | Closed under the global context |
| `C127_only_media_types_refuted` | `PropertiesMedia.v` | Closed under the global context |
| `C127_carets_refuted` | `PropertiesMedia.v` | Closed under the global context |
| `C105_halves` | `PropertiesMerge.v` | Closed under the global context |
| `C105_each` | `PropertiesMerge.v` | Closed under the global context |
| `C105_merge` | `PropertiesMerge.v` | Closed under the global context |
| `C105_without` | `PropertiesMerge.v` | Closed under the global context |
| `C98_message_of_the_first_fault` | `PropertiesMessage.v` | Closed under the global context |
| `C98_message_of_a_line` | `PropertiesMessage.v` | Closed under the global context |
| `C98_same_outcome` | `PropertiesMessage.v` | Closed under the global context |
| `C99_errors_is_partial` | `PropertiesMessage.v` | Closed under the global context |
| `C99_errors_is_refuted` | `PropertiesMessage.v` | Closed under the global context |
| `C100_names_partial` | `PropertiesMessage.v` | Closed under the global context |
| `C100_begins` | `PropertiesMessage.v` | Closed under the global context |
| `C100_alarms_refuted` | `PropertiesMessage.v` | Closed under the global context |
| `C101_encode_says` | `PropertiesMessage.v` | Closed under the global context |
| `C101_message` | `PropertiesMessage.v` | Closed under the global context |
| `C101_begins` | `PropertiesMessage.v` | Closed under the global context |
| `C101_says_validating_refuted` | `PropertiesMessage.v` | Closed under the global context |
| `C126_dates_in_order` | `PropertiesMoments.v` | Closed under the global context |
| `C126_utc_in_order` | `PropertiesMoments.v` | Closed under the global context |
| `C126_not_in_zones` | `PropertiesMoments.v` | Closed under the global context |
| `C111_written_again_partial` | `PropertiesNormal.v` | Closed under the global context |
| `C111_written_again_refuted` | `PropertiesNormal.v` | Closed under the global context |
| `C92_order_of_names` | `PropertiesOrder.v` | Closed under the global context |
| `C93_zones_of_the_calendar_refuted` | `PropertiesOrder.v` | Closed under the global context |
| `C93_global_zones_refuted` | `PropertiesOrder.v` | Closed under the global context |
| `C93_zone_rules_refuted` | `PropertiesOrder.v` | Closed under the global context |
| `C94_zones_are_defined_refuted` | `PropertiesOrder.v` | Closed under the global context |
| `C95_stamps_read` | `PropertiesOrder.v` | Closed under the global context |
| `C95_stamps_in_utc_refuted` | `PropertiesOrder.v` | Closed under the global context |
| `C95_stamps_written_refuted` | `PropertiesOrder.v` | Closed under the global context |
| `C96_rules_between_values_refuted` | `PropertiesOrder.v` | Closed under the global context |
| `C97_written_apart_partial` | `PropertiesOrder.v` | Closed under the global context |
| `C97_written_apart_refuted` | `PropertiesOrder.v` | Closed under the global context |
| `C61_one_line_each_partial` | `PropertiesOut.v` | Closed under the global context |
| `C61_decoded_one_line_each` | `PropertiesOut.v` | Closed under the global context |
| `C61_control_characters_refuted` | `PropertiesOut.v` | Closed under the global context |
| `C61_injection_refuted` | `PropertiesOut.v` | Closed under the global context |
| `C114_line_by_line` | `PropertiesPlace.v` | Closed under the global context |
| `C112_encode_panics_refuted` | `PropertiesPointers.v` | Closed under the global context |
| `C112_encode_panics_iff` | `PropertiesPointers.v` | Closed under the global context |
| `C112_no_nil_partial` | `PropertiesPointers.v` | Closed under the global context |
| `C112_decoded_partial` | `PropertiesPointers.v` | Closed under the global context |
| `C113_alarm_type` | `PropertiesPointers.v` | Closed under the global context |
| `C34_parameter_text_refuted` | `PropertiesProps.v` | Closed under the global context |
| `C34_parameters_round_trip_partial` | `PropertiesProps.v` | Closed under the global context |
| `C56_parameter_escapes_refuted` | `PropertiesProps.v` | Closed under the global context |
| `C56_parameter_escapes_exact` | `PropertiesProps.v` | Closed under the global context |
| `C56_parameter_escapes_partial` | `PropertiesProps.v` | Closed under the global context |
| `C56_reference_round_trips` | `PropertiesProps.v` | Closed under the global context |
| `C35_encode_terminates_refuted` | `PropertiesProps.v` | Closed under the global context |
| `C36_enumerated_parameters` | `PropertiesProps.v` | Closed under the global context |
| `C36_enumerated_properties` | `PropertiesProps.v` | Closed under the global context |
| `C37_uri_parameters_refuted` | `PropertiesProps.v` | Closed under the global context |
| `C38_duplicate_parameters_partial` | `PropertiesProps.v` | Closed under the global context |
| `C38_duplicate_parameters_refuted` | `PropertiesProps.v` | Closed under the global context |
| `C39_properties_round_trip` | `PropertiesProps.v` | Closed under the global context |
| `C57_parameters_are_read` | `PropertiesProps.v` | Closed under the global context |
| `C58_unknown_parameters_ignored` | `PropertiesProps.v` | Closed under the global context |
| `C132_readable_exactly` | `PropertiesReadAll.v` | Closed under the global context |
| `C132_read_by_property` | `PropertiesReadAll.v` | Closed under the global context |
| `C07_byte_readers_refuted` | `PropertiesReaders.v` | Closed under the global context |
| `C07_folds_in_byte_readers_refuted` | `PropertiesReaders.v` | Closed under the global context |
| `C07_line_readers_refuted` | `PropertiesReaders.v` | Closed under the global context |
| `C07_buffers_refuted` | `PropertiesReaders.v` | Closed under the global context |
| `C10_first_read_refuted` | `PropertiesReaders.v` | Closed under the global context |
| `C53_last_byte_refuted` | `PropertiesReaders.v` | Closed under the global context |
| `C80_tab_folds_refuted` | `PropertiesReaders.v` | Closed under the global context |
| `C81_lines_begin_with_names` | `PropertiesReaders.v` | Closed under the global context |
| `C81_bare_line_feeds` | `PropertiesReaders.v` | Closed under the global context |
| `C130_same_clocks_refuted` | `PropertiesRetimed.v` | Closed under the global context |
| `C129_edited_calendars` | `PropertiesRevise.v` | Closed under the global context |
| `C129_one_field` | `PropertiesRevise.v` | Closed under the global context |
| `C129_many_calendars` | `PropertiesRevise.v` | Closed under the global context |
| `C62_lines_read` | `PropertiesRfc.v` | Closed under the global context |
| `C62_parameters_read_partial` | `PropertiesRfc.v` | Closed under the global context |
| `C62_parameters_read_refuted` | `PropertiesRfc.v` | Closed under the global context |
| `C63_lists_read_refuted` | `PropertiesRfc.v` | Closed under the global context |
| `C63_request_status_refuted` | `PropertiesRfc.v` | Closed under the global context |
| `C64_fields_exact` | `PropertiesRfc.v` | Closed under the global context |
| `C64_properties_read_partial` | `PropertiesRfc.v` | Closed under the global context |
| `C64_properties_read_refuted` | `PropertiesRfc.v` | Closed under the global context |
| `C65_numbers_refuted` | `PropertiesRfc.v` | Closed under the global context |
| `C65_values_refuted` | `PropertiesRfc.v` | Closed under the global context |
| `C107_accept` | `PropertiesRune.v` | Closed under the global context |
| `C107_accept_run` | `PropertiesRune.v` | Closed under the global context |
| `C107_except_run` | `PropertiesRune.v` | Closed under the global context |
| `C107_peek` | `PropertiesRune.v` | Closed under the global context |
| `C107_sets` | `PropertiesRune.v` | Closed under the global context |
| `C107_phrases` | `PropertiesRune.v` | Closed under the global context |
| `C107_decode` | `PropertiesRune.v` | Closed under the global context |
| `C107_values` | `PropertiesRune.v` | Closed under the global context |
| `C118_success_means_taken_refuted` | `PropertiesShortWrites.v` | Closed under the global context |
| `C118_success_means_taken_partial` | `PropertiesShortWrites.v` | Closed under the global context |
| `C118_counts_ignored` | `PropertiesShortWrites.v` | Closed under the global context |
| `C118_folding_writer_honest` | `PropertiesShortWrites.v` | Closed under the global context |
| `C104_held_partial` | `PropertiesSize.v` | Closed under the global context |
| `C104_held_read` | `PropertiesSize.v` | Closed under the global context |
| `C104_held_decode` | `PropertiesSize.v` | Closed under the global context |
| `C104_held_tame` | `PropertiesSize.v` | Closed under the global context |
| `C104_held_refuted` | `PropertiesSize.v` | Closed under the global context |
| `C104_held_params_refuted` | `PropertiesSize.v` | Closed under the global context |
| `C102_nothing_made_up` | `PropertiesSource.v` | Closed under the global context |
| `C102_calendars` | `PropertiesSource.v` | Closed under the global context |
| `C102_calendars_whole` | `PropertiesSource.v` | Closed under the global context |
| `C102_nothing_lost_refuted` | `PropertiesSource.v` | Closed under the global context |
| `C116_spelling` | `PropertiesSpell.v` | Closed under the global context |
| `C116_steps` | `PropertiesSpell.v` | Closed under the global context |
| `C108_stack_refuted` | `PropertiesStack.v` | Closed under the global context |
| `C108_begins_refuted` | `PropertiesStack.v` | Closed under the global context |
| `C108_stack_partial` | `PropertiesStack.v` | Closed under the global context |
| `C10_sticks_refuted` | `PropertiesStick.v` | Closed under the global context |
| `C10_returns_partial` | `PropertiesStick.v` | Closed under the global context |
| `C10_settled_partial` | `PropertiesStick.v` | Closed under the global context |
| `C10_on_demand_refuted` | `PropertiesStick.v` | Closed under the global context |
| `C88_when_there` | `PropertiesStick.v` | Closed under the global context |
| `C26_utc_date_times_round_trip` | `PropertiesTime.v` | Closed under the global context |
| `C26_utc_dates_round_trip` | `PropertiesTime.v` | Closed under the global context |
| `C54_utc_times_of_day_round_trip` | `PropertiesTime.v` | Closed under the global context |
| `C27_only_real_dates` | `PropertiesTime.v` | Closed under the global context |
| `C27_only_real_date_times` | `PropertiesTime.v` | Closed under the global context |
| `C28_zoned_date_times_round_trip` | `PropertiesTime.v` | Closed under the global context |
| `C28_local_date_times_round_trip` | `PropertiesTime.v` | Closed under the global context |
| `C29_periods_round_trip` | `PropertiesTime.v` | Closed under the global context |
| `C30_decoded_period_refuted` | `PropertiesTime.v` | Closed under the global context |
| `C30_decoded_period_partial` | `PropertiesTime.v` | Closed under the global context |
| `C31_recurrence_rules_round_trip` | `PropertiesTime.v` | Closed under the global context |
| `C32_decoded_rules_are_in_range` | `PropertiesTime.v` | Closed under the global context |
| `C33_every_rule_refuted` | `PropertiesTime.v` | Closed under the global context |
| `C07_read_boundaries_refuted` | `PropertiesUnfold.v` | Closed under the global context |
| `C08_fold_free_input_is_unchanged` | `PropertiesUnfold.v` | Closed under the global context |
| `C09_one_read_is_unfolded` | `PropertiesUnfold.v` | Closed under the global context |
| `C10_decode_terminates_refuted` | `PropertiesUnfold.v` | Closed under the global context |
| `C53_data_with_eof_refuted` | `PropertiesUnfold.v` | Closed under the global context |
| `C132_any_reads` | `PropertiesUnread.v` | Closed under the global context |
| `C121_unreadable_line` | `PropertiesUnreadable.v` | Closed under the global context |
| `C11_fatal_lines` | `PropertiesUnreadable.v` | Closed under the global context |
| `C11_fatal_lines_refuted` | `PropertiesUnreadable.v` | Closed under the global context |
| `C91_in_alarms_refuted` | `PropertiesUnreadable.v` | Closed under the global context |
| `C109_decode` | `PropertiesUtf.v` | Closed under the global context |
| `C109_encode` | `PropertiesUtf.v` | Closed under the global context |
| `C109_through` | `PropertiesUtf.v` | Closed under the global context |
| `C110_only_utf8_refuted` | `PropertiesUtf.v` | Closed under the global context |
| `C110_texts_kept_refuted` | `PropertiesUtf.v` | Closed under the global context |
| `C110_texts_partial` | `PropertiesUtf.v` | Closed under the global context |
| `C60_encode_refuses_exactly` | `PropertiesValid.v` | Closed under the global context |
| `C14_text_round_trips` | `PropertiesValues.v` | Closed under the global context |
| `C15_text_cannot_inject` | `PropertiesValues.v` | Closed under the global context |
| `C16_text_lists_round_trip` | `PropertiesValues.v` | Closed under the global context |
| `C17_text_decoding_is_exact` | `PropertiesValues.v` | Closed under the global context |
| `C18_integers_round_trip` | `PropertiesValues.v` | Closed under the global context |
| `C18_integers_are_in_range` | `PropertiesValues.v` | Closed under the global context |
| `C19_booleans_round_trip` | `PropertiesValues.v` | Closed under the global context |
| `C19_boolean_spellings` | `PropertiesValues.v` | Closed under the global context |
| `C20_durations_round_trip` | `PropertiesValues.v` | Closed under the global context |
| `C20_decoded_durations_are_plain` | `PropertiesValues.v` | Closed under the global context |
| `C21_every_duration_refuted` | `PropertiesValues.v` | Closed under the global context |
| `C22_rfc_durations_are_accepted` | `PropertiesValues.v` | Closed under the global context |
| `C23_offsets_round_trip` | `PropertiesValues.v` | Closed under the global context |
| `C23_decoded_offsets_are_in_range` | `PropertiesValues.v` | Closed under the global context |
| `C24_every_offset_refuted` | `PropertiesValues.v` | Closed under the global context |
| `C25_binary_round_trips` | `PropertiesValues.v` | Closed under the global context |
| `C25_binary_needs_its_encoding` | `PropertiesValues.v` | Closed under the global context |
| `C123_twice` | `PropertiesWork.v` | Closed under the global context |
| `C123_once` | `PropertiesWork.v` | Closed under the global context |
| `C123_size` | `PropertiesWork.v` | Closed under the global context |
| `C123_lines` | `PropertiesWork.v` | Closed under the global context |
| `C123_least` | `PropertiesWork.v` | Closed under the global context |
| `C77_values_written` | `PropertiesWrite.v` | Closed under the global context |
| `C78_conforming_values_partial` | `PropertiesWrite.v` | Closed under the global context |
| `C78_offsets_refuted` | `PropertiesWrite.v` | Closed under the global context |
| `C78_numbers_refuted` | `PropertiesWrite.v` | Closed under the global context |
| `C79_lines_written` | `PropertiesWritten.v` | Closed under the global context |
| `C79_decoded_lines_written` | `PropertiesWritten.v` | Closed under the global context |
| `C78_calendars_refuted` | `PropertiesWritten.v` | Closed under the global context |
