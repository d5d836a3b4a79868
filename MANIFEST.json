{
 "claims": [
  {
   "property": "C01",
   "status": "proved",
   "theorems": [
    "C01_bit_field_write_read"
   ],
   "note": ""
  },
  {
   "property": "C02",
   "status": "proved",
   "theorems": [
    "C02_frame_address_packs_unpacks",
    "C02_frame_address_injective",
    "C02_frame_address_rebuild"
   ],
   "note": ""
  },
  {
   "property": "C03",
   "status": "proved",
   "theorems": [
    "C03_frame_address_order"
   ],
   "note": ""
  },
  {
   "property": "C04",
   "status": "proved",
   "theorems": [
    "C04_ecc_update_local",
    "C04_ecc_update_stable"
   ],
   "note": ""
  },
  {
   "property": "C05",
   "status": "proved",
   "theorems": [
    "C05_ecc_payload_flips",
    "C05_ecc_secded",
    "C05_updated_frames"
   ],
   "note": ""
  },
  {
   "property": "C06",
   "status": "proved",
   "theorems": [
    "C06_crc_linear",
    "C06_crc_bijective",
    "C06_crc_detects_one_corrupted_write"
   ],
   "note": ""
  },
  {
   "property": "C07",
   "status": "proved",
   "theorems": [
    "C07_next_frame_increases",
    "C07_walk_terminates"
   ],
   "note": ""
  },
  {
   "property": "C08",
   "status": "proved",
   "theorems": [
    "C08_valid_is_described",
    "C08_next_frame_is_a_frame",
    "C08_cfg_clb_refuted",
    "C08_valid_ignores_high_bits",
    "C08_next_frame_of_any_address",
    "C08_refuted_unused_bits_must_be_zero"
   ],
   "note": "Proved for parts whose description fits the address fields. C08_cfg_clb_refuted: a CFG_CLB bus is filed by the code under block type 0, so its frames (block type 2) are not recognised; no Series-7 part of the database lists one. C08_refuted_unused_bits_must_be_zero: bits 31..26 of an address are ignored by the validity test and kept by the walk."
  },
  {
   "property": "C09",
   "status": "proved",
   "theorems": [
    "C09_walk_is_complete",
    "C09_next_frame_is_least",
    "C09_regular_no_holes",
    "C09_holes_refuted"
   ],
   "note": "Proved under the no-holes hypothesis of the property (C09_regular_no_holes gives a simple sufficient condition). C09_holes_refuted shows the hypothesis is needed."
  },
  {
   "property": "C10",
   "status": "proved",
   "theorems": [
    "C10_completion_is_conservative"
   ],
   "note": ""
  },
  {
   "property": "C11",
   "status": "proved",
   "theorems": [
    "C11_fitting_parts_terminate",
    "C11_too_many_rows_refuted",
    "C11_addressable_parts_terminate",
    "C11_other_parts_loop_for_ever",
    "C11_terminates_exactly"
   ],
   "note": "C11_terminates_exactly characterises termination; C11_too_many_rows_refuted is the earlier counterexample to unconditional termination, an instance of C11_other_parts_loop_for_ever."
  },
  {
   "property": "C12",
   "status": "proved",
   "theorems": [
    "C12_payload_layout",
    "C12_payload_length",
    "C12_emitted_payload",
    "C12_any_frames"
   ],
   "note": ""
  },
  {
   "property": "C13",
   "status": "proved",
   "theorems": [
    "C13_program",
    "C13_order",
    "C13_words"
   ],
   "note": ""
  },
  {
   "property": "C14",
   "status": "proved",
   "theorems": [
    "C14_header_layout",
    "C14_type1_round_trip",
    "C14_type2_round_trip",
    "C14_count_overflow_refuted"
   ],
   "note": ""
  },
  {
   "property": "C15",
   "status": "proved",
   "theorems": [
    "C15_step_stays_inside",
    "C15_iteration_ends"
   ],
   "note": ""
  },
  {
   "property": "C16",
   "status": "proved",
   "theorems": [
    "C16_word_stream",
    "C16_word_stream_unique"
   ],
   "note": ""
  },
  {
   "property": "C17",
   "status": "proved",
   "theorems": [
    "C17_container"
   ],
   "note": ""
  },
  {
   "property": "C18",
   "status": "proved",
   "theorems": [
    "C18_long_field_refuted",
    "C18_header_layout",
    "C18_length_correct_iff"
   ],
   "note": "C18_long_field_refuted: the earlier expectation (the length is always right) is false for every part name of 65535 bytes or more."
  },
  {
   "property": "C19",
   "status": "proved",
   "theorems": [
    "C19_pipe_refuted",
    "C19_append_refuted",
    "C19_every_destination"
   ],
   "note": "C19_every_destination is the full statement; C19_pipe_refuted and C19_append_refuted refute the expectation that the container is always right."
  },
  {
   "property": "C20",
   "status": "proved",
   "theorems": [
    "C20_no_sync_word",
    "C20_words_after_first_sync"
   ],
   "note": ""
  },
  {
   "property": "C21",
   "status": "proved",
   "theorems": [
    "C21_safe_exactly",
    "C21_truncated_tail_refuted",
    "C21_whole_words_safe"
   ],
   "note": "C21_truncated_tail_refuted: the expectation that reading is always safe is false."
  },
  {
   "property": "C22",
   "status": "proved",
   "theorems": [
    "C22_packets_survive_the_file",
    "C22_sync_in_name_refuted",
    "C22_any_header_without_the_sync_word"
   ],
   "note": ""
  },
  {
   "property": "C23",
   "status": "proved",
   "theorems": [
    "C23_frames_survive",
    "C23_any_run"
   ],
   "note": ""
  },
  {
   "property": "C24",
   "status": "proved",
   "theorems": [
    "C24_no_bit_lost"
   ],
   "note": ""
  },
  {
   "property": "C25",
   "status": "proved",
   "theorems": [
    "C25_foreign_frame_refuted",
    "C25_foreign_frames"
   ],
   "note": "C25_foreign_frame_refuted: a concrete case against the expectation that foreign frames are harmless."
  },
  {
   "property": "C26",
   "status": "proved",
   "theorems": [
    "C26_foreign_device_rejected",
    "C26_other_device"
   ],
   "note": ""
  },
  {
   "property": "C27",
   "status": "proved",
   "theorems": [
    "C27_decoded_frames_come_from_fdri"
   ],
   "note": ""
  },
  {
   "property": "C28",
   "status": "proved",
   "theorems": [
    "C28_deterministic",
    "C28_only_the_map_matters"
   ],
   "note": ""
  },
  {
   "property": "C29",
   "status": "proved",
   "theorems": [
    "C29_ecc_refuted",
    "C29_ecc_exactly"
   ],
   "note": "C29_ecc_refuted: the expectation that emitted frames always carry a valid ECC is false."
  },
  {
   "property": "C30",
   "status": "proved",
   "theorems": [
    "C30_lines_are_independent",
    "C30_tick_ended_line_refuted"
   ],
   "note": "C30_tick_ended_line_refuted shows that the excluded lines really behave differently."
  },
  {
   "property": "C31",
   "status": "proved",
   "theorems": [
    "C31_file_denotation",
    "C31_one_feature"
   ],
   "note": ""
  },
  {
   "property": "C32",
   "status": "proved",
   "theorems": [
    "C32_comments_and_blanks_are_silent"
   ],
   "note": ""
  },
  {
   "property": "C33",
   "status": "proved",
   "theorems": [
    "C33_result_is_the_worst",
    "C33_success_means_well_formed",
    "C33_never_improves"
   ],
   "note": ""
  },
  {
   "property": "C34",
   "status": "proved",
   "theorems": [
    "C34_always_terminates",
    "C34_reads_inside_the_text",
    "C34_shift_defined_iff",
    "C34_reads_past_the_end_refuted",
    "C34_shift_too_far_refuted"
   ],
   "note": "C34_*_refuted: concrete texts on which the code reads past its end or shifts too far, so both exclusions are needed."
  },
  {
   "property": "C35",
   "status": "proved",
   "theorems": [
    "C35_no_final_newline_rejected"
   ],
   "note": ""
  },
  {
   "property": "C36",
   "status": "proved",
   "theorems": [
    "C36_wide_values_are_split_without_loss",
    "C36_unpadded_value_refuted"
   ],
   "note": "C36_unpadded_value_refuted: the natural 24-digit form of a 96-bit value is misread."
  },
  {
   "property": "C37",
   "status": "proved",
   "theorems": [
    "C37_numbers_wrap_silently",
    "C37_overflow_reported_refuted",
    "C37_what_is_reported"
   ],
   "note": "C37_overflow_reported_refuted: the expected behaviour (an error) does not hold."
  },
  {
   "property": "C38",
   "status": "proved",
   "theorems": [
    "C38_every_consumer",
    "C38_refusal_is_reported",
    "C38_parse_goes_on_refuted"
   ],
   "note": "C38_parse_goes_on_refuted: the parse does not stop at a refusal."
  },
  {
   "property": "C39",
   "status": "proved",
   "theorems": [
    "C39_annotations_in_order",
    "C39_escaped_backslash_refuted"
   ],
   "note": "C39_escaped_backslash_refuted: a value ending in an escaped backslash is not recognised, as the property says (the FASM language allows it)."
  },
  {
   "property": "C40",
   "status": "proved",
   "theorems": [
    "C40_features_to_bits",
    "C40_text_to_bits",
    "C40_file_to_bits"
   ],
   "note": ""
  },
  {
   "property": "C41",
   "status": "proved",
   "theorems": [
    "C41_line_order_is_irrelevant",
    "C41_permuted_or_repeated_lines"
   ],
   "note": ""
  },
  {
   "property": "C42",
   "status": "proved",
   "theorems": [
    "C42_more_features_more_bits",
    "C42_more_lines",
    "C42_more_lines_no_stepdown",
    "C42_implied_bit_lost_refuted"
   ],
   "note": "C42_implied_bit_lost_refuted: the exception really happens."
  },
  {
   "property": "C43",
   "status": "proved",
   "theorems": [
    "C43_frames_of_features",
    "C43_used_buses_complete"
   ],
   "note": ""
  },
  {
   "property": "C44",
   "status": "proved",
   "theorems": [
    "C44_zero_features_do_nothing",
    "C44_zero_feature_not_looked_up"
   ],
   "note": ""
  },
  {
   "property": "C45",
   "status": "proved",
   "theorems": [
    "C45_features_malformed_error",
    "C45_features_unknown_abort",
    "C45_unknown_feature_aborts",
    "C45_malformed_name_is_an_error",
    "C45_success_means_known"
   ],
   "note": ""
  },
  {
   "property": "C46",
   "status": "proved",
   "theorems": [
    "C46_pseudo_pip_changes_nothing",
    "C46_pseudo_pip_line_is_idle"
   ],
   "note": ""
  },
  {
   "property": "C47",
   "status": "proved",
   "theorems": [
    "C47_callback_arguments",
    "C47_place_is_unique",
    "C47_place",
    "C47_aliased_place"
   ],
   "note": ""
  },
  {
   "property": "C48",
   "status": "proved",
   "theorems": [
    "C48_cache_is_transparent",
    "C48_read_once"
   ],
   "note": ""
  },
  {
   "property": "C49",
   "status": "proved",
   "theorems": [
    "C49_registry_is_the_package",
    "C49_directions_agree",
    "C49_tiles_listed_once",
    "C49_order_is_irrelevant",
    "C49_banks_of_a_tile",
    "C49_banks_listed_once_refuted"
   ],
   "note": "C49_banks_listed_once_refuted: the bank list of a tile can contain duplicates (exactly one entry per table entry, C49_banks_of_a_tile)."
  },
  {
   "property": "C50",
   "status": "proved",
   "theorems": [
    "C50_one_bank_each",
    "C50_stepdown_exactly_where_needed",
    "C50_uncovered_aborts",
    "C50_used_sites_and_other_banks_untouched",
    "C50_stepdown_bits_are_set"
   ],
   "note": ""
  },
  {
   "property": "C51",
   "status": "proved",
   "theorems": [
    "C51_pudcb_features",
    "C51_pudcb_bits_are_always_set",
    "C51_empty_design"
   ],
   "note": ""
  },
  {
   "property": "C52",
   "status": "proved",
   "theorems": [
    "C52_bad_line_stops",
    "C52_success_means_accepted"
   ],
   "note": ""
  },
  {
   "property": "C53",
   "status": "proved",
   "theorems": [
    "C53_segbits_are_read",
    "C53_malformed_is_rejected",
    "C53_result_or_rejection",
    "C53_one_reading"
   ],
   "note": ""
  },
  {
   "property": "C54",
   "status": "proved",
   "theorems": [
    "C54_pips_are_read",
    "C54_malformed_is_rejected",
    "C54_result_or_rejection"
   ],
   "note": ""
  },
  {
   "property": "C55",
   "status": "proved",
   "theorems": [
    "C55_pins_are_read",
    "C55_malformed_is_rejected",
    "C55_result_or_rejection"
   ],
   "note": ""
  },
  {
   "property": "C56",
   "status": "proved",
   "theorems": [
    "C56_parts_are_resolved",
    "C56_unresolvable_is_an_error",
    "C56_malformed_is_rejected",
    "C56_result_or_rejection"
   ],
   "note": ""
  },
  {
   "property": "C57",
   "status": "proved",
   "theorems": [
    "C57_lossless",
    "C57_lines_in_order",
    "C57_next_byte_is_irrelevant",
    "C57_page_sized_file_is_over_read",
    "C57_other_files_are_not_over_read",
    "C57_file_without_final_newline_refuted"
   ],
   "note": "C57_file_without_final_newline_refuted: 4096 bytes without a final newline make the reader touch the byte after the mapping."
  },
  {
   "property": "C58",
   "status": "proved",
   "theorems": [
    "C58_unsigned_fields",
    "C58_signed_fields",
    "C58_one_reading",
    "C58_only_digits_accepted_refuted"
   ],
   "note": "C58_only_digits_accepted_refuted: blanks and a '+' are accepted too (as absl documents)."
  },
  {
   "property": "C59",
   "status": "proved",
   "theorems": [
    "C59_part_is_read",
    "C59_described_part_is_accepted",
    "C59_rows_are_numbered",
    "C59_frames_are_the_listed_ones"
   ],
   "note": ""
  },
  {
   "property": "C60",
   "status": "proved",
   "theorems": [
    "C60_base_address_is_read",
    "C60_otherwise_an_error",
    "C60_hexadecimal_addresses",
    "C60_block_base",
    "C60_unparsable_is_an_error_refuted"
   ],
   "note": "C60_unparsable_is_an_error_refuted: the naive expectation (an unparsable address is an error) is false."
  },
  {
   "property": "C61",
   "status": "proved",
   "theorems": [
    "C61_text_files",
    "C61_parts_tables",
    "C61_tilegrid",
    "C61_part",
    "C61_otherwise_reported",
    "C61_malformed_is_reported_refuted",
    "C61_database"
   ],
   "note": "C61_malformed_is_reported_refuted: concrete documents that abort instead of being reported. The JSON text parser (rapidjson) is not modelled; the theorems range over parsed documents and over parse failure."
  },
  {
   "property": "C62",
   "status": "proved",
   "theorems": [
    "C62_exit_zero_means_a_bitstream_of_the_design",
    "C62_good_designs_are_written",
    "C62_status_and_output",
    "C62_exit_one_means_it_gives_up",
    "C62_giving_up_is_not_success",
    "C62_database_path",
    "C62_flag_decides",
    "C62_input",
    "C62_unopened_file"
   ],
   "note": ""
  },
  {
   "property": "C63",
   "status": "proved",
   "theorems": [
    "C63_inverted_range_is_dropped"
   ],
   "note": ""
  },
  {
   "property": "C64",
   "status": "proved",
   "theorems": [
    "C64_alias_renames_only_whole_rests",
    "C64_aliased_site_not_renamed",
    "C64_sites_are_renamed_refuted"
   ],
   "note": "C64_sites_are_renamed_refuted: a concrete SING tile where the site in front of the remainder is not renamed."
  },
  {
   "property": "C65",
   "status": "proved",
   "theorems": [
    "C65_every_run",
    "C65_header_is_constant"
   ],
   "note": ""
  },
  {
   "property": "C66",
   "status": "proved",
   "theorems": [
    "C66_only_the_third_component_counts",
    "C66_every_stepdown_name_counts_refuted"
   ],
   "note": "C66_every_stepdown_name_counts_refuted: a STEPDOWN later in the name is not noticed."
  },
  {
   "property": "C67",
   "status": "proved",
   "theorems": [
    "C67_bit_outside_frame_is_undefined"
   ],
   "note": ""
  },
  {
   "property": "C68",
   "status": "proved",
   "theorems": [
    "C68_grid_is_read",
    "C68_described_grid_is_accepted",
    "C68_each_tile",
    "C68_no_tile_is_lost"
   ],
   "note": ""
  },
  {
   "property": "C69",
   "status": "proved",
   "theorems": [
    "C69_database_is_loaded",
    "C69_described_database_is_accepted",
    "C69_tile_types"
   ],
   "note": ""
  },
  {
   "property": "C70",
   "status": "proved",
   "theorems": [
    "C70_every_type_can_be_asked_for",
    "C70_malformed_type_is_treated_as_missing",
    "C70_its_features_abort"
   ],
   "note": ""
  },
  {
   "property": "C71",
   "status": "proved",
   "theorems": [
    "C71_exit_zero_from_the_files",
    "C71_exit_zero_for_a_fasm_file",
    "C71_covered_designs_are_written",
    "C71_exit_zero_for_any_reading",
    "C71_covered_designs_are_written_for_any_reading"
   ],
   "note": ""
  },
  {
   "property": "C72",
   "status": "proved",
   "theorems": [
    "C72_valid_is_listed",
    "C72_listed_are_valid",
    "C72_order_is_irrelevant",
    "C72_next_frame",
    "C72_walk_is_complete",
    "C72_listing_a_device"
   ],
   "note": ""
  },
  {
   "property": "C73",
   "status": "proved",
   "theorems": [
    "C73_read",
    "C73_write",
    "C73_write_read",
    "C73_size",
    "C73_iteration",
    "C73_words_round_trip",
    "C73_reader_uses_it"
   ],
   "note": ""
  },
  {
   "property": "C74",
   "status": "proved",
   "theorems": [
    "C74_header",
    "C74_header_recoverable",
    "C74_logic_data",
    "C74_own_bitstreams"
   ],
   "note": ""
  },
  {
   "property": "C75",
   "status": "proved",
   "theorems": [
    "C75_frame_list",
    "C75_frame_list_determines_addresses",
    "C75_own_bitstreams",
    "C75_printed_fields",
    "C75_printed_address_is_unique",
    "C75_register_names",
    "C75_register_table"
   ],
   "note": ""
  },
  {
   "property": "C76",
   "status": "proved",
   "theorems": [
    "C76_decoder_semantics"
   ],
   "note": ""
  },
  {
   "property": "C77",
   "status": "proved",
   "theorems": [
    "C77_one_description",
    "C77_reproducible",
    "C77_two_pudcb_pins_refuted",
    "C77_same_behaviour"
   ],
   "note": "C77_two_pudcb_pins_refuted shows that the hypothesis on PUDC_B pins is needed."
  },
  {
   "property": "C78",
   "status": "proved",
   "theorems": [
    "C78_one_result",
    "C78_how_every_run_ends",
    "C78_never_undefined"
   ],
   "note": ""
  },
  {
   "property": "C79",
   "status": "proved",
   "theorems": [
    "C79_loading",
    "C79_unusable_command",
    "C79_undescribed_database"
   ],
   "note": ""
  },
  {
   "property": "C80",
   "status": "proved",
   "theorems": [
    "C80_same_parse",
    "C80_result_is_the_worst_message",
    "C80_silence_is_success",
    "C80_lines_are_reported_by_number",
    "C80_named_lines_have_a_problem",
    "C80_messages_start_with_the_line",
    "C80_the_tool_always_says_line_one",
    "C80_line_numbers_of_the_tool_refuted",
    "C80_refused_exactly_after_an_error",
    "C80_frames_only_without_errors"
   ],
   "note": "C80_line_numbers_of_the_tool_refuted: the expectation that the number in a message of fpga-as is the number of the line is false; C80_the_tool_always_says_line_one is the general statement."
  },
  {
   "property": "C81",
   "status": "proved",
   "theorems": [
    "C81_same_bytes_exactly_for_the_same_bits"
   ],
   "note": ""
  },
  {
   "property": "C82",
   "status": "proved",
   "theorems": [
    "C82_crc_is_crc32c",
    "C82_remainder_unique",
    "C82_detects_bursts",
    "C82_parity_law",
    "C82_detects_three_bits",
    "C82_detects_odd_flips"
   ],
   "note": ""
  },
  {
   "property": "C83",
   "status": "proved",
   "theorems": [
    "C83_update_gives_code_word",
    "C83_code_word_unique",
    "C83_consistent_iff_code_word",
    "C83_positions"
   ],
   "note": ""
  },
  {
   "property": "C84",
   "status": "proved",
   "theorems": [
    "C84_no_abort",
    "C84_never_stuck",
    "C84_ends",
    "C84_all_done",
    "C84_alone",
    "C84_shared_entry_refuted"
   ],
   "note": "Proved for work lists whose items have different cache entries. C84_shared_entry_refuted: without this a process can be ended by an exception."
  },
  {
   "property": "C85",
   "status": "proved",
   "theorems": [
    "C85_whole_entries",
    "C85_entries_stay",
    "C85_readers_safe",
    "C85_shared_entry_refuted"
   ],
   "note": "Proved for work lists whose items have different cache entries. C85_shared_entry_refuted: without this an empty entry can be published and believed for ever."
  },
  {
   "property": "C86",
   "status": "proved",
   "theorems": [
    "C86_nothing_left",
    "C86_verdict",
    "C86_verdict_fresh",
    "C86_interrupted_refuted"
   ],
   "note": "Proved for runs whose clang-tidy calls were not interrupted. C86_interrupted_refuted: an interrupted run exits 0 with nothing checked."
  },
  {
   "property": "C87",
   "status": "proved",
   "theorems": [
    "C87_files",
    "C87_once",
    "C87_key_unique",
    "C87_order",
    "C87_entry_name",
    "C87_header_change",
    "C87_work_list",
    "C87_double_include_refuted",
    "C87_twin_headers_refuted"
   ],
   "note": "C87_double_include_refuted, C87_twin_headers_refuted: changes of headers that the key does not notice, as the property says."
  },
  {
   "property": "C88",
   "status": "proved",
   "theorems": [
    "C88_characters",
    "C88_named_file",
    "C88_named_file_found",
    "C88_named_file_unique",
    "C88_kept",
    "C88_lines",
    "C88_idempotent",
    "C88_whole_lines",
    "C88_mention_refuted"
   ],
   "note": "C88_mention_refuted: a complaint mentioning another location is lost, as the property says."
  },
  {
   "property": "C89",
   "status": "proved",
   "theorems": [
    "C89_found",
    "C89_counted_unique",
    "C89_all_counted",
    "C89_summary",
    "C89_status",
    "C89_status_values",
    "C89_adjacent_refuted"
   ],
   "note": "C89_adjacent_refuted: the second of two adjacent complaints is not counted, as the property says."
  },
  {
   "property": "C90",
   "status": "proved",
   "theorems": [
    "C90_bit_places",
    "C90_place_exists",
    "C90_places_differ",
    "C90_size",
    "C90_rest_constant"
   ],
   "note": ""
  },
  {
   "property": "C91",
   "status": "proved",
   "theorems": [
    "C91_same_run",
    "C91_refusal_is_explained",
    "C91_success_prints_only_warnings",
    "C91_every_reason_is_reported",
    "C91_what_stderr_shows"
   ],
   "note": ""
  },
  {
   "property": "C92",
   "status": "proved",
   "theorems": [
    "C92_cut_file",
    "C92_all_or_nothing",
    "C92_every_cut_is_safe_refuted"
   ],
   "note": "C92_every_cut_is_safe_refuted: the stronger claim that every cut is reported as an error, or at least read without undefined behaviour, is false; the property states what happens at each cut."
  },
  {
   "property": "C93",
   "status": "proved",
   "theorems": [
    "C93_same_run",
    "C93_interrupted",
    "C93_interrupted_decodes"
   ],
   "note": ""
  },
  {
   "property": "C94",
   "status": "proved",
   "theorems": [
    "C94_full_device",
    "C94_full_pipe",
    "C94_failed_run_writes_nothing",
    "C94_status_zero_means_complete_refuted"
   ],
   "note": "C94_status_zero_means_complete_refuted: status 0 does not imply a complete file, as the property says."
  },
  {
   "property": "C95",
   "status": "proved",
   "theorems": [
    "C95_header_texts",
    "C95_header_time",
    "C95_only_the_clock",
    "C95_case_run"
   ],
   "note": ""
  },
  {
   "property": "C96",
   "status": "proved",
   "theorems": [
    "C96_nothing_else_is_read",
    "C96_which_files",
    "C96_all_of_them",
    "C96_no_file_twice"
   ],
   "note": ""
  },
  {
   "property": "C97",
   "status": "proved",
   "theorems": [
    "C97_local_change",
    "C97_local_words",
    "C97_without_stepdown"
   ],
   "note": ""
  },
  {
   "property": "C98",
   "status": "proved",
   "theorems": [
    "C98_bounded",
    "C98_released",
    "C98_opened_files",
    "C98_closed_at_once"
   ],
   "note": ""
  },
  {
   "property": "C99",
   "status": "proved",
   "theorems": [
    "C99_series7",
    "C99_payload",
    "C99_frames_survive"
   ],
   "note": ""
  },
  {
   "property": "C100",
   "status": "proved",
   "theorems": [
    "C100_command",
    "C100_own_file",
    "C100_settings",
    "C100_apostrophe_refuted"
   ],
   "note": "Proved for texts without apostrophes. C100_apostrophe_refuted: with one in a file name the shell runs something else, as the property says."
  },
  {
   "property": "C101",
   "status": "proved",
   "theorems": [
    "C101_base",
    "C101_shared",
    "C101_config_change",
    "C101_arguments",
    "C101_fingerprint_refuted",
    "C101_directory"
   ],
   "note": "C101_fingerprint_refuted: the fingerprint is an exclusive or, so it can be 0 whatever the configuration; the property claims no more than the 32 bits."
  },
  {
   "property": "C102",
   "status": "proved",
   "theorems": [
    "C102_lines",
    "C102_determined",
    "C102_relative",
    "C102_untouched",
    "C102_given",
    "C102_project",
    "C102_dot_refuted",
    "C102_idempotent_refuted"
   ],
   "note": "C102_dot_refuted, C102_idempotent_refuted: dots match any character and the clean-up is not idempotent; the property says the first and does not claim the second."
  },
  {
   "property": "C103",
   "status": "proved",
   "theorems": [
    "C103_begins",
    "C103_message",
    "C103_workers",
    "C103_work_done",
    "C103_no_worker_refuted",
    "C103_workers_signed"
   ],
   "note": "C103_no_worker_refuted: no worker when the number of processors is unknown, as the property says."
  },
  {
   "property": "C104",
   "status": "proved",
   "theorems": [
    "C104_same_load",
    "C104_message_is_true",
    "C104_every_failure_is_explained",
    "C104_what_the_program_says",
    "C104_message_names_the_file_refuted",
    "C104_named_table_is_at_fault_refuted"
   ],
   "note": "The texts made by libraries (a JSON value shown, rapidjson's parse error, strerror) are parameters. Refuted: that the message tells which file is at fault, and that the table it names is the one at fault."
  },
  {
   "property": "C105",
   "status": "proved",
   "theorems": [
    "C105_device_configured",
    "C105_other_device",
    "C105_same_as_reader"
   ],
   "note": "The receiving device is an environment model written from UG470 (FpgaSpec), not code of /repo."
  },
  {
   "property": "C106",
   "status": "proved",
   "theorems": [
    "C106_transfer_stops",
    "C106_started_complete"
   ],
   "note": ""
  },
  {
   "property": "C107",
   "status": "proved",
   "theorems": [
    "C107_any_frame_data",
    "C107_flipped_bit",
    "C107_damage_detected_refuted"
   ],
   "note": "C107_damage_detected_refuted: the expectation that damage is noticed is false, as the property says. The device is the environment model FpgaSpec."
  },
  {
   "property": "C108",
   "status": "proved",
   "theorems": [
    "C108_report",
    "C108_checkouts",
    "C108_rows_readable",
    "C108_rows_named",
    "C108_unwritable_refuted"
   ],
   "note": "C108_unwritable_refuted: undefined behaviour with a summary file that cannot be opened, as the property says. Names are texts; no symbolic links inside the cache directory."
  },
  {
   "property": "C109",
   "status": "proved",
   "theorems": [
    "C109_a_fixed_directory_explains_the_run",
    "C109_what_is_seen_determines_the_run",
    "C109_replaced_outside_the_run",
    "C109_replaced_during_the_run",
    "C109_refuted_one_database_or_the_other"
   ],
   "note": "C109_refuted_one_database_or_the_other: an update is not atomic for a run; the rest holds for every sequence of replacements."
  },
  {
   "property": "C110",
   "status": "proved",
   "theorems": [
    "C110_cut_inside_a_line",
    "C110_cut_between_lines",
    "C110_part_of_the_design",
    "C110_always_noticed_refuted"
   ],
   "note": "C110_always_noticed_refuted: a cut between lines is not noticed, as the property says. The part about cuts between lines is for databases in the documented form (hypotheses of C78)."
  },
  {
   "property": "C111",
   "status": "proved",
   "theorems": [
    "C111_reports_stand_in_the_text",
    "C111_each_line_reports_itself",
    "C111_line_numbers_ascend"
   ],
   "note": ""
  },
  {
   "property": "C112",
   "status": "proved",
   "theorems": [
    "C112_newer_database_same_file",
    "C112_added_segment_bits",
    "C112_added_pseudo_pips",
    "C112_any_added_line_refuted"
   ],
   "note": "C112_newer_database_same_file is the general theorem, C112_added_segment_bits and C112_added_pseudo_pips show that appended lines give such an edition. C112_any_added_line_refuted: a pseudo pip line for a name with segment bits hides them, silently."
  },
  {
   "property": "C113",
   "status": "proved",
   "theorems": [
    "C113_features_in_the_file",
    "C113_satisfied_exactly_without_contradiction",
    "C113_contradictions_are_noticed_refuted"
   ],
   "note": "C113_contradictions_are_noticed_refuted: a design in which one feature sets a bit and another clears it is accepted (exit 0); that is documented nowhere and the program has no check for it."
  },
  {
   "property": "C114",
   "status": "proved",
   "theorems": [
    "C114_only_the_bits_matter",
    "C114_order_and_repetition_of_lines",
    "C114_bit_by_bit"
   ],
   "note": ""
  },
  {
   "property": "C115",
   "status": "proved",
   "theorems": [
    "C115_a_reading_assembles_to_the_same_file",
    "C115_without_the_sites_refuted"
   ],
   "note": "C115_without_the_sites_refuted: the statement's condition on the IO sites is needed; a site used only through cleared bits does not show in the frames, and the reassembled file has STEPDOWN set there."
  },
  {
   "property": "C116",
   "status": "proved",
   "theorems": [
    "C116_same_database_same_file",
    "C116_reordered_grid",
    "C116_reordered_part",
    "C116_reordered_types",
    "C116_reordered_pins",
    "C116_repeated_entries_refuted"
   ],
   "note": "C116_same_database_same_file is the general theorem (its hypothesis: the two directories say the same), C116_reordered_grid, _part, _types and _pins show that re-ordered files do. C116_repeated_entries_refuted: when a (name, bit) is given twice only the first entry counts, so the order of these lines matters; the claim excludes repeated entries."
  },
  {
   "property": "C117",
   "status": "proved",
   "theorems": [
    "C117_accepted_together",
    "C117_apart_the_bits_add_up",
    "C117_in_either_order",
    "C117_contained_adds_nothing",
    "C117_bits_add_up_refuted"
   ],
   "note": "Proved. C117_bits_add_up_refuted: without the exception for implied STEPDOWN features the bits are not the union: a bit of the first design's file is missing in the file of the two designs together."
  },
  {
   "property": "C118",
   "status": "proved",
   "theorems": [
    "C118_lines_can_be_taken_away",
    "C118_any_lines_refuted"
   ],
   "note": "Proved under the side condition on IO sites that the property states. C118_any_lines_refuted: without it the claim is false, taking away the line of a pull-down makes the program crash."
  },
  {
   "property": "C119",
   "status": "proved",
   "theorems": [
    "C119_lines_accepted_alone_are_accepted_together",
    "C119_without_stepdown_each_selection_is_accepted",
    "C119_without_stepdown_each_line_is_accepted",
    "C119_each_line_refuted"
   ],
   "note": "Proved, the converse for texts in which nothing asks for STEPDOWN, as the property states. C119_each_line_refuted: without that the converse is false."
  }
 ]
}