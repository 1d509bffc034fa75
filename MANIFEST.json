{
 "claims": [
  {
   "property": "C01",
   "status": "proved",
   "theorems": [
    "C01_parse_returns_layout_table",
    "C01_every_text_has_a_layout",
    "C01_plain_cell_value",
    "C01_quoted_cell_value"
   ],
   "note": ""
  },
  {
   "property": "C02",
   "status": "proved",
   "theorems": [
    "C02_only_nul_fails"
   ],
   "note": ""
  },
  {
   "property": "C03",
   "status": "proved",
   "theorems": [
    "C03_plain_dialect_splits"
   ],
   "note": ""
  },
  {
   "property": "C04",
   "status": "proved",
   "theorems": [
    "C04_terminators_irrelevant"
   ],
   "note": ""
  },
  {
   "property": "C05",
   "status": "proved",
   "theorems": [
    "C05_cells_within_limit",
    "C05_nonpositive_limit",
    "C05_oversize_cell_raises",
    "C05_oversize_last_raises",
    "C05_lower_limit_cuts"
   ],
   "note": ""
  },
  {
   "property": "C06",
   "status": "proved",
   "theorems": [
    "C06_quoting_info_irrelevant"
   ],
   "note": ""
  },
  {
   "property": "C07",
   "status": "proved",
   "theorems": [
    "C07_composition"
   ],
   "note": ""
  },
  {
   "property": "C08",
   "status": "proved",
   "theorems": [
    "C08_no_text_lost_refuted",
    "C08_no_text_lost_without_escapechar"
   ],
   "note": "the property as users expect it is refuted; the escape-free part is proved"
  },
  {
   "property": "C09",
   "status": "proved",
   "theorems": [
    "C09_escaped_quotes_literal_refuted",
    "C09_escaped_cell_value"
   ],
   "note": "refuted for cells starting and ending with an escaped quote; exact value proved for all others"
  },
  {
   "property": "C10",
   "status": "proved",
   "theorems": [
    "C10_strict_rejects_closing_quote",
    "C10_strict_agrees",
    "C10_strict_only_cuts_short",
    "C10_strict_agrees_without_quotes_refuted"
   ],
   "note": "strict mode rejects every closed quote; agreement proved without quote and escape characters"
  },
  {
   "property": "C11",
   "status": "proved",
   "theorems": [
    "C11_cells_come_from_the_text"
   ],
   "note": ""
  },
  {
   "property": "C12",
   "status": "proved",
   "theorems": [
    "C12_parser_resumes",
    "C12_error_is_local"
   ],
   "note": ""
  },
  {
   "property": "C13",
   "status": "proved",
   "theorems": [
    "C13_line_num_counts_rows",
    "C13_reader_follows_parser",
    "C13_iterating_is_parse_data"
   ],
   "note": ""
  },
  {
   "property": "C14",
   "status": "proved",
   "theorems": [
    "C14_dialect_object_untouched_refuted",
    "C14_simple_argument_is_updated",
    "C14_no_params_no_change",
    "C14_other_arguments_leave_objects",
    "C14_instance_without_strict"
   ],
   "note": ""
  },
  {
   "property": "C15",
   "status": "proved",
   "theorems": [
    "C15_simple_dialect_roundtrip",
    "C15_named_dialect_roundtrip"
   ],
   "note": ""
  },
  {
   "property": "C16",
   "status": "proved",
   "theorems": [
    "C16_unquoted_roundtrip",
    "C16_same_without_escapechar",
    "C16_same_without_double_quotes",
    "C16_writable_with_escapechar",
    "C16_writable_without_escapechar",
    "C16_no_delimiter_no_writer",
    "C16_double_quote_survives_refuted"
   ],
   "note": ""
  },
  {
   "property": "C17",
   "status": "proved",
   "theorems": [
    "C17_standardize_preserves",
    "C17_same_limit_refuted"
   ],
   "note": ""
  },
  {
   "property": "C18",
   "status": "proved",
   "theorems": [
    "C18_standardize_idempotent"
   ],
   "note": ""
  },
  {
   "property": "C19",
   "status": "proved",
   "theorems": [
    "C19_in_place_effect",
    "C19_exit_codes",
    "C19_wrong_arguments",
    "C19_one_encoding",
    "C19_other_files",
    "C19_one_file"
   ],
   "note": ""
  },
  {
   "property": "C20",
   "status": "proved",
   "theorems": [
    "C20_transpose_cell",
    "C20_transpose_twice",
    "C20_ragged_loses",
    "C20_ragged_write_table_refuted"
   ],
   "note": ""
  },
  {
   "property": "C21",
   "status": "proved",
   "theorems": [
    "C21_ragged_rejected",
    "C21_empty_untouched",
    "C21_otherwise_opened",
    "C21_written",
    "C21_write_then_read",
    "C21_success_is_complete"
   ],
   "note": ""
  },
  {
   "property": "C22",
   "status": "proved",
   "theorems": [
    "C22_header_from_file",
    "C22_header_given",
    "C22_no_rows",
    "C22_repeated_names"
   ],
   "note": ""
  },
  {
   "property": "C23",
   "status": "proved",
   "theorems": [
    "C23_dicts_roundtrip"
   ],
   "note": ""
  },
  {
   "property": "C24",
   "status": "proved",
   "theorems": [
    "C24_unknown_keys_raise",
    "C24_row_written",
    "C24_constructor",
    "C24_constructor_rejects",
    "C24_uppercase_refuted"
   ],
   "note": ""
  },
  {
   "property": "C25",
   "status": "proved",
   "theorems": [
    "C25_base_abstraction_memory_safe",
    "C25_merge_memory_safe",
    "C25_size_irrelevant"
   ],
   "note": ""
  },
  {
   "property": "C26",
   "status": "proved",
   "theorems": [
    "C26_buffer_never_overrun"
   ],
   "note": ""
  },
  {
   "property": "C27",
   "status": "proved",
   "theorems": [
    "C27_abstraction_is_table_shape",
    "C27_abstraction_of_parse",
    "C27_escaped_newline_refuted"
   ],
   "note": ""
  },
  {
   "property": "C28",
   "status": "proved",
   "theorems": [
    "C28_fill_empties_canonical",
    "C28_fill_empties_exact"
   ],
   "note": ""
  },
  {
   "property": "C29",
   "status": "proved",
   "theorems": [
    "C29_alphabet",
    "C29_closed_quotes",
    "C29_nul_exactly"
   ],
   "note": ""
  },
  {
   "property": "C30",
   "status": "proved",
   "theorems": [
    "C30_positive",
    "C30_never_raises",
    "C30_score_of_table",
    "C30_uniform_table"
   ],
   "note": ""
  },
  {
   "property": "C31",
   "status": "proved",
   "theorems": [
    "C31_trichotomy",
    "C31_transitive",
    "C31_equality",
    "C31_comma_first",
    "C31_semicolon_second",
    "C31_derived_comparisons",
    "C31_sorted",
    "C31_sorted_any_arrangement",
    "C31_undefined_refuted"
   ],
   "note": ""
  },
  {
   "property": "C32",
   "status": "proved",
   "theorems": [
    "C32_scores_any_order",
    "C32_detect_any_order"
   ],
   "note": ""
  },
  {
   "property": "C33",
   "status": "proved",
   "theorems": [
    "C33_skip_changes_nothing",
    "C33_detect"
   ],
   "note": ""
  },
  {
   "property": "C34",
   "status": "proved",
   "theorems": [
    "C34_answer",
    "C34_tie_breaker",
    "C34_answer_is_candidate"
   ],
   "note": ""
  },
  {
   "property": "C35",
   "status": "proved",
   "theorems": [
    "C35_limit_restored",
    "C35_limit_never_hit",
    "C35_limit_leaks",
    "C35_surrogate"
   ],
   "note": ""
  },
  {
   "property": "C36",
   "status": "proved",
   "theorems": [
    "C36_symmetric",
    "C36_two_escapes_refuted"
   ],
   "note": ""
  },
  {
   "property": "C37",
   "status": "proved",
   "theorems": [
    "C37_candidates",
    "C37_candidates_encoding",
    "C37_empty_triple",
    "C37_lone_surrogate"
   ],
   "note": ""
  },
  {
   "property": "C38",
   "status": "proved",
   "theorems": [
    "C38_url_filter",
    "C38_candidates_occur",
    "C38_placeholder_refuted"
   ],
   "note": ""
  },
  {
   "property": "C39",
   "status": "proved",
   "theorems": [
    "C39_exact_without_escape",
    "C39_no_quote_character",
    "C39_empty_delimiter",
    "C39_after_escape",
    "C39_wrong_after_escape_refuted"
   ],
   "note": ""
  },
  {
   "property": "C40",
   "status": "proved",
   "theorems": [
    "C40_first_fitting_form",
    "C40_default_delimiters",
    "C40_lines",
    "C40_shape",
    "C40_valid_dialect_refuted"
   ],
   "note": ""
  },
  {
   "property": "C41",
   "status": "proved",
   "theorems": [
    "C41_unquoted_form",
    "C41_single_column"
   ],
   "note": ""
  },
  {
   "property": "C42",
   "status": "proved",
   "theorems": [
    "C42_quoted_form",
    "C42_mixed_form",
    "C42_quoted_column",
    "C42_quoted_lines",
    "C42_rectangular_refuted",
    "C42_line_per_row_refuted",
    "C42_rectangular_mixed_refuted"
   ],
   "note": ""
  },
  {
   "property": "C43",
   "status": "proved",
   "theorems": [
    "C43_normal_is_auto",
    "C43_normal",
    "C43_consistency",
    "C43_unknown_method",
    "C43_exclusive_refuted"
   ],
   "note": ""
  },
  {
   "property": "C44",
   "status": "proved",
   "theorems": [
    "C44_cache_transparent",
    "C44_cache_bounded",
    "C44_detect_any_capacity"
   ],
   "note": ""
  },
  {
   "property": "C45",
   "status": "proved",
   "theorems": [
    "C45_share",
    "C45_bounds",
    "C45_layout"
   ],
   "note": ""
  },
  {
   "property": "C46",
   "status": "proved",
   "theorems": [
    "C46_roundtrip",
    "C46_serialize_iff_valid",
    "C46_invalid",
    "C46_injective",
    "C46_printable_ascii",
    "C46_strings",
    "C46_long_strings_refuted",
    "C46_deserialize_validates_refuted"
   ],
   "note": ""
  },
  {
   "property": "C47",
   "status": "proved",
   "theorems": [
    "C47_conversion_roundtrip",
    "C47_conversion_without_delimiter"
   ],
   "note": ""
  },
  {
   "property": "C48",
   "status": "proved",
   "theorems": [
    "C48_detected",
    "C48_exact",
    "C48_command",
    "C48_failures",
    "C48_every_detected_dialect_refuted",
    "C48_any_filename_refuted",
    "C48_quote_in_filename_refuted"
   ],
   "note": ""
  },
  {
   "property": "C49",
   "status": "proved",
   "theorems": [
    "C49_answer",
    "C49_error",
    "C49_total",
    "C49_empty",
    "C49_bare_cr",
    "C49_detected_refuted"
   ],
   "note": ""
  },
  {
   "property": "C50",
   "status": "proved",
   "theorems": [
    "C50_sha1sum",
    "C50_get_encoding"
   ],
   "note": ""
  },
  {
   "property": "C51",
   "status": "proved",
   "theorems": [
    "C51_detection_on_prefix",
    "C51_no_result",
    "C51_dialect_given",
    "C51_decoding_error"
   ],
   "note": ""
  },
  {
   "property": "C52",
   "status": "proved",
   "theorems": [
    "C52_history",
    "C52_final_limit",
    "C52_one_limit_in_force",
    "C52_fitting_limit",
    "C52_other_limit",
    "C52_accepted_limit_usable_refuted"
   ],
   "note": ""
  },
  {
   "property": "C53",
   "status": "proved",
   "theorems": [
    "C53_writer_params",
    "C53_reader_params",
    "C53_parse_data_params",
    "C53_any_writer_roundtrip"
   ],
   "note": ""
  },
  {
   "property": "C54",
   "status": "proved",
   "theorems": [
    "C54_output_onto_input",
    "C54_other_output"
   ],
   "note": ""
  },
  {
   "property": "C55",
   "status": "proved",
   "theorems": [
    "C55_three_quotes",
    "C55_documented_rule_refuted"
   ],
   "note": ""
  },
  {
   "property": "C56",
   "status": "proved",
   "theorems": [
    "C56_blank_lines",
    "C56_leading_blank_line_refuted"
   ],
   "note": ""
  },
  {
   "property": "C57",
   "status": "proved",
   "theorems": [
    "C57_one_escape_any_order",
    "C57_hash_order_refuted"
   ],
   "note": ""
  },
  {
   "property": "C58",
   "status": "proved",
   "theorems": [
    "C58_highest_score"
   ],
   "note": ""
  },
  {
   "property": "C59",
   "status": "proved",
   "theorems": [
    "C59_quote_rule",
    "C59_two_quotes",
    "C59_comma_over_space",
    "C59_hyphen_loses",
    "C59_other_delimiters",
    "C59_escape_no_effect",
    "C59_escape_shape",
    "C59_escape_rule",
    "C59_escape_exhaustive",
    "C59_each_cell_refuted",
    "C59_column_order_refuted",
    "C59_both_rule",
    "C59_otherwise",
    "C59_otherwise_same_delimiter"
   ],
   "note": ""
  },
  {
   "property": "C60",
   "status": "proved",
   "theorems": [
    "C60_number",
    "C60_three_delimiters",
    "C60_three_escapes",
    "C60_four_delimiters",
    "C60_four"
   ],
   "note": ""
  },
  {
   "property": "C61",
   "status": "proved",
   "theorems": [
    "C61_number",
    "C61_characters",
    "C61_whole",
    "C61_lone_sign"
   ],
   "note": ""
  },
  {
   "property": "C62",
   "status": "proved",
   "theorems": [
    "C62_time",
    "C62_date",
    "C62_datetime"
   ],
   "note": ""
  },
  {
   "property": "C63",
   "status": "proved",
   "theorems": [
    "C63_url",
    "C63_email",
    "C63_ipv4",
    "C63_path"
   ],
   "note": ""
  },
  {
   "property": "C64",
   "status": "proved",
   "theorems": [
    "C64_text",
    "C64_percentage",
    "C64_amount",
    "C64_bytearray",
    "C64_missing"
   ],
   "note": ""
  },
  {
   "property": "C65",
   "status": "proved",
   "theorems": [
    "C65_first",
    "C65_none",
    "C65_strip",
    "C65_quoting",
    "C65_known"
   ],
   "note": ""
  },
  {
   "property": "C66",
   "status": "proved",
   "theorems": [
    "C66_raises",
    "C66_long_integer",
    "C66_deep_nesting",
    "C66_aborts",
    "C66_one_object",
    "C66_no_brace"
   ],
   "note": ""
  },
  {
   "property": "C67",
   "status": "proved",
   "theorems": [
    "C67_removed",
    "C67_unchanged",
    "C67_no_dot",
    "C67_other_characters",
    "C67_delimiters",
    "C67_every_delimiter_refuted"
   ],
   "note": ""
  },
  {
   "property": "C68",
   "status": "proved",
   "theorems": [
    "C68_share",
    "C68_one"
   ],
   "note": ""
  },
  {
   "property": "C69",
   "status": "proved",
   "theorems": [
    "C69_regular",
    "C69_every_regular_refuted"
   ],
   "note": ""
  },
  {
   "property": "C70",
   "status": "proved",
   "theorems": [
    "C70_words"
   ],
   "note": ""
  },
  {
   "property": "C71",
   "status": "proved",
   "theorems": [
    "C71_regular",
    "C71_words",
    "C71_methods_agree_refuted",
    "C71_dashes_refuted"
   ],
   "note": ""
  },
  {
   "property": "C72",
   "status": "proved",
   "theorems": [
    "C72_read",
    "C72_round_trip",
    "C72_every_table_refuted"
   ],
   "note": ""
  },
  {
   "property": "C73",
   "status": "proved",
   "theorems": [
    "C73_exit",
    "C73_json",
    "C73_default",
    "C73_plain",
    "C73_plain_refuted",
    "C73_no_skip"
   ],
   "note": ""
  },
  {
   "property": "C74",
   "status": "proved",
   "theorems": [
    "C74_rows",
    "C74_transposed",
    "C74_exit",
    "C74_empty_refuted",
    "C74_windows_refuted"
   ],
   "note": ""
  },
  {
   "property": "C75",
   "status": "proved",
   "theorems": [
    "C75_module",
    "C75_none",
    "C75_encoding",
    "C75_never_raises_refuted"
   ],
   "note": ""
  },
  {
   "property": "C76",
   "status": "proved",
   "theorems": [
    "C76_call",
    "C76_same",
    "C76_missing",
    "C76_one_column_refuted"
   ],
   "note": ""
  },
  {
   "property": "C77",
   "status": "proved",
   "theorems": [
    "C77_runs",
    "C77_errors_refuted"
   ],
   "note": ""
  },
  {
   "property": "C78",
   "status": "proved",
   "theorems": [
    "C78_quoted",
    "C78_words",
    "C78_every_table_refuted"
   ],
   "note": ""
  },
  {
   "property": "C79",
   "status": "proved",
   "theorems": [
    "C79_quoted",
    "C79_words",
    "C79_methods_agree_refuted"
   ],
   "note": ""
  },
  {
   "property": "C80",
   "status": "proved",
   "theorems": [
    "C80_read",
    "C80_round_trip",
    "C80_every_table_refuted"
   ],
   "note": ""
  },
  {
   "property": "C81",
   "status": "proved",
   "theorems": [
    "C81_unquoted",
    "C81_quoted",
    "C81_escapes_refuted",
    "C81_one_row_refuted"
   ],
   "note": ""
  },
  {
   "property": "C82",
   "status": "proved",
   "theorems": [
    "C82_read",
    "C82_round_trip",
    "C82_styles",
    "C82_backslash_refuted"
   ],
   "note": ""
  },
  {
   "property": "C83",
   "status": "proved",
   "theorems": [
    "C83_read",
    "C83_write",
    "C83_round_trips"
   ],
   "note": ""
  },
  {
   "property": "C84",
   "status": "proved",
   "theorems": [
    "C84_round_trip"
   ],
   "note": ""
  },
  {
   "property": "C85",
   "status": "proved",
   "theorems": [
    "C85_unquoted",
    "C85_quoted",
    "C85_cr_unquoted",
    "C85_cr_quoted",
    "C85_orders_refuted",
    "C85_words_refuted"
   ],
   "note": ""
  },
  {
   "property": "C86",
   "status": "proved",
   "theorems": [
    "C86_unquoted",
    "C86_quoted",
    "C86_read_unquoted",
    "C86_read_quoted",
    "C86_round_trip",
    "C86_spaces_refuted",
    "C86_dataframe",
    "C86_quoted_dataframe"
   ],
   "note": ""
  },
  {
   "property": "C87",
   "status": "proved",
   "theorems": [
    "C87_stdout",
    "C87_file",
    "C87_in_place",
    "C87_write_table"
   ],
   "note": ""
  },
  {
   "property": "C88",
   "status": "proved",
   "theorems": [
    "C88_detect",
    "C88_read",
    "C88_dataframe",
    "C88_stdout",
    "C88_file",
    "C88_in_place",
    "C88_again",
    "C88_unquoted_settled",
    "C88_twice",
    "C88_every_document_twice_refuted"
   ],
   "note": ""
  },
  {
   "property": "C89",
   "status": "proved",
   "theorems": [
    "C89_consistency",
    "C89_url_in_line",
    "C89_normal",
    "C89_detector",
    "C89_blank_end_refuted",
    "C89_mixed_ends_refuted"
   ],
   "note": ""
  },
  {
   "property": "C90",
   "status": "proved",
   "theorems": [
    "C90_table",
    "C90_dicts",
    "C90_dataframe",
    "C90_detect",
    "C90_view",
    "C90_standardize",
    "C90_header",
    "C90_header_cr_refuted"
   ],
   "note": ""
  },
  {
   "property": "C91",
   "status": "proved",
   "theorems": [
    "C91_kept",
    "C91_normal_kept",
    "C91_fails",
    "C91_sources",
    "C91_escape_character"
   ],
   "note": ""
  },
  {
   "property": "C92",
   "status": "proved",
   "theorems": [
    "C92_converted",
    "C92_bare",
    "C92_standard",
    "C92_written_simple",
    "C92_written_named",
    "C92_standardized",
    "C92_all_texts_refuted"
   ],
   "note": ""
  },
  {
   "property": "C93",
   "status": "proved",
   "theorems": [
    "C93_parse_data",
    "C93_parse",
    "C93_abstraction",
    "C93_pattern_score",
    "C93_type_score",
    "C93_masked",
    "C93_tie_breaker",
    "C93_tie_breaker_all_refuted",
    "C93_writer",
    "C93_csv_reader"
   ],
   "note": ""
  },
  {
   "property": "C94",
   "status": "proved",
   "theorems": [
    "C94_loads",
    "C94_json_cell",
    "C94_dumps",
    "C94_deserialize"
   ],
   "note": ""
  },
  {
   "property": "C95",
   "status": "proved",
   "theorems": [
    "C95_writerow",
    "C95_writerows",
    "C95_first_failure",
    "C95_none",
    "C95_header"
   ],
   "note": ""
  },
  {
   "property": "C96",
   "status": "proved",
   "theorems": [
    "C96_touched",
    "C96_no_leftover_refuted",
    "C96_in_place",
    "C96_outputs",
    "C96_chain_refuted",
    "C96_stdout"
   ],
   "note": ""
  },
  {
   "property": "C97",
   "status": "proved",
   "theorems": [
    "C97_quiet",
    "C97_same_result",
    "C97_refused",
    "C97_limit_not_restored",
    "C97_messages",
    "C97_escape_message",
    "C97_messages_consistency",
    "C97_scores",
    "C97_detected",
    "C97_json",
    "C97_files",
    "C97_stdout",
    "C97_unreadable",
    "C97_first_row"
   ],
   "note": ""
  },
  {
   "property": "C98",
   "status": "proved",
   "theorems": [
    "C98_writerow",
    "C98_writerows",
    "C98_minimal",
    "C98_write_table",
    "C98_line_terminator"
   ],
   "note": ""
  },
  {
   "property": "C99",
   "status": "proved",
   "theorems": [
    "C99_reads",
    "C99_agree",
    "C99_agree_texts"
   ],
   "note": ""
  },
  {
   "property": "C100",
   "status": "proved",
   "theorems": [
    "C100_default",
    "C100_known",
    "C100_stripped_before",
    "C100_missing",
    "C100_no_group",
    "C100_names",
    "C100_generator"
   ],
   "note": ""
  },
  {
   "property": "C101",
   "status": "proved",
   "theorems": [
    "C101_answer",
    "C101_read",
    "C101_stdout",
    "C101_in_place",
    "C101_rows",
    "C101_last_cell",
    "C101_quoted_rows",
    "C101_lines",
    "C101_quoted_lines",
    "C101_cut_line_end",
    "C101_any_sample_refuted",
    "C101_late_quotes_refuted"
   ],
   "note": ""
  },
  {
   "property": "C102",
   "status": "proved",
   "theorems": [
    "C102_consistency",
    "C102_normal",
    "C102_detector",
    "C102_repeated",
    "C102_any_order_refuted"
   ],
   "note": ""
  },
  {
   "property": "C103",
   "status": "proved",
   "theorems": [
    "C103_cut_inside",
    "C103_ends_row",
    "C103_without_ends",
    "C103_same_rows",
    "C103_any_division_refuted",
    "C103_without_ends_open_refuted",
    "C103_without_ends_limit_refuted"
   ],
   "note": ""
  },
  {
   "property": "C104",
   "status": "proved",
   "theorems": [
    "C104_parser",
    "C104_parse_data",
    "C104_reader",
    "C104_csv_reader"
   ],
   "note": ""
  },
  {
   "property": "C105",
   "status": "proved",
   "theorems": [
    "C105_detect",
    "C105_standardize",
    "C105_view",
    "C105_code",
    "C105_refused",
    "C105_dashes",
    "C105_any_words",
    "C105_order_detect",
    "C105_order_standardize",
    "C105_apart_refuted",
    "C105_unknown",
    "C105_ambiguous",
    "C105_dashed_name",
    "C105_help"
   ],
   "note": ""
  },
  {
   "property": "C106",
   "status": "proved",
   "theorems": [
    "C106_stdout",
    "C106_outputs",
    "C106_in_place",
    "C106_detect",
    "C106_touched",
    "C106_no_crash",
    "C106_refused",
    "C106_strange",
    "C106_help"
   ],
   "note": ""
  },
  {
   "property": "C107",
   "status": "proved",
   "theorems": [
    "C107_view",
    "C107_code",
    "C107_refused",
    "C107_strange",
    "C107_help",
    "C107_no_crash"
   ],
   "note": ""
  }
 ]
}