{
 "claims": [
  {
   "property": "C01",
   "status": "proved",
   "theorems": [
    "C01_scalar_roundtrip"
   ],
   "note": ""
  },
  {
   "property": "C02",
   "status": "proved",
   "theorems": [
    "C02_cursor_in_bounds",
    "C02_read_exact",
    "C02_no_undefined_behaviour",
    "C02_parser_view_fixed",
    "C02_parser_view_block"
   ],
   "note": ""
  },
  {
   "property": "C03",
   "status": "proved",
   "theorems": [
    "C03_writer",
    "C03_reader_refuses_writes",
    "C03_pointer_constructor",
    "C03_clone"
   ],
   "note": ""
  },
  {
   "property": "C04",
   "status": "proved",
   "theorems": [
    "C04_roundtrip",
    "C04_without_size_bound_refuted",
    "C04_float_keys",
    "C04_double_keys"
   ],
   "note": "With the size bound of the property; C04_without_size_bound_refuted shows the bound is needed."
  },
  {
   "property": "C05",
   "status": "proved",
   "theorems": [
    "C05_duration_roundtrip",
    "C05_time_point_roundtrip"
   ],
   "note": ""
  },
  {
   "property": "C06",
   "status": "proved",
   "theorems": [
    "C06_truncation_rejected"
   ],
   "note": ""
  },
  {
   "property": "C07",
   "status": "proved",
   "theorems": [
    "C07_injective_and_prefix_free"
   ],
   "note": ""
  },
  {
   "property": "C08",
   "status": "proved",
   "theorems": [
    "C08_other_versions_refused",
    "C08_own_version_written",
    "C08_standard_scaler_refuted"
   ],
   "note": "StandardScaleWrapper writes no version header, so the property does not cover it; C08_standard_scaler_refuted records it."
  },
  {
   "property": "C09",
   "status": "proved",
   "theorems": [
    "C09_save_load",
    "C09_truncated_rejected",
    "C09_only_constructible",
    "C09_encoders",
    "C09_hash_encoder",
    "C09_rolling_window",
    "C09_single_value",
    "C09_robust_scaler",
    "C09_fill_imputers",
    "C09_string_conversion",
    "C09_standard_scaler",
    "C09_normalizer",
    "C09_date_time",
    "C09_projections",
    "C09_vectorizers",
    "C09_short_grain_dropper"
   ],
   "note": "Parameters only, for every transformer whose archive is plain fields; MinMaxScaler: C28; LagLead: C42; Grain: C48; pipelines: C15."
  },
  {
   "property": "C10",
   "status": "proved",
   "theorems": [
    "C10_never_backwards",
    "C10_wrong_state_refused",
    "C10_training_loop",
    "C10_allowed_moves",
    "C10_decided"
   ],
   "note": ""
  },
  {
   "property": "C11",
   "status": "proved",
   "theorems": [
    "C11_at_most_one_transformer",
    "C11_only_after_training"
   ],
   "note": ""
  },
  {
   "property": "C12",
   "status": "proved",
   "theorems": [
    "C12_append_only",
    "C12_first_wins",
    "C12_answers_are_stable"
   ],
   "note": ""
  },
  {
   "property": "C13",
   "status": "proved",
   "theorems": [
    "C13_trained_on_first_items",
    "C13_batching_irrelevant",
    "C13_complete_reported",
    "C13_one_pass",
    "C13_existing_annotation_kept",
    "C13_existing_annotation_skips_training"
   ],
   "note": ""
  },
  {
   "property": "C14",
   "status": "proved",
   "theorems": [
    "C14_composition",
    "C14_streaming",
    "C14_handed_out",
    "C14_handed_on",
    "C14_single_result"
   ],
   "note": ""
  },
  {
   "property": "C15",
   "status": "proved",
   "theorems": [
    "C15_round_trip",
    "C15_order"
   ],
   "note": ""
  },
  {
   "property": "C16",
   "status": "proved",
   "theorems": [
    "C16_stage_by_stage",
    "C16_in_order",
    "C16_flushing_stage_refuted",
    "C16_training_leaks_into_inference_refuted"
   ],
   "note": ""
  },
  {
   "property": "C17",
   "status": "proved",
   "theorems": [
    "C17_handles",
    "C17_add_returns",
    "C17_concurrent",
    "C17_exclusive",
    "C17_no_deadlock"
   ],
   "note": ""
  },
  {
   "property": "C18",
   "status": "proved",
   "theorems": [
    "C18_histogram",
    "C18_nan_refuted"
   ],
   "note": ""
  },
  {
   "property": "C19",
   "status": "proved",
   "theorems": [
    "C19_index_map",
    "C19_trained_index_map",
    "C19_order_independent",
    "C19_sparse_existing_refuted"
   ],
   "note": ""
  },
  {
   "property": "C20",
   "status": "proved",
   "theorems": [
    "C20_order"
   ],
   "note": ""
  },
  {
   "property": "C21",
   "status": "proved",
   "theorems": [
    "C21_mode",
    "C21_empty_rejected"
   ],
   "note": ""
  },
  {
   "property": "C22",
   "status": "proved",
   "theorems": [
    "C22_median"
   ],
   "note": ""
  },
  {
   "property": "C23",
   "status": "proved",
   "theorems": [
    "C23_min_max",
    "C23_infinity_refuted",
    "C23_basic_statistics"
   ],
   "note": ""
  },
  {
   "property": "C24",
   "status": "proved",
   "theorems": [
    "C24_frequency",
    "C24_unordered_rejected",
    "C24_grained_frequency",
    "C24_grained_unordered_rejected",
    "C24_global_minimum"
   ],
   "note": ""
  },
  {
   "property": "C25",
   "status": "proved",
   "theorems": [
    "C25_average",
    "C25_integer_sums",
    "C25_uint64_refuted"
   ],
   "note": ""
  },
  {
   "property": "C26",
   "status": "proved",
   "theorems": [
    "C26_max_abs",
    "C26_int_min_refuted"
   ],
   "note": ""
  },
  {
   "property": "C27",
   "status": "partial",
   "theorems": [
    "C27_minmax_double",
    "C27_minmax_float_partial",
    "C27_minmax_integer_partial",
    "C27_minmax_trained_partial",
    "C27_minmax_refuted",
    "C27_maxabs_float",
    "C27_maxabs_integer"
   ],
   "note": "Proved for double columns whose width does not overflow, for float columns whose width is exact, and for integers whose width fits the type and 2^53; MaxAbsScaler in full. C27_minmax_refuted shows that the excluded ranges really fail in the code."
  },
  {
   "property": "C28",
   "status": "partial",
   "theorems": [
    "C28_integer",
    "C28_float_partial",
    "C28_float_refuted"
   ],
   "note": "Integers in full; floating point when max - min is exact; C28_float_refuted shows it is false otherwise."
  },
  {
   "property": "C29",
   "status": "proved",
   "theorems": [
    "C29_standard",
    "C29_robust",
    "C29_robust_scale",
    "C29_constant_column",
    "C29_loaded_zero_refuted"
   ],
   "note": "Results stated as correctly rounded real arithmetic, when it does not overflow; the deviation is assumed finite. An archive with deviation 0 is accepted: C29_loaded_zero_refuted."
  },
  {
   "property": "C30",
   "status": "proved",
   "theorems": [
    "C30_normalizer",
    "C30_row",
    "C30_l1",
    "C30_l2",
    "C30_max_float",
    "C30_max_integer",
    "C30_max_least_refuted"
   ],
   "note": "Norms of integer rows are exact (L2: correctly rounded) while the sums stay below 2^lp; norms of floating point rows: only the max norm."
  },
  {
   "property": "C31",
   "status": "proved",
   "theorems": [
    "C31_one_hot",
    "C31_untrained_rejected",
    "C31_sparse_labels_refuted"
   ],
   "note": "For trained labels; user-supplied labels that are not 0..n-1 may throw: C31_sparse_labels_refuted."
  },
  {
   "property": "C32",
   "status": "proved",
   "theorems": [
    "C32_label_encoder",
    "C32_numericalize",
    "C32_label_wraps_refuted"
   ],
   "note": "Up to 2^32-1 labels; C32_label_wraps_refuted shows the wrap at 2^32."
  },
  {
   "property": "C33",
   "status": "proved",
   "theorems": [
    "C33_hash_one_hot",
    "C33_no_columns_rejected",
    "C33_murmur",
    "C33_container_hash",
    "C33_long_strings_refuted"
   ],
   "note": "Inputs below 2^31 bytes; C33_long_strings_refuted shows the bound is needed."
  },
  {
   "property": "C34",
   "status": "proved",
   "theorems": [
    "C34_sparse_vector",
    "C34_single_value"
   ],
   "note": "The constructor does not compare indexes with the length (C34_index_not_bounded)."
  },
  {
   "property": "C35",
   "status": "proved",
   "theorems": [
    "C35_forward_fill",
    "C35_no_source_throws",
    "C35_save_mid_stream_refuted"
   ],
   "note": "Saving mid-stream loses the remembered value: C35 refuted theorem records it."
  },
  {
   "property": "C36",
   "status": "proved",
   "theorems": [
    "C36_backward_fill",
    "C36_pending_throws",
    "C36_long_null_run_refuted",
    "C36_save_mid_stream_refuted"
   ],
   "note": "Saving mid-stream loses the buffered values and a long null run is held in memory: refuted theorems record both."
  },
  {
   "property": "C37",
   "status": "proved",
   "theorems": [
    "C37_mean_float",
    "C37_median_float",
    "C37_imputer",
    "C37_mode_and_cat_imputer",
    "C37_mode_without_values_throws",
    "C37_mode_float",
    "C37_median_imputer",
    "C37_min_max_imputer",
    "C37_mean_imputer",
    "C37_markers"
   ],
   "note": "Mode imputers over native-nullable float columns: C37_mode_float (NaN equal to nothing, 0 equal to -0)."
  },
  {
   "property": "C38",
   "status": "proved",
   "theorems": [
    "C38_round_trip",
    "C38_optional_round_trip",
    "C38_null_string_refuted",
    "C38_signed_range",
    "C38_unsigned_range",
    "C38_negative_unsigned_refuted",
    "C38_featurizers",
    "C38_empty_string_refuted",
    "C38_injective"
   ],
   "note": "For the types whose conversion is exact; \"NULL\", the empty string and negative unsigned values are recorded by refuted theorems."
  },
  {
   "property": "C39",
   "status": "proved",
   "theorems": [
    "C39_circular_buffer",
    "C39_capacity"
   ],
   "note": ""
  },
  {
   "property": "C40",
   "status": "proved",
   "theorems": [
    "C40_rolling_window",
    "C40_rejects",
    "C40_huge_windows_refuted"
   ],
   "note": "With window and horizon below 2^32 together; C40_huge_windows_refuted shows the wrap."
  },
  {
   "property": "C41",
   "status": "partial",
   "theorems": [
    "C41_mean_float",
    "C41_mean_infinite_refuted",
    "C41_minimum",
    "C41_maximum_partial",
    "C41_maximum_of_negatives_refuted",
    "C41_mean_partial",
    "C41_mean_overflow_refuted"
   ],
   "note": "The maximum of windows of negative floats is wrong in the code (C41_maximum_of_negatives_refuted) and integer means overflow (C41_mean_overflow_refuted); means of float windows: C41_mean_float (error bound), C41_mean_infinite_refuted."
  },
  {
   "property": "C42",
   "status": "proved",
   "theorems": [
    "C42_lag_lead",
    "C42_rejects",
    "C42_save_load"
   ],
   "note": ""
  },
  {
   "property": "C43",
   "status": "proved",
   "theorems": [
    "C43_pivot",
    "C43_bad_input"
   ],
   "note": ""
  },
  {
   "property": "C44",
   "status": "proved",
   "theorems": [
    "C44_short_grains"
   ],
   "note": ""
  },
  {
   "property": "C45",
   "status": "proved",
   "theorems": [
    "C45_gaps",
    "C45_spacing",
    "C45_keys_independent",
    "C45_keys_fail_alone",
    "C45_unordered_rejected",
    "C45_interpolate_rejected"
   ],
   "note": "For regular rows: equal widths, times and frequency in the int64 range, positive frequency."
  },
  {
   "property": "C46",
   "status": "proved",
   "theorems": [
    "C46_forward",
    "C46_backward",
    "C46_median",
    "C46_values_kept",
    "C46_training",
    "C46_training_rejected",
    "C46_median_refuted"
   ],
   "note": "Forward, backward and median strategies; \"median\" is the mean in the code (C46_median_refuted) and training throws when a float column of a key has no value."
  },
  {
   "property": "C47",
   "status": "proved",
   "theorems": [
    "C47_own_rows",
    "C47_succeeds",
    "C47_unknown_grain",
    "C47_failure",
    "C47_constructors",
    "C47_string_grains"
   ],
   "note": "For any inner transformer, grain type with a total order, interleaving, with and without creation on demand."
  },
  {
   "property": "C48",
   "status": "partial",
   "theorems": [
    "C48_cycles",
    "C48_kept",
    "C48_string_grains",
    "C48_first_cycle_partial",
    "C48_second_cycle_refuted",
    "C48_position_refuted",
    "C48_created_not_saved"
   ],
   "note": "Any number of cycles without creation on demand; one cycle with it. Beyond that the property is false in the code: C48_second_cycle_refuted (all grains lost), C48_position_refuted (archive left in the wrong place)."
  },
  {
   "property": "C49",
   "status": "proved",
   "theorems": [
    "C49_own_rows",
    "C49_succeeds",
    "C49_training_loop",
    "C49_annotations",
    "C49_transformers",
    "C49_nothing_to_make"
   ],
   "note": "The shared annotation maps are modelled by reading each inner estimator's annotation when it completes."
  },
  {
   "property": "C50",
   "status": "proved",
   "theorems": [
    "C50_rows",
    "C50_row_by_row",
    "C50_flush",
    "C50_training",
    "C50_save_load"
   ],
   "note": "Inner transformers that deliver on flush make the filter throw (C50_flush)."
  },
  {
   "property": "C51",
   "status": "proved",
   "theorems": [
    "C51_words",
    "C51_only"
   ],
   "note": ""
  },
  {
   "property": "C52",
   "status": "proved",
   "theorems": [
    "C52_word_ngrams",
    "C52_invalid"
   ],
   "note": ""
  },
  {
   "property": "C53",
   "status": "partial",
   "theorems": [
    "C53_char_ngrams_partial",
    "C53_least_length",
    "C53_lengths_refuted",
    "C53_invalid",
    "C53_within_words",
    "C53_within_words_unpadded_refuted"
   ],
   "note": "Proved when the range is a single length; of a longer range the code reports only the least length (C53_least_length, C53_lengths_refuted). Unpadded char_wb input is undefined behaviour (C53_within_words_unpadded_refuted)."
  },
  {
   "property": "C54",
   "status": "proved",
   "theorems": [
    "C54_trim",
    "C54_trim_left",
    "C54_trim_right",
    "C54_trim_idempotent",
    "C54_dedup",
    "C54_blank_refuted",
    "C54_dedup_idempotent",
    "C54_padding",
    "C54_padding_twice",
    "C54_padding_empty",
    "C54_letter_case"
   ],
   "note": "A run of separators that starts with a tab keeps the tab: C54_blank_refuted."
  },
  {
   "property": "C55",
   "status": "proved",
   "theorems": [
    "C55_document_statistics",
    "C55_limit",
    "C55_bad_document",
    "C55_short_document_refuted",
    "C55_vocabulary_refuted"
   ],
   "note": "For every hash order and every correct std::nth_element. A document shorter than the longest n-gram stops the training (C55_short_document_refuted); a vocabulary with gaps makes indexes collide (C55_vocabulary_refuted)."
  },
  {
   "property": "C56",
   "status": "proved",
   "theorems": [
    "C56_count_vector",
    "C56_exact",
    "C56_long_document_refuted",
    "C56_trained"
   ],
   "note": "Counts pass through single precision: exact up to 2^24 occurrences (C56_exact), not beyond (C56_long_document_refuted). A document without known terms throws."
  },
  {
   "property": "C57",
   "status": "proved",
   "theorems": [
    "C57_calendar",
    "C57_from_days",
    "C57_fields",
    "C57_truncated",
    "C57_any_clock",
    "C57_iso_unique",
    "C57_before_1970_refuted",
    "C57_documented_refuted",
    "C57_year_wrap_refuted"
   ],
   "note": "Against gmtime as the C standard describes it. Fractions before 1970: C57_before_1970_refuted; the comments in the header on dayOfWeek and dayOfYear do not hold: C57_documented_refuted; microsecond clocks reach years a short cannot hold: C57_year_wrap_refuted."
  },
  {
   "property": "C58",
   "status": "proved",
   "theorems": [
    "C58_holiday",
    "C58_truncated",
    "C58_before_1970_refuted"
   ],
   "note": "Times before 1970 that are not midnight get the next day: C58_before_1970_refuted. Reading the JSON file is not modelled."
  },
  {
   "property": "C59",
   "status": "proved",
   "theorems": [
    "C59_only_well_formed_values",
    "C59_resave"
   ],
   "note": ""
  },
  {
   "property": "C60",
   "status": "proved",
   "theorems": [
    "C60_same_terms",
    "C60_words",
    "C60_word_ngrams",
    "C60_char_ngrams",
    "C60_char_ngrams_within_words",
    "C60_regex_lower_refuted"
   ],
   "note": "Except for a regular expression together with lower-casing, where it is false: C60_regex_lower_refuted."
  },
  {
   "property": "C61",
   "status": "proved",
   "theorems": [
    "C61_regex_tokens",
    "C61_endless_refuted"
   ],
   "note": "For expressions without empty matches; with an empty match the loop does not end: C61_endless_refuted. RE2 itself is a parameter."
  },
  {
   "property": "C62",
   "status": "proved",
   "theorems": [
    "C62_tfidf_vector"
   ],
   "note": "std::log is a parameter with the stated bounds; at most 2^24 terms per document. The order of adding is some order of the terms."
  },
  {
   "property": "C63",
   "status": "proved",
   "theorems": [
    "C63_valid",
    "C63_supported",
    "C63_estimator",
    "C63_refused",
    "C63_shipped",
    "C63_other_directory_refuted",
    "C63_left_open_refuted"
   ],
   "note": "Only the name is saved (C63_other_directory_refuted); a successful check leaves the directory open (C63_left_open_refuted)."
  },
  {
   "property": "C64",
   "status": "proved",
   "theorems": [
    "C64_parse",
    "C64_invalid",
    "C64_off_clock_refuted",
    "C64_print",
    "C64_round_trip",
    "C64_any_text",
    "C64_west_refuted",
    "C64_layout_refuted",
    "C64_trailing_refuted",
    "C64_two_letters_refuted",
    "C64_earliest_refuted",
    "C64_negative_year_refuted"
   ],
   "note": "For years 0 to 9999 and times on the clock; valid texts off the clock are undefined behaviour (C64_off_clock_refuted, C64_earliest_refuted). Zones of -00:mm are read as +00:mm (C64_west_refuted); some layouts are refused (C64_layout_refuted); letters behind the zone are accepted (C64_trailing_refuted); C64_two_letters_refuted, C64_negative_year_refuted. Rounding a decimal fraction in long double is a parameter: some nearest tick."
  },
  {
   "property": "C65",
   "status": "proved",
   "theorems": [
    "C65_calls",
    "C65_returns",
    "C65_no_leak",
    "C65_careful",
    "C65_default_estimator_refuted",
    "C65_wrong_kind_refuted",
    "C65_dead_error_refuted",
    "C65_null_place_refuted",
    "C65_lost_refuted"
   ],
   "note": "Handles are not typed: one of the wrong kind is undefined behaviour (C65_wrong_kind_refuted); dead error handles let an exception out of the C function (C65_dead_error_refuted); the place for a new estimator handle is not checked (C65_null_place_refuted); an estimator whose begin_training throws is lost (C65_lost_refuted); the estimator of RobustScaler CreateEstimatorWithDefault can never be trained (C65_default_estimator_refuted)."
  },
  {
   "property": "C66",
   "status": "proved",
   "theorems": [
    "C66_print",
    "C66_parse",
    "C66_hexadecimal",
    "C66_round_trip",
    "C66_six_decimals",
    "C66_special",
    "C66_any_text",
    "C66_lost_refuted",
    "C66_trailing_refuted"
   ],
   "note": "std::to_string, std::stof and std::stod are modelled as correctly rounded (glibc); whether underflow is reported is a parameter. Small numbers vanish and different numbers get the same text: C66_lost_refuted; what follows a number is ignored: C66_trailing_refuted."
  },
  {
   "property": "C67",
   "status": "proved",
   "theorems": [
    "C67_save_load",
    "C67_memory_save_load",
    "C67_truncated",
    "C67_memory_truncated",
    "C67_versions",
    "C67_loaded",
    "C67_memory_loaded",
    "C67_create",
    "C67_small_frequency_refuted",
    "C67_between_rows_refuted",
    "C67_overflow_refuted",
    "C67_columns_refuted"
   ],
   "note": "Frequencies below a microsecond become 0 and the first gap never ends (C67_small_frequency_refuted); rows seen so far are not saved (C67_between_rows_refuted); a stored frequency beyond the clock is undefined behaviour (C67_overflow_refuted); the loader does not compare the two lists of column types (C67_columns_refuted)."
  },
  {
   "property": "C68",
   "status": "proved",
   "theorems": [
    "C68_calls",
    "C68_forward",
    "C68_backward",
    "C68_median",
    "C68_truncated",
    "C68_trailing",
    "C68_flush_refuted",
    "C68_duration_refuted",
    "C68_digits_refuted",
    "C68_types_refuted",
    "C68_remembered_refuted"
   ],
   "note": "Flush returns nothing, so rows held back are lost (C68_flush_refuted); duration columns fail after the row was taken in (C68_duration_refuted); floats keep six decimals only and keys that differ later are merged (C68_digits_refuted); some accepted column types refuse every row (C68_types_refuted); a refused row of a key without medians is remembered (C68_remembered_refuted)."
  },
  {
   "property": "C69",
   "status": "proved",
   "theorems": [
    "C69_statistics",
    "C69_defined",
    "C69_exact_columns",
    "C69_constant_refuted",
    "C69_order_refuted",
    "C69_median",
    "C69_median_refuted"
   ],
   "note": "A column of equal numbers may be refused because its rounded average is not between minimum and maximum (C69_constant_refuted), and whether a column is refused depends on the order of its rows (C69_order_refuted). The median of two huge numbers may be infinite (C69_median_refuted); equal zeros of either sign may stand for one another."
  },
  {
   "property": "C70",
   "status": "proved",
   "theorems": [
    "C70_trained",
    "C70_unordered",
    "C70_missing",
    "C70_unreadable",
    "C70_single_rows",
    "C70_cut_row",
    "C70_interface",
    "C70_interface_unordered",
    "C70_interface_missing",
    "C70_interface_single_rows",
    "C70_then_forward",
    "C70_then_backward",
    "C70_then_median",
    "C70_mean",
    "C70_kept",
    "C70_small_refuted",
    "C70_unneeded_mean_refuted"
   ],
   "note": "The means are computed, and can fail, for strategies that do not use them (C70_unneeded_mean_refuted); they are means of the six decimal texts, so small numbers count as zero (C70_small_refuted). C70_then_median is for columns that are not Float32."
  },
  {
   "property": "C71",
   "status": "proved",
   "theorems": [
    "C71_string",
    "C71_numbers",
    "C71_matrix",
    "C71_saved_bytes",
    "C71_countries",
    "C71_sparse",
    "C71_time",
    "C71_strings",
    "C71_rows",
    "C71_grains",
    "C71_allocators",
    "C71_leaks_refuted",
    "C71_empty_vector_refuted",
    "C71_escapes_refuted",
    "C71_half_destroyed_refuted"
   ],
   "note": "Time points, arrays of strings, rows and grains lose memory when an allocation fails (C71_leaks_refuted); a sparse vector without values can never be given back (C71_empty_vector_refuted); with no memory for the error an exception leaves the C function (C71_escapes_refuted); DestroyStringBuffers refuses a null string after freeing the strings before it (C71_half_destroyed_refuted). Arrays of matrices and of sparse vectors (Flush of featurizers that never hold rows back) are not modelled."
  },
  {
   "property": "C72",
   "status": "proved",
   "theorems": [
    "C72_numbers",
    "C72_numbers_or_missing",
    "C72_texts",
    "C72_names",
    "C72_grains",
    "C72_matrices",
    "C72_matrix_rows_square",
    "C72_dates",
    "C72_nothing_written",
    "C72_refused",
    "C72_matrix_rows_refuted",
    "C72_null_name_refuted",
    "C72_date_refuted"
   ],
   "note": "FitBuffer of the pivot takes the number of rows for the number of matrices in a row and reads past the end (C72_matrix_rows_refuted); a null name in a grain is undefined behaviour (C72_null_name_refuted), and so are a null text and seconds that do not fit (C72_date_refuted)."
  },
  {
   "property": "C73",
   "status": "partial",
   "theorems": [
    "C73_training",
    "C73_one_matrix",
    "C73_untrained",
    "C73_refused",
    "C73_result",
    "C73_rows_independent",
    "C73_geometry",
    "C73_recoverable",
    "C73_total_variance",
    "C73_covariance",
    "C73_components_partial",
    "C73_eigenvector_projection",
    "C73_components_refuted"
   ],
   "note": "In exact real arithmetic; the eigensolver is a parameter with the contract Eigen documents. Everything but the last sentence is proved in full; uncorrelated columns only when the matrix of eigenvectors is symmetric (C73_components_partial), because the code multiplies with the rows of the matrix although the eigenvectors are its columns: C73_components_refuted."
  },
  {
   "property": "C74",
   "status": "proved",
   "theorems": [
    "C74_refused",
    "C74_result",
    "C74_sign_free",
    "C74_gram_schmidt",
    "C74_gaussian",
    "C74_draws",
    "C74_training",
    "C74_one_matrix",
    "C74_components",
    "C74_nothing_dropped",
    "C74_training_rows",
    "C74_single_row",
    "C74_rows_refuted",
    "C74_small_data_refuted"
   ],
   "note": "In exact real arithmetic; JacobiSVD is a parameter with the contract Eigen documents. The sign of a row depends on the other rows of the call (C74_rows_refuted, C74_single_row); the absolute threshold of the orthogonalisation makes data on a small scale train a transformer that is zero (C74_small_data_refuted)."
  },
  {
   "property": "C75",
   "status": "proved",
   "theorems": [
    "C75_answers",
    "C75_returned",
    "C75_no_race",
    "C75_table_exclusive",
    "C75_no_leak",
    "C75_no_deadlock",
    "C75_shared_transformer_refuted",
    "C75_destroyed_in_use_refuted"
   ],
   "note": "The locks protect the handle table only: two calls with one transformer race (C75_shared_transformer_refuted), and a transformer can be destroyed while it is used (C75_destroyed_in_use_refuted), so callers must not share handles. No leak: if begin_training does not throw (C65_lost_refuted)."
  },
  {
   "property": "C76",
   "status": "proved",
   "theorems": [
    "C76_rolling_window",
    "C76_lag_lead",
    "C76_no_training",
    "C76_parameters",
    "C76_lag_parameters",
    "C76_huge_windows_refuted"
   ],
   "note": "A horizon and window size that add up to 2^32 are accepted by the estimator, but the first row throws (C76_huge_windows_refuted). What the calculations compute is C41."
  },
  {
   "property": "C77",
   "status": "proved",
   "theorems": [
    "C77_l1",
    "C77_l2",
    "C77_normalized_l1",
    "C77_normalized_l2",
    "C77_deviation",
    "C77_standard_double",
    "C77_standard_float",
    "C77_standard_integer",
    "C77_defined",
    "C77_norms_defined",
    "C77_wide_refuted",
    "C77_row_refuted",
    "C77_overflow_refuted",
    "C77_underflow_refuted"
   ],
   "note": "About data that is accepted; which data is refused depends on the order of the rows (C77_wide_refuted, C77_row_refuted). Norms beyond double become infinite, tiny rows get norm 0 with a 53-bit long double (C77_overflow_refuted, C77_underflow_refuted). std::pow(x, 2) is taken to be the rounded square."
  },
  {
   "property": "C78",
   "status": "proved",
   "theorems": [
    "C78_stateless",
    "C78_forward_fill",
    "C78_forward_fill_value",
    "C78_backward_fill",
    "C78_backward_fill_flush",
    "C78_filter",
    "C78_careful_stages",
    "C78_careful_chain",
    "C78_careful",
    "C78_pipeline",
    "C78_grain_isolation",
    "C78_grains",
    "C78_grains_alike",
    "C78_windows",
    "C78_lags",
    "C78_normalizer",
    "C78_normalizer_refused",
    "C78_same_imputers",
    "C78_same_windows",
    "C78_same_pivot",
    "C78_same_lags",
    "C78_same_filter",
    "C78_same_pipeline",
    "C78_same_grains",
    "C78_same_grains_flush",
    "C78_backward_fill_refuted",
    "C78_windows_refuted",
    "C78_normalizer_refuted",
    "C78_lag_flush_refuted",
    "C78_grain_saved_refuted",
    "C78_pipeline_refuted"
   ],
   "note": "Exceptions are modelled as ending a call at a point of its program, with the assignments before it kept. Not promised, and shown: the backward fill delivers accepted copies again after a refusal in the middle (C78_backward_fill_refuted), a retried row is twice in a window (C78_windows_refuted), a norm is used up by a refused result (C78_normalizer_refuted), a failing flush does not reset the lag operator (C78_lag_flush_refuted), the grain of a refused row is saved (C78_grain_saved_refuted)."
  },
  {
   "property": "C79",
   "status": "proved",
   "theorems": [
    "C79_no_trace",
    "C79_batches",
    "C79_forgetful",
    "C79_same",
    "C79_frequency",
    "C79_series_frequency",
    "C79_estimator",
    "C79_integer_statistics",
    "C79_integer_same",
    "C79_float_same",
    "C79_float_count",
    "C79_float_infinity",
    "C79_norms",
    "C79_norms_count",
    "C79_norms_infinity",
    "C79_deviation",
    "C79_deviation_same",
    "C79_grain_isolation",
    "C79_grains",
    "C79_grain_same",
    "C79_integer_refuted",
    "C79_norms_refuted",
    "C79_empty_row_refuted",
    "C79_infinities_refuted",
    "C79_retry_refuted",
    "C79_limit_refuted"
   ],
   "note": "The order of the checks and assignments inside fit is modelled, and tied to the policies of C18-C26, C30, C69 and C77 (C79_same, C79_integer_same, C79_float_same, C79_deviation_same, C79_grain_same). Not promised, and shown: a refused integer is counted (C79_integer_refuted), a row refused half-way is part of the next norm (C79_norms_refuted), an empty row is accepted after a refused one (C79_empty_row_refuted), an infinity is accepted after the opposite one was refused and the average is NaN (C79_infinities_refuted), a corrected batch cannot be passed again (C79_retry_refuted), the limit on training items is exceeded (C79_limit_refuted)."
  },
  {
   "property": "C80",
   "status": "proved",
   "theorems": [
    "C80_training",
    "C80_batching",
    "C80_existing",
    "C80_reused_annotation_refuted",
    "C80_label_encoder",
    "C80_one_hot",
    "C80_numericalize",
    "C80_mode_imputers",
    "C80_mode_without_values",
    "C80_min_max_imputer",
    "C80_median_imputer",
    "C80_mean_imputer",
    "C80_mean_imputer_float",
    "C80_standard_scaler_integer",
    "C80_standard_scaler_double",
    "C80_standard_scaler_float",
    "C80_robust_scaler",
    "C80_robust_scaler_float",
    "C80_max_abs_scaler",
    "C80_max_abs_scaler_integer",
    "C80_min_max_scaler",
    "C80_min_max_scaler_double",
    "C80_min_max_scaler_float",
    "C80_infinite_range_refuted"
   ],
   "note": "The chain of PipelineExecutionEstimatorImpl with the shared annotation maps is modelled (M_Featurizer) and the featurizers are written down as their chains (M_Recipes); C80_training holds for every chain. A featurizer nested in a larger pipeline is written as one flat chain. Transformers in the middle of a chain are stateless here (C16 has the general ones). For floating point columns training may be refused (C69_constant_refuted, C69_order_refuted); C69_exact_columns has columns that never are. The min-max scaler over floating point columns is stated for columns without infinite values (C80_infinite_range_refuted). Not promised, and shown: two scalers of one column in a pipeline share the annotation, so the second uses the scale of the raw data (C80_reused_annotation_refuted)."
  },
  {
   "property": "C81",
   "status": "proved",
   "theorems": [
    "C81_label_encoder",
    "C81_one_hot",
    "C81_numericalize",
    "C81_mode_imputers",
    "C81_mode_tie_refuted",
    "C81_min_max_imputer",
    "C81_median_imputer",
    "C81_mean_imputer",
    "C81_overflow_refuted",
    "C81_float_mean_refuted",
    "C81_min_max_scaler",
    "C81_min_max_scaler_float",
    "C81_min_max_scaler_single",
    "C81_max_abs_scaler",
    "C81_max_abs_scaler_integer",
    "C81_robust_scaler",
    "C81_documents",
    "C81_time_series"
   ],
   "note": "Stated for the chains of C80, the document statistics of C55 and the time series training of C70. Not promised, and shown: of equally frequent values the first one wins (C81_mode_tie_refuted); an integer sum may leave 64 bits in one order only (C81_overflow_refuted); floating point sums depend on the order, up to an exception in one order only (C81_float_mean_refuted), so means, deviations and standard scores of floating point columns are only as close as C69 and C77 say. For the min-max scaler of a floating point column the numbers agree, and zeros may differ in their sign (C81_zero_case)."
  },
  {
   "property": "C82",
   "status": "proved",
   "theorems": [
    "C82_ends",
    "C82_result",
    "C82_saved",
    "C82_isolation",
    "C82_threads",
    "C82_no_race",
    "C82_no_leak",
    "C82_featurizer",
    "C82_min_max_imputer",
    "C82_mean_imputer",
    "C82_label_encoder",
    "C82_functions",
    "C82_values",
    "C82_one_hot_encoder",
    "C82_numericalize",
    "C82_mode_imputers",
    "C82_median_imputer",
    "C82_max_abs_scaler",
    "C82_min_max_scaler"
   ],
   "note": "The client is the program of the generated tests (one row per call of Fit); the interface is M_CApi for one client and M_Conc for threads. Training rows that the interface refuses are outside job_result (the client stops there, C65). The C++ methods must be defined on what is passed (methods_defined), and the memory statement needs a begin_training that does not throw (C65_lost_refuted shows why)."
  },
  {
   "property": "C83",
   "status": "proved",
   "theorems": [
    "C83_columns",
    "C83_min_max",
    "C83_min_max_float",
    "C83_min_max_integer",
    "C83_max_abs",
    "C83_max_abs_integer",
    "C83_standard",
    "C83_robust",
    "C83_robust_integer",
    "C83_normalized_row",
    "C83_wrapped_refuted",
    "C83_overflow_refuted",
    "C83_strict_refuted"
   ],
   "note": "Statements about every pair of comparable values (the operator <= of the type; integers as numbers) over the scalers of M_Scale, the states being those their constructors and training accept. The hypotheses on the width are necessary: C83_wrapped_refuted (int8) and C83_overflow_refuted (double); order is kept weakly only: C83_strict_refuted."
  },
  {
   "property": "C84",
   "status": "proved",
   "theorems": [
    "C84_min_max",
    "C84_min_max_float",
    "C84_min_max_float_range",
    "C84_min_max_integer",
    "C84_saved",
    "C84_max_abs",
    "C84_max_abs_integer",
    "C84_robust",
    "C84_wide_integer_refuted"
   ],
   "note": "The bounds are stated over real numbers (S_Accuracy: a relative and an absolute error) for the scalers of M_Scale in any format of Flocq; a result that overflowed is excluded by hypothesis except for float columns, where this is proved impossible. Integers beyond the 53 bits of the result are excluded because the claim is false of them: C84_wide_integer_refuted."
  },
  {
   "property": "C85",
   "status": "proved",
   "theorems": [
    "C85_trained",
    "C85_order",
    "C85_saved"
   ],
   "note": "The estimator of M_SampleAdd is run by the training loop of TestHelpers.h (M_Pipeline.train) over the life cycle of M_Estimator; its archive is the one of M_Save."
  },
  {
   "property": "C86",
   "status": "proved",
   "theorems": [
    "C86_identified",
    "C86_loaded_saves_again",
    "C86_appended",
    "C86_appended_refuted",
    "C86_other_kind",
    "C86_other_kind_refuted"
   ],
   "note": "For the kinds of M_Save (those whose state is a value of the type universe). Not promised, and shown: appended bytes are not noticed (C86_appended_refuted), nor data saved by another kind of transformer (C86_other_kind_refuted)."
  },
  {
   "property": "C87",
   "status": "proved",
   "theorems": [
    "C87_equal",
    "C87_members",
    "C87_alike",
    "C87_equivalence",
    "C87_loaded",
    "C87_tables",
    "C87_dates",
    "C87_matrices",
    "C87_encoders",
    "C87_label_encoder",
    "C87_numericalize",
    "C87_min_max_scaler",
    "C87_pipeline_stages",
    "C87_pipeline_equivalence",
    "C87_pipelines",
    "C87_sparse",
    "C87_memory_refuted",
    "C87_nan_refuted",
    "C87_tolerance_refuted"
   ],
   "note": "Stated for the kinds of M_Save and for any members of types without matrices; the forward and backward fill imputers compare their default values only, not what they remember (C87_memory_refuted), so the theorem on pipelines asks of each class that equal transformers behave alike. The matrices of PCA and TruncatedSVD in exact real arithmetic. Not promised, and shown: a transformer with a NaN does not equal itself (C87_nan_refuted); == of the projections is not transitive (C87_tolerance_refuted)."
  },
  {
   "property": "C88",
   "status": "proved",
   "theorems": [
    "C88_projection",
    "C88_svd",
    "C88_sign",
    "C88_refused",
    "C88_order_refuted"
   ],
   "note": "For given trained matrices: the accuracy of the decompositions themselves (Eigen, RedSVD) is not modelled (C73 and C74 treat them in exact arithmetic). Not promised, and shown: two machines may give different numbers (C88_order_refuted)."
  },
  {
   "property": "C89",
   "status": "proved",
   "theorems": [
    "C89_early",
    "C89_single_pass",
    "C89_encoders",
    "C89_imputers",
    "C89_scalers",
    "C89_standard_scaler",
    "C89_robust_scaler",
    "C89_robust_scaler_float",
    "C89_mode_imputers"
   ],
   "note": "For trainings in which none of the estimators reaches its limit on the number of rows, and of featurizers whose chain is estimators followed by one maker; chains with transformers in between are not covered."
  },
  {
   "property": "C90",
   "status": "proved",
   "theorems": [
    "C90_pipelines",
    "C90_rows",
    "C90_alike",
    "C90_stateless",
    "C90_backward_fill",
    "C90_rolling_windows",
    "C90_lags",
    "C90_time_series_imputer",
    "C90_filters",
    "C90_grains",
    "C90_windows_of_grains",
    "C90_lags_of_grains",
    "C90_forward_fill_refuted"
   ],
   "note": "For calls that do not throw (the state after an exception is the subject of C78). Forward fill keeps the last value over a flush (C90_forward_fill_refuted)."
  },
  {
   "property": "C91",
   "status": "proved",
   "theorems": [
    "C91_norm",
    "C91_weights",
    "C91_formula",
    "C91_logarithm"
   ],
   "note": "C91_weights and C91_formula ask std::log to be accurate to 2^-52 from 1 on; C91_logarithm shows that such a logarithm exists. C91_norm holds for every logarithm as in C62."
  }
 ]
}