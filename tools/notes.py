NOTES = {
 'C04': ('proved', 'With the size bound of the property; C04_without_size_bound_refuted shows the bound is needed.'),
 'C08': ('proved', 'StandardScaleWrapper writes no version header, so the property does not cover it; C08_standard_scaler_refuted records it.'),
 'C09': ('proved', 'Parameters only, for every transformer whose archive is plain fields; MinMaxScaler: C28; LagLead: C42; Grain: C48; pipelines: C15.'),
 'C31': ('proved', 'For trained labels; user-supplied labels that are not 0..n-1 may throw: C31_sparse_labels_refuted.'),
 'C32': ('proved', 'Up to 2^32-1 labels; C32_label_wraps_refuted shows the wrap at 2^32.'),
 'C33': ('proved', 'Inputs below 2^31 bytes; C33_long_strings_refuted shows the bound is needed.'),
 'C34': ('proved', 'The constructor does not compare indexes with the length (C34_index_not_bounded).'),
 'C35': ('proved', 'Saving mid-stream loses the remembered value: C35 refuted theorem records it.'),
 'C36': ('proved', 'Saving mid-stream loses the buffered values and a long null run is held in memory: refuted theorems record both.'),
 'C37': ('proved', 'Mode imputers over native-nullable float columns: C37_mode_float (NaN equal to nothing, 0 equal to -0).'),
 'C38': ('proved', 'For the types whose conversion is exact; "NULL", the empty string and negative unsigned values are recorded by refuted theorems.'),
 'C40': ('proved', 'With window and horizon below 2^32 together; C40_huge_windows_refuted shows the wrap.'),
 'C41': ('partial', 'The maximum of windows of negative floats is wrong in the code (C41_maximum_of_negatives_refuted) and integer means overflow (C41_mean_overflow_refuted); means of float windows: C41_mean_float (error bound), C41_mean_infinite_refuted.'),
 'C27': ('partial', 'Proved for double columns whose width does not overflow, for float columns whose width is exact, and for integers whose width fits the type and 2^53; MaxAbsScaler in full. C27_minmax_refuted shows that the excluded ranges really fail in the code.'),
 'C28': ('partial', 'Integers in full; floating point when max - min is exact; C28_float_refuted shows it is false otherwise.'),
 'C29': ('proved', 'Results stated as correctly rounded real arithmetic, when it does not overflow; the deviation is assumed finite. An archive with deviation 0 is accepted: C29_loaded_zero_refuted.'),
 'C30': ('proved', 'Norms of integer rows are exact (L2: correctly rounded) while the sums stay below 2^lp; norms of floating point rows: only the max norm.'),
 'C45': ('proved', 'For regular rows: equal widths, times and frequency in the int64 range, positive frequency.'),
 'C46': ('proved', 'Forward, backward and median strategies; "median" is the mean in the code (C46_median_refuted) and training throws when a float column of a key has no value.'),
 'C47': ('proved', 'For any inner transformer, grain type with a total order, interleaving, with and without creation on demand.'),
 'C48': ('partial', 'Any number of cycles without creation on demand; one cycle with it. Beyond that the property is false in the code: C48_second_cycle_refuted (all grains lost), C48_position_refuted (archive left in the wrong place).'),
 'C49': ('proved', 'The shared annotation maps are modelled by reading each inner estimator\'s annotation when it completes.'),
 'C50': ('proved', 'Inner transformers that deliver on flush make the filter throw (C50_flush).'),
 'C53': ('partial', 'Proved when the range is a single length; of a longer range the code reports only the least length (C53_least_length, C53_lengths_refuted). Unpadded char_wb input is undefined behaviour (C53_within_words_unpadded_refuted).'),
 'C54': ('proved', 'A run of separators that starts with a tab keeps the tab: C54_blank_refuted.'),
 'C55': ('proved', 'For every hash order and every correct std::nth_element. A document shorter than the longest n-gram stops the training (C55_short_document_refuted); a vocabulary with gaps makes indexes collide (C55_vocabulary_refuted).'),
 'C56': ('proved', 'Counts pass through single precision: exact up to 2^24 occurrences (C56_exact), not beyond (C56_long_document_refuted). A document without known terms throws.'),
 'C60': ('proved', 'Except for a regular expression together with lower-casing, where it is false: C60_regex_lower_refuted.'),
 'C61': ('proved', 'For expressions without empty matches; with an empty match the loop does not end: C61_endless_refuted. RE2 itself is a parameter.'),
 'C62': ('proved', 'std::log is a parameter with the stated bounds; at most 2^24 terms per document. The order of adding is some order of the terms.'),
 'C57': ('proved', 'Against gmtime as the C standard describes it. Fractions before 1970: C57_before_1970_refuted; the comments in the header on dayOfWeek and dayOfYear do not hold: C57_documented_refuted; microsecond clocks reach years a short cannot hold: C57_year_wrap_refuted.'),
 'C58': ('proved', 'Times before 1970 that are not midnight get the next day: C58_before_1970_refuted. Reading the JSON file is not modelled.'),
 'C63': ('proved', 'Only the name is saved (C63_other_directory_refuted); a successful check leaves the directory open (C63_left_open_refuted).'),
 'C64': ('proved', 'For years 0 to 9999 and times on the clock; valid texts off the clock are undefined behaviour (C64_off_clock_refuted, C64_earliest_refuted). Zones of -00:mm are read as +00:mm (C64_west_refuted); some layouts are refused (C64_layout_refuted); letters behind the zone are accepted (C64_trailing_refuted); C64_two_letters_refuted, C64_negative_year_refuted. Rounding a decimal fraction in long double is a parameter: some nearest tick.'),
 'C65': ('proved', 'Handles are not typed: one of the wrong kind is undefined behaviour (C65_wrong_kind_refuted); dead error handles let an exception out of the C function (C65_dead_error_refuted); the place for a new estimator handle is not checked (C65_null_place_refuted); an estimator whose begin_training throws is lost (C65_lost_refuted); the estimator of RobustScaler CreateEstimatorWithDefault can never be trained (C65_default_estimator_refuted).'),
 'C66': ('proved', 'std::to_string, std::stof and std::stod are modelled as correctly rounded (glibc); whether underflow is reported is a parameter. Small numbers vanish and different numbers get the same text: C66_lost_refuted; what follows a number is ignored: C66_trailing_refuted.'),
 'C67': ('proved', 'Frequencies below a microsecond become 0 and the first gap never ends (C67_small_frequency_refuted); rows seen so far are not saved (C67_between_rows_refuted); a stored frequency beyond the clock is undefined behaviour (C67_overflow_refuted); the loader does not compare the two lists of column types (C67_columns_refuted).'),
 'C68': ('proved', 'Flush returns nothing, so rows held back are lost (C68_flush_refuted); duration columns fail after the row was taken in (C68_duration_refuted); floats keep six decimals only and keys that differ later are merged (C68_digits_refuted); some accepted column types refuse every row (C68_types_refuted); a refused row of a key without medians is remembered (C68_remembered_refuted).'),
 'C69': ('proved', 'A column of equal numbers may be refused because its rounded average is not between minimum and maximum (C69_constant_refuted), and whether a column is refused depends on the order of its rows (C69_order_refuted). The median of two huge numbers may be infinite (C69_median_refuted); equal zeros of either sign may stand for one another.'),
 'C70': ('proved', 'The means are computed, and can fail, for strategies that do not use them (C70_unneeded_mean_refuted); they are means of the six decimal texts, so small numbers count as zero (C70_small_refuted). C70_then_median is for columns that are not Float32.'),
 'C71': ('proved', 'Time points, arrays of strings, rows and grains lose memory when an allocation fails (C71_leaks_refuted); a sparse vector without values can never be given back (C71_empty_vector_refuted); with no memory for the error an exception leaves the C function (C71_escapes_refuted); DestroyStringBuffers refuses a null string after freeing the strings before it (C71_half_destroyed_refuted). Arrays of matrices and of sparse vectors (Flush of featurizers that never hold rows back) are not modelled.'),
 'C72': ('proved', 'FitBuffer of the pivot takes the number of rows for the number of matrices in a row and reads past the end (C72_matrix_rows_refuted); a null name in a grain is undefined behaviour (C72_null_name_refuted), and so are a null text and seconds that do not fit (C72_date_refuted).'),
 'C73': ('partial', 'In exact real arithmetic; the eigensolver is a parameter with the contract Eigen documents. Everything but the last sentence is proved in full; uncorrelated columns only when the matrix of eigenvectors is symmetric (C73_components_partial), because the code multiplies with the rows of the matrix although the eigenvectors are its columns: C73_components_refuted.'),
 'C74': ('proved', 'In exact real arithmetic; JacobiSVD is a parameter with the contract Eigen documents. The sign of a row depends on the other rows of the call (C74_rows_refuted, C74_single_row); the absolute threshold of the orthogonalisation makes data on a small scale train a transformer that is zero (C74_small_data_refuted).'),
 'C75': ('proved', 'The locks protect the handle table only: two calls with one transformer race (C75_shared_transformer_refuted), and a transformer can be destroyed while it is used (C75_destroyed_in_use_refuted), so callers must not share handles. No leak: if begin_training does not throw (C65_lost_refuted).'),
 'C76': ('proved', 'A horizon and window size that add up to 2^32 are accepted by the estimator, but the first row throws (C76_huge_windows_refuted). What the calculations compute is C41.'),
 'C77': ('proved', 'About data that is accepted; which data is refused depends on the order of the rows (C77_wide_refuted, C77_row_refuted). Norms beyond double become infinite, tiny rows get norm 0 with a 53-bit long double (C77_overflow_refuted, C77_underflow_refuted). std::pow(x, 2) is taken to be the rounded square.'),
 'C78': ('proved', 'Exceptions are modelled as ending a call at a point of its program, with the assignments before it kept. Not promised, and shown: the backward fill delivers accepted copies again after a refusal in the middle (C78_backward_fill_refuted), a retried row is twice in a window (C78_windows_refuted), a norm is used up by a refused result (C78_normalizer_refuted), a failing flush does not reset the lag operator (C78_lag_flush_refuted), the grain of a refused row is saved (C78_grain_saved_refuted).'),
 'C79': ('proved', 'The order of the checks and assignments inside fit is modelled, and tied to the policies of C18-C26, C30, C69 and C77 (C79_same, C79_integer_same, C79_float_same, C79_deviation_same, C79_grain_same). Not promised, and shown: a refused integer is counted (C79_integer_refuted), a row refused half-way is part of the next norm (C79_norms_refuted), an empty row is accepted after a refused one (C79_empty_row_refuted), an infinity is accepted after the opposite one was refused and the average is NaN (C79_infinities_refuted), a corrected batch cannot be passed again (C79_retry_refuted), the limit on training items is exceeded (C79_limit_refuted).'),
 'C80': ('proved', 'The chain of PipelineExecutionEstimatorImpl with the shared annotation maps is modelled (M_Featurizer) and the featurizers are written down as their chains (M_Recipes); C80_training holds for every chain. A featurizer nested in a larger pipeline is written as one flat chain. Transformers in the middle of a chain are stateless here (C16 has the general ones). For floating point columns training may be refused (C69_constant_refuted, C69_order_refuted); C69_exact_columns has columns that never are. The min-max scaler over floating point columns is stated for columns without infinite values (C80_infinite_range_refuted). Not promised, and shown: two scalers of one column in a pipeline share the annotation, so the second uses the scale of the raw data (C80_reused_annotation_refuted).'),
 'C81': ('proved', 'Stated for the chains of C80, the document statistics of C55 and the time series training of C70. Not promised, and shown: of equally frequent values the first one wins (C81_mode_tie_refuted); an integer sum may leave 64 bits in one order only (C81_overflow_refuted); floating point sums depend on the order, up to an exception in one order only (C81_float_mean_refuted), so means, deviations and standard scores of floating point columns are only as close as C69 and C77 say. For the min-max scaler of a floating point column the numbers agree, and zeros may differ in their sign (C81_zero_case).'),
 'C82': ('proved', 'The client is the program of the generated tests (one row per call of Fit); the interface is M_CApi for one client and M_Conc for threads. Training rows that the interface refuses are outside job_result (the client stops there, C65). The C++ methods must be defined on what is passed (methods_defined), and the memory statement needs a begin_training that does not throw (C65_lost_refuted shows why).'),
 'C83': ('proved', 'Statements about every pair of comparable values (the operator <= of the type; integers as numbers) over the scalers of M_Scale, the states being those their constructors and training accept. The hypotheses on the width are necessary: C83_wrapped_refuted (int8) and C83_overflow_refuted (double); order is kept weakly only: C83_strict_refuted.'),
 'C84': ('proved', 'The bounds are stated over real numbers (S_Accuracy: a relative and an absolute error) for the scalers of M_Scale in any format of Flocq; a result that overflowed is excluded by hypothesis except for float columns, where this is proved impossible. Integers beyond the 53 bits of the result are excluded because the claim is false of them: C84_wide_integer_refuted.'),
 'C85': ('proved', 'The estimator of M_SampleAdd is run by the training loop of TestHelpers.h (M_Pipeline.train) over the life cycle of M_Estimator; its archive is the one of M_Save.'),
 'C86': ('proved', 'For the kinds of M_Save (those whose state is a value of the type universe). Not promised, and shown: appended bytes are not noticed (C86_appended_refuted), nor data saved by another kind of transformer (C86_other_kind_refuted).'),
 'C87': ('proved', 'Stated for the kinds of M_Save and for any members of types without matrices; the forward and backward fill imputers compare their default values only, not what they remember (C87_memory_refuted), so the theorem on pipelines asks of each class that equal transformers behave alike. The matrices of PCA and TruncatedSVD in exact real arithmetic. Not promised, and shown: a transformer with a NaN does not equal itself (C87_nan_refuted); == of the projections is not transitive (C87_tolerance_refuted).'),
 'C88': ('proved', 'For given trained matrices: the accuracy of the decompositions themselves (Eigen, RedSVD) is not modelled (C73 and C74 treat them in exact arithmetic). Not promised, and shown: two machines may give different numbers (C88_order_refuted).'),
 'C89': ('proved', 'For trainings in which none of the estimators reaches its limit on the number of rows, and of featurizers whose chain is estimators followed by one maker; chains with transformers in between are not covered.'),
 'C90': ('proved', 'For calls that do not throw (the state after an exception is the subject of C78). Forward fill keeps the last value over a flush (C90_forward_fill_refuted).'),
 'C91': ('proved', 'C91_weights and C91_formula ask std::log to be accurate to 2^-52 from 1 on; C91_logarithm shows that such a logarithm exists. C91_norm holds for every logarithm as in C62.'),
}
