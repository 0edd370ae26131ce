# A Rocq (Coq 8.16.1) model of microsoft/FeaturizersLibrary

## 1. Layout

`rocq/theories/` holds, per area `X`:

* `M_X.v` - the **model**: total, computable Gallina functions, one per C++ function, each with a comment
  citing file and lines in `/repo`.  No proofs.
* `S_X.v` - (where useful) the **specification**: short definitions, independent of the model, used to state properties.
* `L_X.v` - lemmas and proofs.
* `P_X.v` - the **properties**: only `Theorem ... Proof. exact lemma. Qed.`, an `Example` showing that the
  hypotheses are met by a concrete non-trivial case, and `Print Assumptions`.

Theorem names: `Cnn_...`; suffix `_partial` when part of the English property is not covered;
suffix `_refuted` when the property is false of the code as it stands (the witness is in the statement).

## 2. Modelling conventions

* A C++ call returns `res A := Ok a | Throw e | UB`.  `Throw` is a C++ exception (its class is kept), `UB` is undefined
  behaviour (signed overflow, out-of-bounds access, invalid pointer arithmetic, non-terminating loop without side effects):
  a distinct outcome, never assumed away.
* Fixed-width integers are `Z` with the wrap (`mod 2^n`) written where C++ wraps and `UB` where signed arithmetic overflows.
  Bytes and `char`s are `Z` in `[0,256)`; strings are `list Z`.
* `size_t` counters that count objects in memory (vector sizes, loop indexes) are `nat`: they cannot overflow in practice.
  `uint32_t` counters that count data (histogram, pending rows, ...) wrap mod 2^32 in the model.
* Callbacks become lists of emitted values, in order.
* Mutable objects become records; methods return the new record.
* `std::map`/`std::set` are sorted association lists; `std::unordered_map` is a duplicate-free association list whose order is
  *unspecified*: wherever the code iterates over one, the theorems quantify over every permutation.
* Element types are type parameters together with the operations the code uses on them (equality, order, codec) and the
  laws those operations satisfy, as explicit hypotheses of the theorem (section variables, discharged); each such theorem
  comes with an instance.
* Floating point: bit patterns (`Z`) where values are only copied; Flocq's IEEE-754 `binary_float` (round to nearest even)
  where arithmetic matters.

## 3. Plan per property

| id | modelled (file) | proof idea |
|----|----------|------------|
| C01-C03 | `Archive` object: both modes, both byte orders, all operations (M_Archive) | big/little-endian digit expansion lemmas; induction over typed value lists and over op sequences |
| C04,C06,C07,C59 | a universe of types closed under all containers; `serialize`/`deserialize` by recursion over the type (M_Codec) | induction on types: decode(encode v ++ r) = (v, r); decode is prefix-monotone, whence truncation and injectivity; every successful decode gives a well-formed value |
| C05 | duration / time_point codecs on 64-bit nanosecond ticks (M_Codec) | integer division lemmas |
| C08,C09 | `save`/`Transformer(Archive&)` of every transformer with a plain state, one `kind` each (M_Save) | codec theorems composed; the version check comes first |
| C10,C11 | `Estimator`/`FitEstimator`/`TransformerEstimator` state machines over an arbitrary implementation (M_Estimator) | invariant over op sequences |
| C12 | annotation maps | induction over histories |
| C13 | `TrainingOnlyEstimatorImpl` over an arbitrary policy | induction over batches |
| C14-C16 | pipeline chain elements over arbitrary stateful stages (M_Pipeline) | induction on the number of stages, on inputs |
| C17 | pointer table with an arbitrary random stream (M_PointerTable, one call after the other); the statements of the methods one by one, with the mutex, for any number of threads (M_PtConc) | refinement to a finite map, over every history; linearizability by an extended history with the moments at which calls take effect (L_PtConc) |
| C18-C26 | the estimators' policies (M_Stats) | induction over the data; permutations for hash order |
| C27,C28 | scalers on IEEE floats (Flocq) and on fixed-width integers (M_Scale) | monotonicity of rounding; wrap-around lemmas |
| C29,C30 | standard/robust scaling, norms (M_Scale) | results equal correctly rounded real arithmetic |
| C31-C34 | encoders, murmur hash, sparse vectors (M_Encoders) | index map theorems (C19) composed with the encoders |
| C35-C37 | fill and statistic imputers (M_Impute) | pointwise specification, induction over the stream |
| C38 | `std::to_string`/`stoi`... from the C standard, the `strtol` family (M_String) | decimal expansion lemmas |
| C39-C44 | circular buffer, rolling windows, lag/lead, pivot, grain dropper (M_Window, M_Stats) | representation invariant + refinement to list functions |
| C45,C46 | time series imputer, training and inference (M_TsImpute, M_Keyed) | invariants per key, refinement to a per-key list function |
| C47-C50 | grain and filter featurizers over arbitrary inner transformers (M_Grain, M_Filter) | projection lemma: filter by grain commutes with execution |
| C51-C54 | tokenizer, n-grams, clean-up (M_Text) | list specifications (maximal segments, contiguous sublists) |
| C55,C56,C60-C62 | document statistics, count and tf-idf vectorizers (M_Docs) | counting lemmas; every hash order, every `nth_element`; IEEE rounding bounds |
| C57 | `TimePoint` fields; `to_days`, `from_days`, weekday and ISO week of the bundled date.h / iso_week.h (M_Date) | the spec is a day-by-day numbering (`calendar`: start and successor); `to_days` maps successors to successors, so every numbering agrees with it; one era of 400 years is checked completely and carried to all by arithmetic |
| C58 | holiday map and key, the double division included (M_Date) | the quotient is at least 2^-17 below the next integer, so rounding does not cross it |
| C63 | country files, matching, enumeration (M_Date) | list lemmas; for the shipped names one computation on the 38 names, carried to every directory order and spelling |
| C64 | FromString/ToString of time points and the part of date.h's from_stream/to_stream that they use (M_TimeText) | digit-reading lemmas and a symbolic run of the format over every layout; the calendar lemmas of C57 |
| C65 | the generated C functions, generically for a featurizer whose methods are parameters, over a heap and the pointer table (M_CApi) | simulation: heap, table and answers refine a ledger of handles and blocks (S_CApi); induction over the history |
| C66 | ToString/FromString of float and double: printf's %f, strtod's grammar, decimal and hexadecimal, correct rounding (M_FloatText; S_HexText says what a hexadecimal numeral means) | scanning lemmas; Flocq's division lemma for the rounding of a ratio; nearest-of-nearest arguments over the reals |
| C67 | save / load / constructor of the time series imputer and the memory of its C interface (M_TsSave) | the codec lemmas of C04, C06 and C59 for each field |
| C68 | Transform / Flush of the C interface of the time series imputer, conversion of rows to texts and back (M_TsRows) | relational parametricity of the imputer (texts related to values), text round trips of C38, C64, C66; then C45 and C46; truncation by monotone parsers |
| C69 | StandardStatsUpdater for float and double (long double sums), the mean imputer over it, SumCalculator and MeanCalculator for floats, MedianEstimator for floats and the median imputer over it (M_FloatStats) | Medians: the run commutes with taking keys (the places on the real line), so the theorem for total orders applies. Flocq: relative error of each addition, induction over the column; invariant of the fold; exactness of sums of multiples of one power of two |
| C70 | the three estimators of the time series imputer in their pipeline, the annotations the last one reads, Fit and FitBuffer of the C interface (M_TsTrain on M_Pipeline, M_Estimator, M_Stats, M_TsRows) | the training loop of the pipeline equals three steps on the concatenated rows; frequency from C24, means by invariant of the fold; texts and values related row by row (C68) |
| C71 | the code after the execution in Transform, Flush, CreateTransformerSaveData, GetSupportedCountries, and the Destroy functions, over a heap of arrays with an allocator that may fail at any call (M_Mem) | a small Hoare logic for building arrays (L_Mem: trip) and one for giving them back (removes), joined by glue; one proof for each kind of result |
| C72 | the reading of arguments in Fit, FitBuffer, Transform and CreateDateTime (M_Mem) | the loops by induction over the described values; each read by lookup in the heap |
| C73 | PCA training and execution over real matrices of any size (M_Matrix); the eigensolver is a parameter | sums and products of matrices as functions (L_Matrix), covariance of a projection (L_Matrix2); contract of the solver assumed only for the matrix it is called with |
| C74 | svd_flip, sample_gaussian, gram_schmidt, fit and execute of TruncatedSVD over real matrices (M_Matrix); JacobiSVD and std::rand are parameters | invariant of the orthogonalisation (L_Matrix3); B^T B = C^T C from the spans, Bessel's inequality for the best directions (L_Matrix4); square orthonormal matrices have orthonormal rows (trace argument) |
| C75 | the C functions of M_CApi as programs whose single steps (new, access, delete, statements of the handle table) any number of threads interleave (M_Conc); S_Conc: a book of what is unused and which calls have begun | each thread owns a part of table and heap, in which its call runs as if alone (L_Conc4); what a call alone does is C65's (L_Conc: interp = step, every choice of addresses is an allocator); no deadlock by structural recursion on the program |
| C76 | the grained window estimators put together from M_Window, M_Grain, M_Pipeline and M_Codec: checks, training that wants no data, pipeline with the decorator that drops the grain, saving and loading (M_GrainWindow); S_GrainWindow: a use is a row, a flush or a reload | invariant: every part of the grained transformer represents the rows of its grain since the last flush or reload (L_GrainWindow: hinv), kept by every use |
| C77 | the L2 updater, the deviation policy and the training of the standard scaler in Flocq's IEEE arithmetic; norms and normalized rows of float and double (M_FloatScale); S_FloatScale: exact norms, mean, spread, "near" | an error calculus for sums of rounded terms and square roots (L_FloatScale{,2}): relative factors multiply, underflow adds; then norms and deviations (3, 4), quotients and the norm of the result (5, 6), integer columns and exceptions (7) |
| C78 | execute and flush as programs of emissions and assignments that an exception can end at any point, of the transformers with state, the filter wrapper, the grain map and a pipeline of two stages (M_Errors); S_Errors: sessions in which the caller catches exceptions, "leaves no trace", "counts every call" | induction on the session and on the call program; a pipeline by splicing the second stage's program into the first one's emissions (L_Errors{,2,3}); the programs with an accepting consumer equal the models of the other properties |
| C79 | fit as a program of checks and assignments that an exception can end, of the policies that can throw (statistics of integers and floats, frequencies, L1/L2 norms, deviation), inside the training-only estimator and the grain map (M_Refused); S_Refused: accepted values, "forgetful", "learns like" (the policy of the other property), what a batch contributes, a grain on its own | induction on the values tried; forgetful policies commute with dropping refused values; signs of sums of absolute values and squares (Flocq) for "stuck"; grain map by the lookup of each key (L_Refused{,2,3,4}) |
| C80 | the pipeline's training loop with annotation maps that its estimators share (M_Featurizer), and the library's featurizers as chains of learning, deriving and transformer-making estimators (M_Recipes); S_Featurizer: "learnt" (one estimator after the other, each on all rows), "trains to" (for every large enough bound on the loop), annotations of other columns kept | invariant of the chain over the rounds of the loop (L_Featurizer); evaluation of each recipe over a column without annotations (L_Recipes{,2..8}); then the theorems about the single estimators and transformers (C18-C37, C69, C77) |
| C81 | no new model; S_Order: "shuffled" (two trainings whose rows are a rearrangement of each other), "trains alike" (same error, or transformers related by equality, equal output or equal numbers) | folds whose steps commute (L_Order), uniqueness of minimum, maximum, mode and of the places of medians (L_Order2, L_Order3), invariance of the selection of terms (L_Order5), C70 for both interleavings (L_Order6), places of least and greatest values of a floating point column (L_Order7) |
| C82 | client programs as trees of calls and answers (M_Client), over the C interface of C65 (one caller) and of C75 (threads); S_Client: what a thread called and was answered, its own things, playing a program, the result of the C++ objects, the library's featurizers behind the interface | a thread that keeps to its own things sees a world of its own (invariant over the history, L_Client); programs lead to their results whatever allowed answers they get (induction on the rows, L_Client2); they are disciplined and keep to their own things, by induction on the interleaving (L_Client3, L_Client4); then C80 (L_Client5 for the mean imputer and the others of C80, L_Client6 for encoders, imputers and scalers) |
| C83 | the scalers and normalizers of C27, C29, C30; S_Keeps: what is not above is not sent above, compared with the operator <= of the type | subtraction of the same number, division by the same positive number and conversion are monotone after rounding, infinities included (L_Keeps); the trained states meet the conditions (L_Keeps2, L_Keeps3) |
| C84 | the scalers of C27-C29 and the min-max archive; S_Accuracy: within a relative and an absolute error of a real number | the subtractions lose one relative rounding error each even when they cancel, the quotient one more (L_Accuracy); the width after a round trip is within 8 of them of the trained width, by Sterbenz where it is not exact (L_Accuracy2) |
| C85 | SampleAddFeaturizer.cpp (M_SampleAdd) in the life cycle and training loop of C10 and C16, its archive as in C09 | induction over the batches; sums modulo 2^32 |
| C86 | CreateTransformerFromSavedData over the archives of C09 (M_Loaded) | from C09's equation for loading saved data, both ways round |
| C87 | operator== of the transformers over the value universe of C04 (M_Compare), of the projections over M_Matrix (M_MatrixEq); S_Compare: "the same value" (numbers as numbers, unordered containers up to order), "the same table"; M_CompareTr: == of pipelines, of the min-max scaler, of sparse vectors; S_CompareTr: "same behaviour" (alike answers to whatever calls) | induction over the types; for unordered containers a matching of the entries is a permutation because keys are distinct; pipelines by induction over the chain, a relation between states for each element (L_CompareTr); encoders through the tables (L_CompareTr2) |
| C88 | execute_impl of PCA and TruncatedSVD, svd_flip in floating point (M_Dot): a product of matrices as a relation, any tree of sums with or without FMA; S_Dot: inner products of reals, the error bound | induction over the trees of the sum; slack of two sums adds up; whole numbers by exactness of integers up to 2^p |
| C89 | the client that stops after one pass (M_Early.cut_short) on the featurizers of M_Featurizer and M_Recipes; S_Early: the first estimator that wants rows gets them, the others none | induction over the steps, the batches generalised; the recipes by their known end (C80) |
| C90 | no new model: the flushes of M_Pipeline, M_Window, M_Impute, M_TsImpute, M_Filter, M_Grain, M_GrainWindow; S_Flush: the states reached by calls, resets | what no call changes is an invariant of the reached states; pipelines: bisimulations of the stages combine; grains: a bisimulation between a map and one with fewer, flushed entries |
| C91 | no new model: M_Docs; S_TfidfNorm: exact norms, exact weights with the real logarithm, accurate logarithms | rounding errors of sums, squares, root and quotient (L_FloatScale); the components are a rearrangement of the quotients; ln(a) - ln(b) <= a/b - 1 |

Cannot be expressed: wall-clock time and memory use; the rounding errors of the Eigen-based PCA/SVD training (modelled in exact real arithmetic); RE2 itself (an arbitrary
matching function `re` stands for it); the JSON parser and the file system (the holiday table and the list of files are
parameters).

## 4. Trusted base

* Coq's kernel (8.16.1), including its `vm_compute`.
* The reading of the C++ source by the models: every definition of an `M_` file cites the lines it models and says where it
  simplifies.  The C++ standard library (containers, algorithms, `to_string`/`stoi` family, `chrono`) is modelled from the
  standard; `gmtime_r`, `std::log`, RE2, the random numbers of the pointer table, hash orders, `nth_element` and the order of
  `readdir` are universally quantified parameters with the hypotheses that the theorem's statement shows.
* The axioms of section 5.  No axiom, parameter or hypothesis of our own outside of a section; no functor or module type.

Modelled: Archive.h, Traits.h (codec; string conversion for the integer, bool, string, optional, time point and floating point types), Featurizer.h,
PipelineComponents / PipelineExecutionEstimatorImpl, TrainingOnlyEstimatorImpl, InferenceOnlyFeaturizerImpl, SharedLibrary
PointerTable, the generated C functions (control flow, handles, errors, ownership; scalar results and string arrays) and
SharedLibrary_Common.cpp, the components (histogram, index map, order, mode, median, min/max, statistics, max-abs, norms, document statistics,
time series medians and frequencies, circular buffer, rolling window and grain wrappers, filter) and the featurizers named in
the table above, the archives of the time series imputer's C interface (SharedLibrary_TimeSeriesImputerFeaturizer.cpp).
Not modelled: the rounding of PCA and TruncatedSVD and the decompositions inside Eigen (parameters with their documented contract), the conversion of
arguments in the generated C functions inside M_CApi (a parameter there; modelled in M_Mem, C72), ONNX/ML.NET bindings, `FeaturizedStructs`, multi-threading inside of Eigen, memory orders weaker than sequential consistency (there are no atomics in the code; without data races, C75_no_race, they cannot be told apart).

## 5. Axioms

`tools/axioms.py` writes this section from `Print Assumptions` of every theorem.
A listing of sealed constants instead of axioms (as vcheck makes) also shows those of the sealed modules of the standard library
that the theorems over the reals pass through (Coq.Reals.Rdefinitions, Coq.ssr.ssrunder).

Closed under the global context (no axioms), 419 theorems:
C01_scalar_roundtrip, C02_cursor_in_bounds, C02_read_exact, C02_no_undefined_behaviour, C02_parser_view_fixed, C02_parser_view_block, C03_writer, C03_reader_refuses_writes, C03_pointer_constructor, C03_clone, C65_calls, C65_returns, C65_no_leak, C65_careful, C65_default_estimator_refuted, C65_wrong_kind_refuted, C65_dead_error_refuted, C65_null_place_refuted, C65_lost_refuted, C82_ends, C82_result, C82_saved, C82_isolation, C82_threads, C82_no_race, C82_no_leak, C82_featurizer, C82_min_max_imputer, C82_label_encoder, C82_functions, C82_values, C82_one_hot_encoder, C82_numericalize, C82_mode_imputers, C04_roundtrip, C04_without_size_bound_refuted, C06_truncation_rejected, C07_injective_and_prefix_free, C05_duration_roundtrip, C05_time_point_roundtrip, C59_only_well_formed_values, C59_resave, C87_equal, C87_members, C87_alike, C87_equivalence, C87_loaded, C87_tables, C87_dates, C87_encoders, C87_label_encoder, C87_numericalize, C87_pipeline_stages, C87_pipeline_equivalence, C87_pipelines, C87_sparse, C87_memory_refuted, C87_nan_refuted, C75_answers, C75_returned, C75_no_race, C75_table_exclusive, C75_no_leak, C75_no_deadlock, C75_shared_transformer_refuted, C75_destroyed_in_use_refuted, C57_calendar, C57_from_days, C57_fields, C57_truncated, C57_any_clock, C57_iso_unique, C57_before_1970_refuted, C57_documented_refuted, C57_year_wrap_refuted, C63_valid, C63_supported, C63_estimator, C63_refused, C63_shipped, C63_other_directory_refuted, C63_left_open_refuted, C60_same_terms, C60_words, C60_word_ngrams, C60_char_ngrams, C60_char_ngrams_within_words, C60_regex_lower_refuted, C61_regex_tokens, C61_endless_refuted, C89_early, C89_single_pass, C89_encoders, C89_scalers, C89_mode_imputers, C34_sparse_vector, C34_single_value, C31_one_hot, C31_untrained_rejected, C31_sparse_labels_refuted, C32_label_encoder, C32_numericalize, C32_label_wraps_refuted, C33_hash_one_hot, C33_no_columns_rejected, C33_murmur, C33_container_hash, C33_long_strings_refuted, C78_stateless, C78_forward_fill, C78_forward_fill_value, C78_backward_fill, C78_backward_fill_flush, C78_filter, C78_careful_stages, C78_careful_chain, C78_careful, C78_pipeline, C78_grain_isolation, C78_grains, C78_grains_alike, C78_windows, C78_lags, C78_normalizer, C78_normalizer_refused, C78_same_imputers, C78_same_windows, C78_same_pivot, C78_same_lags, C78_same_filter, C78_same_pipeline, C78_same_grains, C78_same_grains_flush, C78_backward_fill_refuted, C78_windows_refuted, C78_normalizer_refuted, C78_lag_flush_refuted, C78_grain_saved_refuted, C78_pipeline_refuted, C10_never_backwards, C10_wrong_state_refused, C10_training_loop, C10_allowed_moves, C10_decided, C11_at_most_one_transformer, C11_only_after_training, C12_append_only, C12_first_wins, C12_answers_are_stable, C13_trained_on_first_items, C13_batching_irrelevant, C13_complete_reported, C13_one_pass, C13_existing_annotation_kept, C13_existing_annotation_skips_training, C80_training, C80_batching, C80_existing, C80_reused_annotation_refuted, C80_label_encoder, C80_one_hot, C80_numericalize, C80_mode_imputers, C80_mode_without_values, C80_min_max_imputer, C37_median_float, C90_pipelines, C90_rows, C90_alike, C90_stateless, C90_backward_fill, C90_rolling_windows, C90_lags, C90_filters, C90_grains, C90_windows_of_grains, C90_lags_of_grains, C90_forward_fill_refuted, C47_own_rows, C47_succeeds, C47_unknown_grain, C47_failure, C47_constructors, C47_string_grains, C48_cycles, C48_kept, C48_string_grains, C48_first_cycle_partial, C48_second_cycle_refuted, C48_position_refuted, C48_created_not_saved, C49_own_rows, C49_succeeds, C49_training_loop, C49_annotations, C49_transformers, C49_nothing_to_make, C50_rows, C50_row_by_row, C50_flush, C50_training, C50_save_load, C76_rolling_window, C76_lag_lead, C76_no_training, C76_parameters, C76_lag_parameters, C76_huge_windows_refuted, C35_forward_fill, C35_no_source_throws, C35_save_mid_stream_refuted, C36_backward_fill, C36_pending_throws, C36_long_null_run_refuted, C36_save_mid_stream_refuted, C37_imputer, C37_mode_and_cat_imputer, C37_mode_without_values_throws, C37_mode_float, C37_median_imputer, C37_min_max_imputer, C37_mean_imputer, C37_markers, C86_identified, C86_loaded_saves_again, C86_appended, C86_appended_refuted, C86_other_kind, C86_other_kind_refuted, C73_untrained, C71_string, C71_numbers, C71_matrix, C71_saved_bytes, C71_countries, C71_sparse, C71_time, C71_strings, C71_rows, C71_grains, C71_allocators, C71_leaks_refuted, C71_empty_vector_refuted, C71_escapes_refuted, C71_half_destroyed_refuted, C72_numbers, C72_numbers_or_missing, C72_texts, C72_names, C72_grains, C72_matrices, C72_matrix_rows_square, C72_dates, C72_nothing_written, C72_refused, C72_matrix_rows_refuted, C72_null_name_refuted, C72_date_refuted, C81_label_encoder, C81_one_hot, C81_numericalize, C81_mode_imputers, C81_mode_tie_refuted, C81_min_max_imputer, C81_min_max_scaler, C14_composition, C14_streaming, C14_handed_out, C14_handed_on, C14_single_result, C15_round_trip, C15_order, C16_stage_by_stage, C16_in_order, C16_flushing_stage_refuted, C16_training_leaks_into_inference_refuted, C17_handles, C17_add_returns, C17_concurrent, C17_exclusive, C17_no_deadlock, C79_no_trace, C79_batches, C79_forgetful, C79_same, C79_frequency, C79_series_frequency, C79_estimator, C79_integer_statistics, C79_integer_same, C79_grain_isolation, C79_grains, C79_grain_same, C79_integer_refuted, C79_retry_refuted, C79_limit_refuted, C85_trained, C85_order, C85_saved, C08_other_versions_refused, C08_own_version_written, C08_standard_scaler_refuted, C09_save_load, C09_truncated_rejected, C09_only_constructible, C09_encoders, C09_hash_encoder, C09_rolling_window, C09_single_value, C09_robust_scaler, C09_fill_imputers, C09_string_conversion, C09_standard_scaler, C09_normalizer, C09_date_time, C09_projections, C09_vectorizers, C09_short_grain_dropper, C30_max_integer, C30_max_least_refuted, C18_histogram, C18_nan_refuted, C19_index_map, C19_trained_index_map, C19_order_independent, C19_sparse_existing_refuted, C20_order, C21_mode, C21_empty_rejected, C22_median, C23_min_max, C23_infinity_refuted, C23_basic_statistics, C24_frequency, C24_unordered_rejected, C24_grained_frequency, C24_grained_unordered_rejected, C24_global_minimum, C25_integer_sums, C25_uint64_refuted, C26_max_abs, C26_int_min_refuted, C38_round_trip, C38_optional_round_trip, C38_null_string_refuted, C38_signed_range, C38_unsigned_range, C38_negative_unsigned_refuted, C38_featurizers, C38_empty_string_refuted, C38_injective, C51_words, C51_only, C52_word_ngrams, C52_invalid, C53_char_ngrams_partial, C53_least_length, C53_lengths_refuted, C53_invalid, C53_within_words, C53_within_words_unpadded_refuted, C54_trim, C54_trim_left, C54_trim_right, C54_trim_idempotent, C54_dedup, C54_blank_refuted, C54_dedup_idempotent, C54_padding, C54_padding_twice, C54_padding_empty, C54_letter_case, C64_parse, C64_invalid, C64_off_clock_refuted, C64_print, C64_round_trip, C64_any_text, C64_west_refuted, C64_layout_refuted, C64_trailing_refuted, C64_two_letters_refuted, C64_earliest_refuted, C64_negative_year_refuted, C45_gaps, C45_spacing, C45_keys_independent, C45_keys_fail_alone, C45_unordered_rejected, C45_interpolate_rejected, C46_forward, C46_backward, C46_median, C46_values_kept, C67_save_load, C67_memory_save_load, C67_truncated, C67_memory_truncated, C67_versions, C67_loaded, C67_memory_loaded, C67_create, C67_overflow_refuted, C39_circular_buffer, C39_capacity, C40_rolling_window, C40_rejects, C40_huge_windows_refuted, C41_minimum, C41_maximum_partial, C41_maximum_of_negatives_refuted, C41_mean_partial, C41_mean_overflow_refuted, C42_lag_lead, C42_rejects, C42_save_load, C43_pivot, C43_bad_input, C44_short_grains.

`ClassicalDedekindReals.sig_forall_dec` (all from the standard library: Coq.Reals, Coq.Logic), 2 theorems:
C73_refused, C73_rows_independent.

`ClassicalDedekindReals.sig_forall_dec`, `FunctionalExtensionality.functional_extensionality_dep` (all from the standard library: Coq.Reals, Coq.Logic), 17 theorems:
C66_print, C73_training, C73_one_matrix, C73_result, C73_geometry, C73_recoverable, C73_total_variance, C73_covariance, C73_components_partial, C73_eigenvector_projection, C73_components_refuted, C74_refused, C74_result, C74_sign_free, C74_training_rows, C74_single_row, C74_rows_refuted.

`ClassicalDedekindReals.sig_forall_dec`, `ClassicalDedekindReals.sig_not_dec`, `FunctionalExtensionality.functional_extensionality_dep` (all from the standard library: Coq.Reals, Coq.Logic), 6 theorems:
C87_matrices, C87_tolerance_refuted, C74_gram_schmidt, C74_components, C74_nothing_dropped, C74_small_data_refuted.

`ClassicalDedekindReals.sig_forall_dec`, `ClassicalDedekindReals.sig_not_dec`, `Classical_Prop.classic`, `FunctionalExtensionality.functional_extensionality_dep` (all from the standard library: Coq.Reals, Coq.Logic), 183 theorems:
C84_min_max, C84_min_max_float, C84_min_max_float_range, C84_min_max_integer, C84_saved, C84_max_abs, C84_max_abs_integer, C84_robust, C84_wide_integer_refuted, C82_mean_imputer, C82_median_imputer, C82_max_abs_scaler, C82_min_max_scaler, C04_float_keys, C04_double_keys, C87_min_max_scaler, C58_holiday, C58_truncated, C58_before_1970_refuted, C55_document_statistics, C55_limit, C55_bad_document, C55_short_document_refuted, C55_vocabulary_refuted, C56_count_vector, C56_exact, C56_long_document_refuted, C56_trained, C62_tfidf_vector, C88_projection, C88_svd, C88_sign, C88_refused, C88_order_refuted, C89_imputers, C89_standard_scaler, C89_robust_scaler, C89_robust_scaler_float, C80_median_imputer, C80_mean_imputer, C80_mean_imputer_float, C80_standard_scaler_integer, C80_standard_scaler_double, C80_standard_scaler_float, C80_robust_scaler, C80_robust_scaler_float, C80_max_abs_scaler, C80_max_abs_scaler_integer, C80_min_max_scaler, C80_min_max_scaler_double, C80_min_max_scaler_float, C80_infinite_range_refuted, C77_l1, C77_l2, C77_normalized_l1, C77_normalized_l2, C77_deviation, C77_standard_double, C77_standard_float, C77_standard_integer, C77_defined, C77_norms_defined, C77_wide_refuted, C77_row_refuted, C77_overflow_refuted, C77_underflow_refuted, C69_statistics, C69_defined, C69_exact_columns, C69_constant_refuted, C69_order_refuted, C69_median, C69_median_refuted, C37_mean_float, C41_mean_float, C41_mean_infinite_refuted, C66_parse, C66_hexadecimal, C66_round_trip, C66_six_decimals, C66_special, C66_any_text, C66_lost_refuted, C66_trailing_refuted, C90_time_series_imputer, C83_columns, C83_min_max, C83_min_max_float, C83_min_max_integer, C83_max_abs, C83_max_abs_integer, C83_standard, C83_robust, C83_robust_integer, C83_normalized_row, C83_wrapped_refuted, C83_overflow_refuted, C83_strict_refuted, C74_gaussian, C74_draws, C74_training, C74_one_matrix, C81_median_imputer, C81_mean_imputer, C81_overflow_refuted, C81_float_mean_refuted, C81_min_max_scaler_float, C81_min_max_scaler_single, C81_max_abs_scaler, C81_max_abs_scaler_integer, C81_robust_scaler, C81_documents, C81_time_series, C79_float_same, C79_float_count, C79_float_infinity, C79_norms, C79_norms_count, C79_norms_infinity, C79_deviation, C79_deviation_same, C79_norms_refuted, C79_empty_row_refuted, C79_infinities_refuted, C27_minmax_double, C27_minmax_float_partial, C27_minmax_integer_partial, C27_minmax_trained_partial, C27_minmax_refuted, C27_maxabs_float, C27_maxabs_integer, C28_integer, C28_float_partial, C28_float_refuted, C29_standard, C29_robust, C29_robust_scale, C29_constant_column, C29_loaded_zero_refuted, C25_average, C30_normalizer, C30_row, C30_l1, C30_l2, C30_max_float, C91_norm, C91_weights, C91_formula, C91_logarithm, C46_training, C46_training_rejected, C46_median_refuted, C68_calls, C68_forward, C68_backward, C68_median, C68_truncated, C68_trailing, C68_flush_refuted, C68_duration_refuted, C68_digits_refuted, C68_types_refuted, C68_remembered_refuted, C67_small_frequency_refuted, C67_between_rows_refuted, C67_columns_refuted, C70_trained, C70_unordered, C70_missing, C70_unreadable, C70_single_rows, C70_cut_row, C70_interface, C70_interface_unordered, C70_interface_missing, C70_interface_single_rows, C70_then_forward, C70_then_backward, C70_then_median, C70_mean, C70_kept, C70_small_refuted, C70_unneeded_mean_refuted.

## 6. Disagreements between the code and the properties

Each is a theorem of the development (suffix `_refuted`, a concrete witness or a class of them in the statement).

| theorem | what the code does |
|---------|--------------------|
| C04_without_size_bound_refuted | containers of 2^32 elements are written with length 0 (the length is cut to 32 bits) |
| C08_standard_scaler_refuted | StandardScaleWrapper writes no version header: any other version is read as data |
| C16_flushing_stage_refuted, C16_training_leaks_into_inference_refuted | values emitted by a stage on flush reach the next stage's `fit` but the result is dropped; running transformers used in training keep their state for inference |
| C18_nan_refuted | every NaN is a histogram entry of its own |
| C19_sparse_existing_refuted | pre-existing values that are not dense: two values may share an index |
| C23_infinity_refuted | the minimum of a column of +infinity is `max()`, not in the data |
| C25_uint64_refuted | uint64 values from 2^63: the overflow check is itself undefined behaviour |
| C26_int_min_refuted, C30_max_least_refuted | the magnitude of the least signed value is undefined behaviour or wrong |
| C27_minmax_refuted | min-max scaling leaves [0,1] (even NaN) when max - min does not fit the type |
| C28_float_refuted | a MinMaxScaler saves min and the width: for inexact widths the loaded one differs |
| C29_loaded_zero_refuted | an archive with deviation 0 is accepted and divided by |
| C31_sparse_labels_refuted | user-supplied labels that are not 0..n-1: encoding a known value may throw |
| C32_label_wraps_refuted | the 2^32-th label wraps to that of unseen values |
| C33_long_strings_refuted | strings of 2^31 bytes: negative length, read outside of the string |
| C35_save_mid_stream_refuted, C36_save_mid_stream_refuted | saving in mid-stream forgets the remembered value, the pending nulls |
| C36_long_null_run_refuted | 2^32 - 1 pending nulls wrap the counter: all rows are lost |
| C38_null_string_refuted, C38_empty_string_refuted, C38_negative_unsigned_refuted | the string "NULL" and empty strings do not round trip in optionals; "-1" is read as an unsigned value |
| C40_huge_windows_refuted | horizon + window is computed in 32 bits |
| C41_maximum_of_negatives_refuted, C41_mean_overflow_refuted | rolling maximum of negative floats is `numeric_limits::min()`, a positive number; integer means overflow |
| C46_median_refuted | the "median" imputation strategy computes the mean |
| C48_second_cycle_refuted, C48_position_refuted | with creation on demand, a second save/load cycle loses every grain; a load leaves the archive in the wrong place |
| C53_lengths_refuted, C53_within_words_unpadded_refuted | of a range of lengths only the least is reported; unpadded char_wb text is undefined behaviour |
| C54_blank_refuted | a run of separators starting with a tab keeps the tab |
| C55_short_document_refuted, C55_vocabulary_refuted | one short document stops the training; a vocabulary with gaps makes indexes collide |
| C56_long_document_refuted | counts pass through float: 2^24 + 1 is reported as 2^24 |
| C57_before_1970_refuted, C58_before_1970_refuted | times before 1970 with a fraction are moved to the next second; holidays are looked up on the next day |
| C57_documented_refuted | dayOfWeek is 0 for Sunday and dayOfYear starts at 0, contrary to the header's comments; hour12 is 0 at midnight |
| C57_year_wrap_refuted | with microsecond clocks (libc++) years beyond 32767 wrap in date.h |
| C60_regex_lower_refuted | with a regular expression and lower-casing, training and inference read different terms |
| C61_endless_refuted | an empty match makes the tokenizer loop forever |
| C63_left_open_refuted, C63_other_directory_refuted | a successful country check leaks a directory handle; only the country's name is saved, not where its data is |
| C64_west_refuted | the offset -00:mm is read as +00:mm |
| C64_layout_refuted, C64_trailing_refuted, C64_two_letters_refuted | compact texts with a colon or a minus in the zone and texts without zone are refused though the comment calls these parts optional; letters behind the zone are accepted; two letters raise std::out_of_range |
| C64_off_clock_refuted, C64_earliest_refuted, C64_negative_year_refuted | valid texts outside the clock's range overflow (undefined behaviour), even the text written for the earliest time point; years before 0 are written as 00-1 |
| C65_wrong_kind_refuted, C65_null_place_refuted | a handle of another kind is cast and deleted; the place for a new estimator handle is written without a check |
| C65_dead_error_refuted | DestroyErrorInfo and GetErrorInfoString on a dead handle let an exception leave the C function |
| C65_lost_refuted | an estimator whose begin_training throws is never freed |
| C65_default_estimator_refuted | CreateEstimatorWithDefault does not start the training, and no other function can: the estimator is useless |
| C66_lost_refuted | std::to_string keeps six decimals: small numbers become 0, different numbers the same text |
| C66_trailing_refuted | "12,5 kg" is read as 12, "0x1p3" as 8 |
| C67_small_frequency_refuted | a frequency below a microsecond is saved as 0: the loaded imputer fills the first gap without end |
| C67_between_rows_refuted | the last row of each key and the rows held back are not saved |
| C67_overflow_refuted | a stored frequency that does not fit the clock overflows (undefined behaviour) |
| C67_columns_refuted | the loader does not compare the transformer's column types with those of the rows |
| C68_flush_refuted | Flush of the C interface is a stub: rows held back by Backward never come out |
| C68_duration_refuted | a duration column fails with std::logic_error when results are written, after the row was taken in |
| C68_digits_refuted | all floats come back with six decimals, imputed or not; keys that differ in later digits become one key |
| C68_types_refuted | CreateEstimator accepts Float16, BFloat16, Complex64, Complex128 columns; every row is then refused |
| C68_remembered_refuted | Median, no medians for a key: the refused row is remembered as the last one of the key |
| C69_constant_refuted | training on a column of equal doubles throws (0.1 three times if long double is double, 8000 times if it has 64 bits): the rounded average is outside [min, max] |
| C69_median_refuted | the interpolated median of two equal, finite doubles is infinite: they are added before they are halved |
| C69_order_refuted | a number that does not change the long double sum is refused: the same rows are accepted in another order |
| C41_mean_infinite_refuted | the mean of a window of finite floats is infinite when their float sum overflows |
| C70_unneeded_mean_refuted | training with Forward or Backward throws if some key has no value in a floating point column, although no mean is used |
| C70_small_refuted | the means are those of the six decimal texts: numbers below half a millionth count as zero |
| C71_leaks_refuted | the labels of a time point, arrays of strings, rows of numbers and grains with matrices lose memory when a later allocation fails (the code has TODOs) |
| C71_empty_vector_refuted | a sparse vector without values (a document with no known term) has two arrays that DestroyTransformedData always refuses |
| C71_escapes_refuted | with no memory for the error, std::bad_alloc leaves the C function |
| C71_half_destroyed_refuted | DestroyStringBuffers refuses an array with a null string after it has freed the strings before it; trying again is undefined |
| C72_matrix_rows_refuted | FitBuffer of the pivot reads as many matrices from every row as there are rows: past the end if there are fewer |
| C72_null_name_refuted | a null name in a grain is undefined behaviour instead of an error |
| C72_date_refuted | seconds beyond the clock and a null text are undefined behaviour; the length of the text is ignored |
| C73_components_refuted | PCA multiplies with the transpose of the matrix whose columns are the eigenvectors: the columns of the transformed training data are correlated |
| C74_rows_refuted | TruncatedSVD chooses signs per call: a row is mapped to different values depending on the rows it comes with, single rows to absolute values |
| C74_small_data_refuted | the orthogonalisation drops columns shorter than 1e-4: small training data gives a transformer that maps everything to zero |
| C75_shared_transformer_refuted | two threads that transform with one transformer use the object at the same time, one of them to write it |
| C75_destroyed_in_use_refuted | a transformer can be destroyed while another thread transforms with it: use after free |
| C76_huge_windows_refuted | the estimators accept a horizon and a window size that add up to 2^32; the transformer then refuses every row |
| C77_wide_refuted | training of the standard scaler throws on a wide column if a value near the mean comes late ([-2^33, 2^33, 1]), even with both flags off; accepted in another order |
| C77_row_refuted | the L2 norm of [2^33, 1] is refused, that of [1, 2^33] accepted |
| C77_overflow_refuted | norms above the largest double become infinite and every normalized cell 0 |
| C77_underflow_refuted | where long double is double, rows of numbers below 2^-537 have the L2 norm 0 and infinite cells |
| C78_backward_fill_refuted | the backward fill delivers accepted copies a second time after the consumer refused one in the middle |
| C78_windows_refuted | a row whose result was refused stays in the window; retried, it is there twice |
| C78_normalizer_refuted | a norm is used up by a row whose result was refused; the retry is divided by the next row's norm |
| C78_lag_flush_refuted | a flush of the lag operator that fails does not reset it |
| C78_grain_saved_refuted | the grain of a row that was refused is kept, and saved |
| C78_pipeline_refuted | a window in front of a refusing stage keeps the refused row |
| C79_integer_refuted | an integer refused because the sum would overflow is counted, and is minimum or maximum: the average is of fewer values than the count |
| C79_norms_refuted | a row refused half-way is part of the next row's L1 or L2 norm |
| C79_empty_row_refuted | a row without values, otherwise refused, is accepted after a refused row and gets its (infinite) norm |
| C79_infinities_refuted | after a refused infinity the opposite one is accepted and the average is NaN |
| C79_retry_refuted | after a refused batch, the corrected batch is refused too: its beginning was already taken |
| C79_limit_refuted | values taken from a refused batch do not count towards the limit on training items |
| C80_reused_annotation_refuted | the second of two scalers of the same column in one pipeline does not learn: it finds the first one's annotation and scales by the scale of the raw data |
| C81_mode_tie_refuted | which of two equally frequent values the mode imputers choose depends on the order of the rows |
| C81_overflow_refuted | whether a mean of integers can be trained depends on the order of the rows, not only on the sum |
| C81_float_mean_refuted | whether a mean of floating point numbers can be trained depends on the order of the rows |
| C83_wrapped_refuted | the width of an int8 column from -128 to 127 wraps to -1: the min-max scaler sends the largest value below the smallest |
| C83_overflow_refuted | the width of a double column overflows to infinity: the largest value is sent to NaN |
| C83_strict_refuted | different values may be scaled to the same number |
| C84_wide_integer_refuted | int64 values beyond 2^53 are rounded before they are subtracted: in a trained range of width 2 the maximum is sent to 512 |
| C80_infinite_range_refuted | a column of only +infinity is accepted by the min-max estimator with the range [FLT_MAX, inf], the least value of which never occurred; the trained value itself is scaled to NaN |
| C86_appended_refuted, C86_other_kind_refuted | CreateTransformerFromSavedData does not look whether the bytes were used up, and saved data carry no mark of their kind: data with anything appended, and data of another featurizer with parameters of the same types, are accepted |
| C87_memory_refuted | fill imputers that remember different values compare equal and give different results |
| C87_nan_refuted, C87_tolerance_refuted | a transformer with a NaN parameter does not equal itself; == of PCA and TruncatedSVD has a tolerance: it is not transitive, and equal ones may give different results |
| C88_order_refuted | the projection of one row may differ between machines: the order of the sum is not fixed |
| C90_forward_fill_refuted | forward fill is not reset by a flush: a row after it may be filled with a value from before it |
