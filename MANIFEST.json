{"claims": [
  {"property": "C01", "status": "partial", "theorems": ["file_round_trip_thm", "file_reread_thm", "trailing_norms_refuted"], "note": "False as stated: when no norms are stored and bytes that look like a norms chunk follow the file, reading picks them up (trailing_norms_refuted). Proved: reading back what was written gives the same embeddings when nothing follows, for every vocabulary and storage kind."},
  {"property": "C02", "status": "proved", "theorems": ["file_length_thm"], "note": ""},
  {"property": "C03", "status": "proved", "theorems": ["file_chunks_thm"], "note": ""},
  {"property": "C04", "status": "proved", "theorems": ["file_aligned_thm"], "note": ""},
  {"property": "C05", "status": "proved", "theorems": ["header_valid_thm", "header_no_panic_thm"], "note": ""},
  {"property": "C06", "status": "proved", "theorems": ["file_chunks_thm"], "note": ""},
  {"property": "C07", "status": "proved", "theorems": ["bucket_round_trip_thm", "fasttext_round_trip_thm", "simple_round_trip_thm", "bucket_boundaries_refuted"], "note": "bucket_boundaries_refuted is the last clause: with other boundaries a lookup changes."},
  {"property": "C08", "status": "proved", "theorems": ["explicit_round_trip_thm"], "note": ""},
  {"property": "C09", "status": "proved", "theorems": ["floret_round_trip_thm", "floret_words_refuted"], "note": "floret_words_refuted is the last clause: words are lost."},
  {"property": "C10", "status": "proved", "theorems": ["quantized_round_trip_thm", "ndarray_round_trip_thm"], "note": ""},
  {"property": "C11", "status": "proved", "theorems": ["metadata_agrees_thm", "metadata_alone_thm"], "note": ""},
  {"property": "C12", "status": "partial", "theorems": ["file_truncation_thm", "truncated_empty_refuted"], "note": "False as stated for an empty matrix: a file cut inside the padding after its header is accepted (truncated_empty_refuted). Proved for matrices and norms that are not empty."},
  {"property": "C13", "status": "proved", "theorems": ["file_write_fails_thm"], "note": ""},
  {"property": "C14", "status": "proved", "theorems": ["mmap_equals_read_thm"], "note": ""},
  {"property": "C15", "status": "partial", "theorems": ["mmap_window_partial", "mmap_quantized_window_partial", "mmap_truncated_refuted", "mmap_overflow_refuted"], "note": "False as stated: the view of a truncated map panics and header sizes may overflow (the two refuted theorems). Proved for maps that contain the whole matrix."},
  {"property": "C16", "status": "proved", "theorems": ["vocab_wrapper_thm", "storage_wrapper_thm", "vocab_wrapper_ops_thm", "storage_wrapper_ops_thm", "wrapped_file_thm"], "note": ""},
  {"property": "C17", "status": "proved", "theorems": ["simple_new_iff_thm", "subword_new_iff_thm", "words_bijection_thm"], "note": ""},
  {"property": "C18", "status": "partial", "theorems": ["unknown_word_thm", "unknown_word_simple_thm", "subword_indices_thm", "default_markers_thm", "read_markers_thm", "fasttext_markers_thm", "lookup_range_thm", "lookup_range_refuted"], "note": "False as stated for vocabularies with an n-gram range that starts at zero or is empty: the constructors accept it and lookups panic (lookup_range_refuted). Proved for usable ranges; lookup_range_thm says exactly which ranges panic."},
  {"property": "C19", "status": "partial", "theorems": ["lookup_in_bounds_thm", "vocab_len_thm", "lookup_bounds_refuted"], "note": "False as stated for 2^64 buckets (lookup_bounds_refuted). Proved for every other vocabulary the constructors build."},
  {"property": "C20", "status": "proved", "theorems": ["ngrams_exact_thm", "ngrams_iterator_thm", "ngrams_range_thm"], "note": ""},
  {"property": "C21", "status": "partial", "theorems": ["hash_bound_partial", "fasttext_bound_partial", "hash_bound_refuted", "fasttext_zero_refuted"], "note": "False as stated for 2^64 hash buckets and for zero fastText buckets (the two refuted theorems). Proved for all other bucket counts."},
  {"property": "C22", "status": "proved", "theorems": ["fasttext_ascii_thm", "fasttext_signed_thm", "fasttext_index_thm"], "note": ""},
  {"property": "C23", "status": "proved", "theorems": ["floret_index_thm"], "note": ""},
  {"property": "C24", "status": "proved", "theorems": ["explicit_numbering_thm", "explicit_share_thm", "explicit_new_thm"], "note": ""},
  {"property": "C25", "status": "partial", "theorems": ["size_hint_upper_partial", "size_hint_lower_refuted", "size_hint_floret_refuted", "size_hint_overflow_refuted"], "note": "False as stated (the three refuted theorems). Proved: the upper bound holds for indexers with one index per n-gram."},
  {"property": "C26", "status": "partial", "theorems": ["known_word_thm", "lookup_total_partial", "lookup_total_refuted"], "note": "False as stated for vocabularies with an unusable n-gram range (lookup_total_refuted). Proved: known words return their row for every vocabulary, and no lookup panics if the range is usable."},
  {"property": "C27", "status": "proved", "theorems": ["unknown_sum_thm", "unknown_unit_thm", "unit_length_refuted"], "note": "Bit-exact for the sum and the division; unit length over exact real arithmetic as the quantifier says. unit_length_refuted shows that f32 rounding breaks unit length."},
  {"property": "C28", "status": "proved", "theorems": ["into_agrees_thm", "into_wrong_thm"], "note": "For vocabularies with a usable n-gram range; with another range both functions panic."},
  {"property": "C29", "status": "proved", "theorems": ["batch_into_thm", "batch_thm", "batch_order_thm", "batch_wrong_thm"], "note": "embedding_batch panics if its result cannot be allocated; batch_panics_thm (C74) says exactly when."},
  {"property": "C30", "status": "proved", "theorems": ["with_norm_thm", "iter_thm", "iter_with_norms_thm", "unknown_unit_thm"], "note": ""},
  {"property": "C31", "status": "partial", "theorems": ["to_explicit_bucket_partial", "to_explicit_fasttext_partial", "to_explicit_boundaries_refuted", "to_explicit_metadata_refuted"], "note": "False as stated for vocabularies with other word boundaries: the explicit vocabulary always uses the default ones (to_explicit_boundaries_refuted). Proved: words, norms and vectors of known words always; strings all of whose n-grams occur for default boundaries; and exactly which rows make up the vector of any other string."},
  {"property": "C32", "status": "partial", "theorems": ["try_to_explicit_partial", "try_to_explicit_same_thm", "try_to_explicit_refuted"], "note": "False as stated for vocabularies with an unusable n-gram range: the conversion panics (try_to_explicit_refuted). Proved for usable ranges."},
  {"property": "C33", "status": "proved", "theorems": ["storage_matrix_thm", "storage_clones_thm", "storage_reconstruct_thm", "reconstruct_norms_thm", "matrix_stacks_thm", "nd_matrix_thm", "nd_clones_thm", "quantized_matrix_thm", "quantized_clones_thm", "quantized_code_refuted"], "note": "For quantized matrices whose codes are centroid numbers; a file may contain others, lookups of these rows panic (quantized_code_refuted)."},
  {"property": "C34", "status": "partial", "theorems": ["quantize_validation_thm", "quantize_shape_thm", "emb_quantize_thm", "normalized_rows_partial", "quantize_zero_row_refuted", "quantize_finite_refuted", "quantize_norm_refuted"], "note": "False as stated: zero rows become NaN and norms may overflow (the three refuted theorems). Proved: validation, preservation of vocabulary, metadata and shape (for trainers that satisfy trainer_fits), and over the reals that rows that are not zero are normalised."},
  {"property": "C35", "status": "proved", "theorems": ["similarity_top_k_thm", "word_similarity_thm", "embedding_similarity_masked_thm", "embedding_similarity_thm", "top_k_unique_thm", "f32_ordered_thm", "f32_one_neutral_thm", "f32_number_thm", "R_ordered_thm", "R_one_neutral_thm"], "note": "For any arithmetic with ordered and one_neutral, which hold bit-exactly for f32 and for the reals. The similarity is the dot product in the order of ndarray's dot. Every query that returns; which ones return is C38."},
  {"property": "C36", "status": "proved", "theorems": ["batch_size_thm", "batch_default_thm"], "note": ""},
  {"property": "C37", "status": "proved", "theorems": ["word_similarity_excludes_thm", "masked_excludes_thm"], "note": ""},
  {"property": "C38", "status": "partial", "theorems": ["similarity_returns_partial", "similarity_panics_thm", "limit_zero_refuted", "batch_zero_refuted", "empty_vocab_refuted", "limit_max_refuted", "nan_refuted"], "note": "False as stated: limit 0, batch size 0, an empty vocabulary without a batch size, limits that cannot be allocated and dot products that are NaN panic (the five refuted theorems). Proved: the exact condition for a query to return."},
  {"property": "C39", "status": "proved", "theorems": ["analogy_masked_thm", "analogy_thm"], "note": ""},
  {"property": "C40", "status": "partial", "theorems": ["measures_partial", "measures_range_partial", "measures_order_partial", "unit_inner_thm", "measures_refuted"], "note": "Proved over the reals. False for f32: the dot product of a normalised vector with itself may exceed one, the distance is then NaN (measures_refuted)."},
  {"property": "C41", "status": "partial", "theorems": ["text_round_trip_partial", "text_round_trip_refuted", "text_empty_refuted"], "note": "False as stated: read_text divides the vectors by their lengths (text_round_trip_refuted). Proved for read_text_raw, bit for bit; the result of read_text is characterised. Number printing and parsing is a parameter with the law that printed numbers parse to the same number."},
  {"property": "C42", "status": "partial", "theorems": ["text_dims_round_trip_partial", "text_dims_outcomes_thm", "text_dims_round_trip_refuted", "text_empty_refuted", "text_ragged_refuted", "text_capacity_refuted"], "note": "False as stated: read_text_dims normalises, files without words panic, headers that promise too much panic, and lines of different lengths with the right total are accepted (the refuted theorems). Proved: round trip for the raw reader and the outcome for every file whose header can be allocated."},
  {"property": "C43", "status": "partial", "theorems": ["text_accepted_partial", "text_dims_accepted_partial", "text_ragged_refuted"], "note": "False as stated for lines of different lengths (text_ragged_refuted). Proved: the rows are the lines if and only if all lines have as many components as the matrix has columns."},
  {"property": "C44", "status": "partial", "theorems": ["word2vec_round_trip_partial", "word2vec_round_trip_refuted", "white_space_thm", "trim_thm"], "note": "False as stated: read_word2vec_binary divides the vectors by their lengths (word2vec_round_trip_refuted). Proved for the raw reader, bit for bit."},
  {"property": "C45", "status": "partial", "theorems": ["ft_writes_thm", "ft_write_overflow_thm", "ft_round_trip_partial", "ft_round_trip_refuted", "ft_boundaries_refuted"], "note": "False as stated: vectors that are not normalised and boundary markers other than the default ones are not recovered (the refuted theorems). Proved: the bytes written, what they are read as, and over the reals (C62) that normalised vectors, norms and subword rows are recovered."},
  {"property": "C46", "status": "partial", "theorems": ["ft_unsupported_thm", "ft_outcomes_thm", "ft_load_panics_thm", "ft_accepted_thm", "ft_order_thm", "ft_rows_refuted", "ft_no_subwords_refuted", "ft_columns_refuted"], "note": "False as stated: some matrices with too few rows, models without subwords, too many buckets and duplicate words panic instead of failing with an error, and the number of columns is not checked (the refuted theorems). The exact outcome is C61 and, for every byte string, C87."},
  {"property": "C47", "status": "partial", "theorems": ["floret_round_trip_partial", "floret_markers_refuted"], "note": "False as stated for boundary markers that contain the delimiters (floret_markers_refuted). Proved for all others, NaN-free matrices with at least one column and parameters below 2^32."},
  {"property": "C48", "status": "partial", "theorems": ["floret_accepts_thm", "floret_params_rejected_thm", "floret_rows_rejected_thm", "floret_header_required_thm", "floret_accepted_partial", "floret_truncated_refuted", "floret_zero_ngram_refuted", "floret_capacity_refuted"], "note": "False as stated: parameters are truncated to 32 bits before they are checked, n-grams of length zero are accepted and lookups panic, and too many buckets panic (the refuted theorems)."},
  {"property": "C49", "status": "proved", "theorems": ["lossy_exact_thm", "lossy_string_total_thm", "string_valid_thm", "text_lossy_is_strict_thm", "text_lossy_agrees_thm", "text_dims_lossy_is_strict_thm", "text_dims_lossy_agrees_thm", "text_words_valid_thm", "word2vec_lossy_raw_agrees_thm", "word2vec_lossy_agrees_thm", "word2vec_words_valid_thm", "word2vec_lossy_items_thm", "ft_lossy_agrees_thm"], "note": "The lossy text readers do on any file what the strict ones do on the file with ill-formed sequences replaced."},
  {"property": "C50", "status": "proved", "theorems": ["normalize_invertible_thm"], "note": "Over the reals; for f32 see C58 and C59."},
  {"property": "C51", "status": "partial", "theorems": ["file_position_partial", "file_position_refuted"], "note": "False as stated (file_position_refuted). Proved for files with norms and for streams with nothing after the file."},
  {"property": "C52", "status": "partial", "theorems": ["file_loaded_partial", "file_consistent_refuted"], "note": "False as stated: a file whose vocabulary and matrix disagree in size is loaded (file_consistent_refuted)."},
  {"property": "C53", "status": "partial", "theorems": ["file_panics_partial", "file_panics_refuted"], "note": "False as stated: some malformed files panic (file_panics_refuted). file_panics_partial lists every panic that can occur."},
  {"property": "C54", "status": "partial", "theorems": ["read_number_partial", "read_number_last_thm", "read_number_refuted"], "note": "False as stated if the delimiter is missing: the last byte of the stream is dropped instead (read_number_refuted)."},
  {"property": "C55", "status": "proved", "theorems": ["text_outcomes_thm", "text_normalized_thm"], "note": ""},
  {"property": "C56", "status": "proved", "theorems": ["text_dims_outcomes_thm", "text_dims_normalized_thm"], "note": ""},
  {"property": "C57", "status": "proved", "theorems": ["word2vec_reader_thm", "word2vec_accepted_thm", "white_space_thm", "trim_thm", "word2vec_header_refuted"], "note": "word2vec_header_refuted shows why the matrix must not be empty: \"0 23\" without a newline is accepted."},
  {"property": "C58", "status": "proved", "theorems": ["text_raw_round_trip_thm", "text_dims_raw_round_trip_thm"], "note": ""},
  {"property": "C59", "status": "proved", "theorems": ["word2vec_raw_round_trip_thm"], "note": ""},
  {"property": "C60", "status": "proved", "theorems": ["floret_accepts_thm", "floret_params_rejected_thm", "floret_rows_rejected_thm", "floret_header_required_thm", "floret_accepted_thm"], "note": ""},
  {"property": "C61", "status": "proved", "theorems": ["ft_unsupported_thm", "ft_outcomes_thm", "ft_load_panics_thm", "ft_accepted_thm"], "note": ""},
  {"property": "C62", "status": "proved", "theorems": ["ft_writes_thm", "ft_round_trip_thm", "ft_exact_rows_thm", "ft_exact_functions_thm"], "note": "The result over the reals is for the same polymorphic functions as are run on f32."},
  {"property": "C63", "status": "proved", "theorems": ["file_grammar_thm", "vocab_grammar_thm", "storage_grammar_thm", "norms_grammar_thm", "norms_grammar_panic_thm", "file_unambiguous_thm", "written_grammar_thm"], "note": ""},
  {"property": "C64", "status": "proved", "theorems": ["mapped_grammar_thm", "mapped_file_grammar_thm", "mapped_row_thm"], "note": ""},
  {"property": "C65", "status": "proved", "theorems": ["file_panic_exact_thm", "vocab_panic_exact_thm", "storage_panic_exact_thm"], "note": "The panicking inputs are stated as inductive relations on bytes (Grammar); the panic value is part of the statement."},
  {"property": "C66", "status": "proved", "theorems": ["decimal_read_thm", "word_read_thm", "number_read_thm"], "note": ""},
  {"property": "C67", "status": "proved", "theorems": ["decimal_round_trip_thm", "text_decimals_thm", "text_dims_decimals_thm", "floret_decimals_thm"], "note": ""},
  {"property": "C68", "status": "proved", "theorems": ["shortest_decimal_thm"], "note": "The model of printing and parsing is exact arithmetic that returns what the standard library documents; the byte-exact test files of the project are replayed in ConformanceData."},
  {"property": "C69", "status": "proved", "theorems": ["file_followed_thm"], "note": ""},
  {"property": "C70", "status": "proved", "theorems": ["file_cut_thm"], "note": ""},
  {"property": "C71", "status": "proved", "theorems": ["loadable_thm"], "note": ""},
  {"property": "C72", "status": "proved", "theorems": ["file_rewrite_thm", "file_same_bytes_thm"], "note": ""},
  {"property": "C73", "status": "proved", "theorems": ["lookup_panics_thm"], "note": ""},
  {"property": "C74", "status": "proved", "theorems": ["embedding_panics_thm", "with_norm_panics_thm", "into_always_agrees_thm", "batch_into_panics_thm", "batch_panics_thm"], "note": ""},
  {"property": "C75", "status": "proved", "theorems": ["hash_counts_thm", "fasttext_counts_thm", "floret_counts_thm"], "note": ""},
  {"property": "C76", "status": "proved", "theorems": ["size_hint_exact_thm"], "note": ""},
  {"property": "C77", "status": "proved", "theorems": ["query_panics_thm", "masked_panics_thm", "word_similarity_panics_thm", "analogy_panics_thm"], "note": ""},
  {"property": "C78", "status": "proved", "theorems": ["host_rows_thm", "host_storage_thm", "host_lookups_thm", "host_write_thm", "host_view_thm", "host_view_no_panic_thm"], "note": ""},
  {"property": "C79", "status": "proved", "theorems": ["try_to_explicit_outcome_thm", "explicit_bucket_lookups_thm", "explicit_fasttext_lookups_thm"], "note": ""},
  {"property": "C80", "status": "proved", "theorems": ["rounding_exists_thm", "rounding_unique_thm", "rounding_error_thm", "rounding_monotone_thm", "add_rounds_thm", "sub_rounds_thm", "mul_rounds_thm", "div_rounds_thm", "sqrt_rounds_thm", "of_N_rounds_thm", "value_compare_thm", "is_zero_value_thm", "classes_thm", "nan_operand_thm", "inf_both_thm", "inf_finite_thm", "div_by_zero_thm", "sqrt_special_thm", "cmp_inf_thm"], "note": ""},
  {"property": "C81", "status": "proved", "theorems": ["normalize_error_thm", "unknown_length_thm", "read_length_thm"], "note": "For vectors of at most 2^22 finite numbers whose computed length is finite and at least 2^-40."},
  {"property": "C82", "status": "proved", "theorems": ["measures_order_f32_thm", "measures_range_f32_thm", "measures_nan_f32_thm", "measures_error_f32_thm", "angular_f32_thm"], "note": "The angular similarity under the laws of acos (antitone, between zero and pi)."},
  {"property": "C83", "status": "proved", "theorems": ["read_number_outcome_thm"], "note": ""},
  {"property": "C84", "status": "proved", "theorems": ["text_exact_thm", "text_dims_exact_thm", "text_normalized_thm", "text_dims_normalized_thm"], "note": ""},
  {"property": "C85", "status": "proved", "theorems": ["word2vec_exact_thm", "word2vec_normalized_thm"], "note": ""},
  {"property": "C86", "status": "proved", "theorems": ["floret_exact_thm"], "note": ""},
  {"property": "C87", "status": "proved", "theorems": ["ft_every_outcome_thm"], "note": ""},
  {"property": "C88", "status": "proved", "theorems": ["ngrams_exact_thm", "ngrams_unique_thm", "ngrams_iterator_thm"], "note": ""},
  {"property": "C89", "status": "proved", "theorems": ["dot_error_thm", "unit_cosine_thm", "ranked_returns_thm", "similarity_ranked_thm", "word_ranked_thm", "masked_ranked_thm", "analogy_ranked_thm", "read_ranked_thm"], "note": "The product of the matrix and the query is modelled as the dot product of each row, with eight partial sums."},
  {"property": "C90", "status": "proved", "theorems": ["converted_lookups_thm", "converted_queries_thm"], "note": ""},
  {"property": "C91", "status": "proved", "theorems": ["hash_published_thm", "hash_published_exists_thm", "hash_input_unique_thm", "hash_input_injective_thm", "fnv_unique_thm", "floret_published_thm", "floret_published_exists_thm", "murmur_unique_thm"], "note": ""},
  {"property": "C92", "status": "proved", "theorems": ["quantized_near_thm"], "note": "Training and encoding of the quantizer are parameters."},
  {"property": "C93", "status": "proved", "theorems": ["vocab_equality_thm", "vocab_equal_same_thm", "vocab_equal_refl_thm"], "note": ""},
  {"property": "C94", "status": "proved", "theorems": ["infallible_exact_thm"], "note": ""},
  {"property": "C95", "status": "proved", "theorems": ["add_relative_thm", "sums_near_thm", "unit_direction_thm", "unknown_near_thm"], "note": ""},
  {"property": "C96", "status": "proved", "theorems": ["text_trip_thm", "text_dims_trip_thm", "word2vec_trip_thm", "read_back_thm"], "note": ""},
  {"property": "C97", "status": "proved", "theorems": ["ft_read_f32_thm", "ft_trip_f32_thm"], "note": ""},
  {"property": "C98", "status": "proved", "theorems": ["text_fault_thm", "word2vec_fault_thm", "floret_fault_thm", "fasttext_fault_thm"], "note": ""},
  {"property": "C99", "status": "proved", "theorems": ["file_fault_thm", "file_fault_refuted"], "note": "file_fault_refuted is the witness that an I/O error while the norms are read is not reported."},
  {"property": "C100", "status": "proved", "theorems": ["text_convert_thm", "word2vec_convert_thm", "floret_convert_thm", "fasttext_convert_thm"], "note": ""},
  {"property": "C101", "status": "proved", "theorems": ["file_numbers_thm", "set_metadata_thm", "into_parts_thm", "view_clone_thm"], "note": ""},
  {"property": "C102", "status": "proved", "theorems": ["file_fills_up_thm", "text_fills_up_thm", "text_dims_fills_up_thm", "word2vec_fills_up_thm", "floret_fills_up_thm", "fasttext_fills_up_thm", "fasttext_write_error_refuted"], "note": ""},
  {"property": "C103", "status": "proved", "theorems": ["explicit_storable_thm", "quantized_storable_thm"], "note": ""},
  {"property": "C104", "status": "proved", "theorems": ["explicit_order_thm", "explicit_order_refuted"], "note": ""},
  {"property": "C105", "status": "proved", "theorems": ["formats_agree_thm", "floret_rewrite_thm", "normalized_rewrite_refuted"], "note": "normalized_rewrite_refuted is the witness that the raw readers are needed."},
  {"property": "C106", "status": "proved", "theorems": ["file_writes_thm", "file_survives_thm", "file_long_word_thm", "text_survives_thm", "text_dims_survives_thm", "binary_survives_thm", "floret_survives_thm", "fasttext_survives_thm"], "note": ""},
  {"property": "C107", "status": "proved", "theorems": ["iter_calls_thm", "iter_norms_calls_thm", "iter_loop_thm", "iter_made_thm", "iter_norms_made_thm"], "note": ""},
  {"property": "C108", "status": "proved", "theorems": ["obtained_sound_thm", "obtained_works_thm"], "note": ""},
  {"property": "C109", "status": "proved", "theorems": ["extended_lookup_thm", "reordered_lookups_thm", "reordered_batches_thm", "reordered_queries_thm", "reordered_exists_thm"], "note": ""},
  {"property": "C110", "status": "proved", "theorems": ["vocab_programs_thm", "storage_programs_thm", "embeddings_programs_thm", "mapped_programs_thm", "metadata_programs_thm", "text_programs_thm", "fasttext_programs_thm", "device_result_thm", "devices_agree_thm", "buf_contract_thm", "buf_responsive_thm", "cur_contract_thm", "bufreader_result_thm", "cursor_result_thm"], "note": ""},
  {"property": "C111", "status": "proved", "theorems": ["chunk_wprograms_thm", "file_wprogram_thm", "text_wprograms_thm", "floret_wprogram_thm", "fasttext_wprogram_thm", "device_written_thm", "bufwriter_written_thm", "plain_unnoticed_thm", "buffered_ok_refuted"], "note": "buffered_ok_refuted is the witness that Ok without a flush does not mean that the file is complete."},
  {"property": "C112", "status": "proved", "theorems": ["heap_empty_thm", "heap_push_thm", "heap_peek_thm", "heap_assign_thm", "heap_sort_thm", "wsr_total_order_thm", "std_similarity_thm"], "note": ""},
  {"property": "C113", "status": "proved", "theorems": ["width_64_thm", "width_64_mmap_thm", "strict_read_thm", "strict_mmap_thm", "casts_read_thm", "casts_mmap_thm", "fits_read_thm", "fits_mmap_thm", "short_map_thm", "truncated_refuted", "damaged_norms_refuted", "unmapped_refuted"], "note": "The refuted theorems are witnesses of the differences that the statement names."},
  {"property": "C114", "status": "proved", "theorems": ["modelled_queries_thm", "similarity_by_exact_thm", "similarity_by_ok_iff_thm", "batch_by_irrelevant_thm", "word_by_exact_thm", "masked_by_exact_thm", "analogy_by_exact_thm", "short_layouts_thm", "sums_dot_thm", "sums_cosine_thm", "nd_dot_depth_thm", "nd_gemv_depth_thm", "unit_of_by_thm", "scaled_unit_by_thm", "ranked_returns_by_thm", "similarity_ranked_by_thm", "word_ranked_by_thm", "masked_ranked_by_thm", "analogy_ranked_by_thm", "layout_irrelevant_refuted"], "note": "layout_irrelevant_refuted is the witness that the layout can change the order of results."},
  {"property": "C115", "status": "proved", "theorems": ["less_read_thm", "less_mmap_thm", "less_text_dims_thm", "less_word2vec_thm", "less_floret_thm", "less_fasttext_thm", "all_text_dims_thm", "all_word2vec_thm", "all_floret_thm", "all_fasttext_thm", "enough_read_thm", "enough_mmap_thm", "enough_text_dims_thm", "enough_word2vec_thm", "enough_floret_thm", "enough_fasttext_thm", "greedy_read_thm", "greedy_text_dims_thm", "greedy_word2vec_thm", "greedy_floret_thm", "greedy_fasttext_thm", "greedy_norms_refuted"], "note": "For finalfusion files, that the reader at isize::MAX is the model's is width_64_thm and width_64_mmap_thm of C113. greedy_norms_refuted is the witness for damaged norms."},
  {"property": "C116", "status": "proved", "theorems": ["meta_read_thm", "meta_inj_thm", "meta_vocab_thm", "meta_rewritten_thm", "meta_lost_refuted", "meta_dims_refuted"], "note": "meta_lost_refuted and meta_dims_refuted are the witnesses for what is lost and not compared. The sampling threshold is a bit pattern; whether a table with a threshold that is NaN survives the toml text is not claimed."},
  {"property": "C117", "status": "proved", "theorems": ["width_built_thm", "width_lookup_thm", "width_vocab_len_thm", "width_embedding_thm", "width_embedding_into_thm", "width_with_norm_thm", "width_batch_thm", "width_batch_into_thm", "width_queries_thm", "width_queries_large_thm", "width_to_explicit_thm", "width_64_text_thm", "width_64_text_dims_thm", "width_64_word2vec_thm", "width_64_floret_thm", "width_64_fasttext_thm", "narrow_text_thm", "narrow_text_dims_thm", "narrow_word2vec_thm", "narrow_floret_thm", "narrow_fasttext_thm", "fits_text_thm", "fits_text_dims_thm", "fits_word2vec_raw_thm", "fits_word2vec_thm", "fits_floret_thm", "fits_fasttext_thm", "narrow_seed_refuted", "narrow_empty_refuted", "narrow_exponent_refuted"], "note": "narrow_seed_refuted, narrow_empty_refuted and narrow_exponent_refuted are the witnesses that the conditions on header numbers, shape and bucket exponent are needed."},
  {"property": "C118", "status": "proved", "theorems": ["strict_readers_thm", "strict_formats_thm", "shaky_result_thm", "shaky_file_thm", "shaky_written_thm"], "note": "shaky_file_thm also shows that a failing call while the norms are read is ignored (the finding of C99)."},
  {"property": "C119", "status": "partial", "theorems": ["chunk_calls_thm", "chunk_thrift_thm", "file_calls_thm", "format_calls_thm", "word2vec_calls_partial", "word2vec_calls_refuted"], "note": "False as stated: word2vec files whose vectors have no components take two calls for each word that the header promises (word2vec_calls_refuted). Proved for all other readers, and for word2vec files with components."},
  {"property": "C120", "status": "proved", "theorems": ["length_write_thm", "length_len_thm", "memory_write_thm", "read_write_thm", "portable_thm", "portable_mmap_thm", "too_wide_refuted"], "note": "too_wide_refuted is the witness that the condition on the size is needed: with more data than addresses the stated chunk length wraps."},
  {"property": "C121", "status": "proved", "theorems": ["hinted_sound_thm", "hinted_same_thm", "hinted_lookup_thm", "hinted_64_thm", "hinted_i686_thm", "hinted_overflow_thm", "made_dense_thm", "hinted_ngrams_overflow_thm", "hinted_ngrams_thm", "ngram_items_count_thm", "subword_indices_count_thm", "hinted_embedding_thm", "hinted_batch_thm", "hinted_queries_thm", "hinted_fasttext_sound_thm", "hinted_fasttext_thm", "hinted_fasttext_64_thm", "hint_overflow_refuted", "hint_memory_refuted", "hint_wrap_refuted", "hint_fasttext_refuted"], "note": ""},
  {"property": "C122", "status": "proved", "theorems": ["cut_read_thm", "cut_mmap_thm", "cut_texts_thm", "cut_marker_thm", "message_erasure_thm", "message_erasure_view_thm", "message_erasure_mmap_view_thm"], "note": ""},
  {"property": "C123", "status": "partial", "theorems": ["chunk_type_apart_thm", "data_type_apart_thm", "version_apart_thm", "wrong_version_thm", "wrong_magic_thm", "magic_apart_partial", "magic_apart_refuted", "vocab_lists_thm", "storage_lists_thm", "view_lists_thm", "mmap_storage_text_partial", "mmap_storage_lists_refuted", "bad_word_thm", "bad_ngram_thm", "metadata_text_thm", "no_chunks_text_thm", "floret_hashes_text_thm", "quantizer_lengths_thm", "quantizer_lengths_refuted"], "note": "False as stated in three points: magics that are not UTF-8 are shown lossily (magic_apart_refuted); memory mapping accepts quantized matrices but does not list them (mmap_storage_lists_refuted); the lengths of a quantizer are swapped in the text (quantizer_lengths_refuted). The rest is proved, and what the text is in the three cases."},
  {"property": "C124", "status": "partial", "theorems": ["compat_erasure_thm", "bad_number_thm", "bad_number_apart_thm", "bad_number_end_partial", "bad_number_shown_refuted", "text_bad_line_thm", "text_dims_bad_line_thm", "floret_bad_line_thm", "text_dims_sizes_partial", "text_dims_shown_refuted", "floret_params_text_partial", "floret_hashes_shown_refuted", "floret_count_text_thm", "word2vec_cut_partial", "cut_word_thm", "header_device_thm", "floret_header_device_thm", "text_device_thm", "floret_device_thm"], "note": "False as stated in four points: a number at the end of the data is shown without its last byte (bad_number_shown_refuted); the number of components shown for a file with dimensions is an average, which no line need have (text_dims_shown_refuted), and none is shown if the average is right; floret parameters are shown modulo 2^32 (floret_hashes_shown_refuted); a cut word in a word2vec file is reported as a cut vector, or as not UTF-8 although it is (word2vec_cut_partial, cut_word_thm). The rest is proved, and what the text is in these cases; word2vec_cut_partial has the text for every place of the cut."},
  {"property": "C125", "status": "partial", "theorems": ["compat_erasure_thm", "fasttext_cut_partial", "cut_word_thm", "fasttext_word_cut_thm", "fasttext_word_cut_refuted", "fasttext_wrong_start_thm", "fasttext_wrong_config_thm", "fasttext_wrong_vocab_thm", "fasttext_wrong_rows_thm", "fasttext_no_metadata_thm", "fasttext_version_refuted"], "note": "False as stated in two points: a word that was cut is reported as a missing frequency, or as not UTF-8 although it is (fasttext_word_cut_thm says when, fasttext_word_cut_refuted has an example); older versions are accepted although the text says that 12 is expected (fasttext_version_refuted). fasttext_cut_partial has the text for every place of the cut."},
  {"property": "C126", "status": "partial", "theorems": ["write_erasure_thm", "full_device_partial", "full_device_kind_thm", "ngram_texts_thm", "ngram_text_refuted", "centroids_text_thm", "centroids_text_refuted"], "note": "False as stated in two points: the number of n-grams is called \"ngram length\", like the length of each n-gram (ngram_text_refuted), and the number of centroids is called the number of subquantizers (centroids_text_refuted). full_device_partial has the text for every place where the room ends."},
  {"property": "C127", "status": "partial", "theorems": ["write_text_erasure_thm", "write_text_dims_erasure_thm", "write_word2vec_erasure_thm", "write_floret_erasure_thm", "write_fasttext_erasure_thm", "text_full_thm", "text_dims_full_thm", "word2vec_full_thm", "floret_full_thm", "fasttext_full_partial", "fasttext_model_text_thm", "fasttext_entry_type_thm"], "note": "False as stated in two points, both in fastText models: the type of the model is called the loss function (fasttext_model_text_thm), and the type of an entry is reported as an error of reading (fasttext_entry_type_thm). fasttext_full_partial has the text for every place where the room ends."},
  {"property": "C128", "status": "proved", "theorems": ["layout_thm", "same_field_thm"], "note": ""},
  {"property": "C129", "status": "partial", "theorems": ["fasttext_truncated_thm", "word2vec_truncated_partial", "word2vec_no_words_refuted", "text_dims_truncated_partial", "text_dims_truncated_refuted", "floret_truncated_partial", "floret_truncated_refuted", "text_truncated_partial", "text_truncated_refuted"], "note": "False as stated: the last newline of word2vec files is not needed, and without words the dimensions may be cut (word2vec_no_words_refuted); a cut in the last number of a text file with dimensions or a floret file is not noticed (text_dims_truncated_refuted, floret_truncated_refuted); text files may lack lines, and an empty one makes the reader panic (text_truncated_refuted). Every other cut of a fastText model, a word2vec file with words or a text file with dimensions is shown to be an error, and every other cut of a floret file not to be accepted; what is read in the exceptions is given."},
  {"property": "C130", "status": "proved", "theorems": ["text_appended_thm", "text_concatenated_thm", "text_dims_appended_thm", "word2vec_appended_thm", "word2vec_position_thm", "floret_appended_thm", "fasttext_appended_thm", "fasttext_position_thm"], "note": ""},
  {"property": "C131", "status": "proved", "theorems": ["texts_anywhere_thm", "word2vec_anywhere_thm", "floret_anywhere_thm", "fasttext_anywhere_thm", "fasttext_files_thm"], "note": ""},
  {"property": "C132", "status": "proved", "theorems": ["vocabs_anywhere_thm", "storages_aligned_thm", "files_aligned_thm", "wrapped_aligned_thm", "moved_file_refuted"], "note": "moved_file_refuted is the last sentence of the statement."},
  {"property": "C133", "status": "proved", "theorems": ["chunks_steady_thm", "embeddings_steady_thm", "file_bytes_aligned_thm", "predicted_steady_thm", "predicted_aligned_thm", "other_steady_thm"], "note": ""}
]}
