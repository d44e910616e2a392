C01 partial file_round_trip_thm file_reread_thm trailing_norms_refuted
  False as stated: when no norms are stored and bytes that look like a norms chunk follow the file, reading picks them up (trailing_norms_refuted). Proved: reading back what was written gives the same embeddings when nothing follows, for every vocabulary and storage kind.
C02 proved file_length_thm
C03 proved file_chunks_thm
C04 proved file_aligned_thm
C05 proved header_valid_thm header_no_panic_thm
C06 proved file_chunks_thm
C07 proved bucket_round_trip_thm fasttext_round_trip_thm simple_round_trip_thm bucket_boundaries_refuted
  bucket_boundaries_refuted is the last clause: with other boundaries a lookup changes.
C08 proved explicit_round_trip_thm
C09 proved floret_round_trip_thm floret_words_refuted
  floret_words_refuted is the last clause: words are lost.
C10 proved quantized_round_trip_thm ndarray_round_trip_thm
C11 proved metadata_agrees_thm metadata_alone_thm
C12 partial file_truncation_thm truncated_empty_refuted
  False as stated for an empty matrix: a file cut inside the padding after its header is accepted (truncated_empty_refuted). Proved for matrices and norms that are not empty.
C13 proved file_write_fails_thm
C14 proved mmap_equals_read_thm
C15 partial mmap_window_partial mmap_quantized_window_partial mmap_truncated_refuted mmap_overflow_refuted
  False as stated: the view of a truncated map panics and header sizes may overflow (the two refuted theorems). Proved for maps that contain the whole matrix.
C16 proved vocab_wrapper_thm storage_wrapper_thm vocab_wrapper_ops_thm storage_wrapper_ops_thm wrapped_file_thm
C17 proved simple_new_iff_thm subword_new_iff_thm words_bijection_thm
C18 partial unknown_word_thm unknown_word_simple_thm subword_indices_thm default_markers_thm read_markers_thm fasttext_markers_thm lookup_range_thm lookup_range_refuted
  False as stated for vocabularies with an n-gram range that starts at zero or is empty: the constructors accept it and lookups panic (lookup_range_refuted). Proved for usable ranges; lookup_range_thm says exactly which ranges panic.
C19 partial lookup_in_bounds_thm vocab_len_thm lookup_bounds_refuted
  False as stated for 2^64 buckets (lookup_bounds_refuted). Proved for every other vocabulary the constructors build.
C20 proved ngrams_exact_thm ngrams_iterator_thm ngrams_range_thm
C21 partial hash_bound_partial fasttext_bound_partial hash_bound_refuted fasttext_zero_refuted
  False as stated for 2^64 hash buckets and for zero fastText buckets (the two refuted theorems). Proved for all other bucket counts.
C22 proved fasttext_ascii_thm fasttext_signed_thm fasttext_index_thm
C23 proved floret_index_thm
C24 proved explicit_numbering_thm explicit_share_thm explicit_new_thm
C25 partial size_hint_upper_partial size_hint_lower_refuted size_hint_floret_refuted size_hint_overflow_refuted
  False as stated (the three refuted theorems). Proved: the upper bound holds for indexers with one index per n-gram.
C26 partial known_word_thm lookup_total_partial lookup_total_refuted
  False as stated for vocabularies with an unusable n-gram range (lookup_total_refuted). Proved: known words return their row for every vocabulary, and no lookup panics if the range is usable.
C27 proved unknown_sum_thm unknown_unit_thm unit_length_refuted
  Bit-exact for the sum and the division; unit length over exact real arithmetic as the quantifier says. unit_length_refuted shows that f32 rounding breaks unit length.
C28 proved into_agrees_thm into_wrong_thm
  For vocabularies with a usable n-gram range; with another range both functions panic.
C29 proved batch_into_thm batch_thm batch_order_thm batch_wrong_thm
    embedding_batch panics if its result cannot be allocated; batch_panics_thm (C74) says exactly when.
C30 proved with_norm_thm iter_thm iter_with_norms_thm unknown_unit_thm
C31 partial to_explicit_bucket_partial to_explicit_fasttext_partial to_explicit_boundaries_refuted to_explicit_metadata_refuted
  False as stated for vocabularies with other word boundaries: the explicit vocabulary always uses the default ones (to_explicit_boundaries_refuted). Proved: words, norms and vectors of known words always; strings all of whose n-grams occur for default boundaries; and exactly which rows make up the vector of any other string.
C32 partial try_to_explicit_partial try_to_explicit_same_thm try_to_explicit_refuted
  False as stated for vocabularies with an unusable n-gram range: the conversion panics (try_to_explicit_refuted). Proved for usable ranges.
C33 proved storage_matrix_thm storage_clones_thm storage_reconstruct_thm reconstruct_norms_thm matrix_stacks_thm nd_matrix_thm nd_clones_thm quantized_matrix_thm quantized_clones_thm quantized_code_refuted
  For quantized matrices whose codes are centroid numbers; a file may contain others, lookups of these rows panic (quantized_code_refuted).
C34 partial quantize_validation_thm quantize_shape_thm emb_quantize_thm normalized_rows_partial quantize_zero_row_refuted quantize_finite_refuted quantize_norm_refuted
  False as stated: zero rows become NaN and norms may overflow (the three refuted theorems). Proved: validation, preservation of vocabulary, metadata and shape (for trainers that satisfy trainer_fits), and over the reals that rows that are not zero are normalised.
C35 proved similarity_top_k_thm word_similarity_thm embedding_similarity_masked_thm embedding_similarity_thm top_k_unique_thm f32_ordered_thm f32_one_neutral_thm f32_number_thm R_ordered_thm R_one_neutral_thm
  For any arithmetic with ordered and one_neutral, which hold bit-exactly for f32 and for the reals. The similarity is the dot product in the order of ndarray's dot. Every query that returns; which ones return is C38.
C36 proved batch_size_thm batch_default_thm
C37 proved word_similarity_excludes_thm masked_excludes_thm
C38 partial similarity_returns_partial similarity_panics_thm limit_zero_refuted batch_zero_refuted empty_vocab_refuted limit_max_refuted nan_refuted
  False as stated: limit 0, batch size 0, an empty vocabulary without a batch size, limits that cannot be allocated and dot products that are NaN panic (the five refuted theorems). Proved: the exact condition for a query to return.
C39 proved analogy_masked_thm analogy_thm
C40 partial measures_partial measures_range_partial measures_order_partial unit_inner_thm measures_refuted
  Proved over the reals. False for f32: the dot product of a normalised vector with itself may exceed one, the distance is then NaN (measures_refuted).
C51 partial file_position_partial file_position_refuted
  False as stated (file_position_refuted). Proved for files with norms and for streams with nothing after the file.
C52 partial file_loaded_partial file_consistent_refuted
  False as stated: a file whose vocabulary and matrix disagree in size is loaded (file_consistent_refuted).
C53 partial file_panics_partial file_panics_refuted
  False as stated: some malformed files panic (file_panics_refuted). file_panics_partial lists every panic that can occur.
C41 partial text_round_trip_partial text_round_trip_refuted text_empty_refuted
  False as stated: read_text divides the vectors by their lengths (text_round_trip_refuted). Proved for read_text_raw, bit for bit; the result of read_text is characterised. Number printing and parsing is a parameter with the law that printed numbers parse to the same number.
C42 partial text_dims_round_trip_partial text_dims_outcomes_thm text_dims_round_trip_refuted text_empty_refuted text_ragged_refuted text_capacity_refuted
  False as stated: read_text_dims normalises, files without words panic, headers that promise too much panic, and lines of different lengths with the right total are accepted (the refuted theorems). Proved: round trip for the raw reader and the outcome for every file whose header can be allocated.
C43 partial text_accepted_partial text_dims_accepted_partial text_ragged_refuted
  False as stated for lines of different lengths (text_ragged_refuted). Proved: the rows are the lines if and only if all lines have as many components as the matrix has columns.
C44 partial word2vec_round_trip_partial word2vec_round_trip_refuted white_space_thm trim_thm
  False as stated: read_word2vec_binary divides the vectors by their lengths (word2vec_round_trip_refuted). Proved for the raw reader, bit for bit.
C47 partial floret_round_trip_partial floret_markers_refuted
  False as stated for boundary markers that contain the delimiters (floret_markers_refuted). Proved for all others, NaN-free matrices with at least one column and parameters below 2^32.
C48 partial floret_accepts_thm floret_params_rejected_thm floret_rows_rejected_thm floret_header_required_thm floret_accepted_partial floret_truncated_refuted floret_zero_ngram_refuted floret_capacity_refuted
  False as stated: parameters are truncated to 32 bits before they are checked, n-grams of length zero are accepted and lookups panic, and too many buckets panic (the refuted theorems).
C49 proved lossy_exact_thm lossy_string_total_thm string_valid_thm text_lossy_is_strict_thm text_lossy_agrees_thm text_dims_lossy_is_strict_thm text_dims_lossy_agrees_thm text_words_valid_thm word2vec_lossy_raw_agrees_thm word2vec_lossy_agrees_thm word2vec_words_valid_thm word2vec_lossy_items_thm ft_lossy_agrees_thm
  The lossy text readers do on any file what the strict ones do on the file with ill-formed sequences replaced.
C50 proved normalize_invertible_thm
  Over the reals; for f32 see C58 and C59.
C54 partial read_number_partial read_number_last_thm read_number_refuted
  False as stated if the delimiter is missing: the last byte of the stream is dropped instead (read_number_refuted).
C55 proved text_outcomes_thm text_normalized_thm
C56 proved text_dims_outcomes_thm text_dims_normalized_thm
C57 proved word2vec_reader_thm word2vec_accepted_thm white_space_thm trim_thm word2vec_header_refuted
  word2vec_header_refuted shows why the matrix must not be empty: "0 23" without a newline is accepted.
C58 proved text_raw_round_trip_thm text_dims_raw_round_trip_thm
C59 proved word2vec_raw_round_trip_thm
C60 proved floret_accepts_thm floret_params_rejected_thm floret_rows_rejected_thm floret_header_required_thm floret_accepted_thm
C45 partial ft_writes_thm ft_write_overflow_thm ft_round_trip_partial ft_round_trip_refuted ft_boundaries_refuted
  False as stated: vectors that are not normalised and boundary markers other than the default ones are not recovered (the refuted theorems). Proved: the bytes written, what they are read as, and over the reals (C62) that normalised vectors, norms and subword rows are recovered.
C46 partial ft_unsupported_thm ft_outcomes_thm ft_load_panics_thm ft_accepted_thm ft_order_thm ft_rows_refuted ft_no_subwords_refuted ft_columns_refuted
  False as stated: some matrices with too few rows, models without subwords, too many buckets and duplicate words panic instead of failing with an error, and the number of columns is not checked (the refuted theorems). The exact outcome is C61 and, for every byte string, C87.
C61 proved ft_unsupported_thm ft_outcomes_thm ft_load_panics_thm ft_accepted_thm
C62 proved ft_writes_thm ft_round_trip_thm ft_exact_rows_thm ft_exact_functions_thm
  The result over the reals is for the same polymorphic functions as are run on f32.
C63 proved file_grammar_thm vocab_grammar_thm storage_grammar_thm norms_grammar_thm norms_grammar_panic_thm file_unambiguous_thm written_grammar_thm
C64 proved mapped_grammar_thm mapped_file_grammar_thm mapped_row_thm
C65 proved file_panic_exact_thm vocab_panic_exact_thm storage_panic_exact_thm
  The panicking inputs are stated as inductive relations on bytes (Grammar); the panic value is part of the statement.
C66 proved decimal_read_thm word_read_thm number_read_thm
C67 proved decimal_round_trip_thm text_decimals_thm text_dims_decimals_thm floret_decimals_thm
C68 proved shortest_decimal_thm
  The model of printing and parsing is exact arithmetic that returns what the standard library documents; the byte-exact test files of the project are replayed in ConformanceData.
C69 proved file_followed_thm
C70 proved file_cut_thm
C71 proved loadable_thm
C72 proved file_rewrite_thm file_same_bytes_thm
C73 proved lookup_panics_thm
C74 proved embedding_panics_thm with_norm_panics_thm into_always_agrees_thm batch_into_panics_thm batch_panics_thm
C75 proved hash_counts_thm fasttext_counts_thm floret_counts_thm
C76 proved size_hint_exact_thm
C77 proved query_panics_thm masked_panics_thm word_similarity_panics_thm analogy_panics_thm
C78 proved host_rows_thm host_storage_thm host_lookups_thm host_write_thm host_view_thm host_view_no_panic_thm
C79 proved try_to_explicit_outcome_thm explicit_bucket_lookups_thm explicit_fasttext_lookups_thm
C80 proved rounding_exists_thm rounding_unique_thm rounding_error_thm rounding_monotone_thm add_rounds_thm sub_rounds_thm mul_rounds_thm div_rounds_thm sqrt_rounds_thm of_N_rounds_thm value_compare_thm is_zero_value_thm classes_thm nan_operand_thm inf_both_thm inf_finite_thm div_by_zero_thm sqrt_special_thm cmp_inf_thm
C81 proved normalize_error_thm unknown_length_thm read_length_thm
  For vectors of at most 2^22 finite numbers whose computed length is finite and at least 2^-40.
C82 proved measures_order_f32_thm measures_range_f32_thm measures_nan_f32_thm measures_error_f32_thm angular_f32_thm
  The angular similarity under the laws of acos (antitone, between zero and pi).
C83 proved read_number_outcome_thm
C84 proved text_exact_thm text_dims_exact_thm text_normalized_thm text_dims_normalized_thm
C85 proved word2vec_exact_thm word2vec_normalized_thm
C86 proved floret_exact_thm
C87 proved ft_every_outcome_thm
C88 proved ngrams_exact_thm ngrams_unique_thm ngrams_iterator_thm
C89 proved dot_error_thm unit_cosine_thm ranked_returns_thm similarity_ranked_thm word_ranked_thm masked_ranked_thm analogy_ranked_thm read_ranked_thm
  The product of the matrix and the query is modelled as the dot product of each row, with eight partial sums.
C90 proved converted_lookups_thm converted_queries_thm
C91 proved hash_published_thm hash_published_exists_thm hash_input_unique_thm hash_input_injective_thm fnv_unique_thm floret_published_thm floret_published_exists_thm murmur_unique_thm
C92 proved quantized_near_thm
  Training and encoding of the quantizer are parameters.
C93 proved vocab_equality_thm vocab_equal_same_thm vocab_equal_refl_thm
C94 proved infallible_exact_thm
C95 proved add_relative_thm sums_near_thm unit_direction_thm unknown_near_thm
C96 proved text_trip_thm text_dims_trip_thm word2vec_trip_thm read_back_thm
C97 proved ft_read_f32_thm ft_trip_f32_thm
C98 proved text_fault_thm word2vec_fault_thm floret_fault_thm fasttext_fault_thm
C99 proved file_fault_thm file_fault_refuted
  file_fault_refuted is the witness that an I/O error while the norms are read is not reported.
C100 proved text_convert_thm word2vec_convert_thm floret_convert_thm fasttext_convert_thm
C101 proved file_numbers_thm set_metadata_thm into_parts_thm view_clone_thm
C102 proved file_fills_up_thm text_fills_up_thm text_dims_fills_up_thm word2vec_fills_up_thm floret_fills_up_thm fasttext_fills_up_thm fasttext_write_error_refuted
C103 proved explicit_storable_thm quantized_storable_thm
C104 proved explicit_order_thm explicit_order_refuted
C105 proved formats_agree_thm floret_rewrite_thm normalized_rewrite_refuted
  normalized_rewrite_refuted is the witness that the raw readers are needed.
C106 proved file_writes_thm file_survives_thm file_long_word_thm text_survives_thm text_dims_survives_thm binary_survives_thm floret_survives_thm fasttext_survives_thm
C107 proved iter_calls_thm iter_norms_calls_thm iter_loop_thm iter_made_thm iter_norms_made_thm
C108 proved obtained_sound_thm obtained_works_thm
C109 proved extended_lookup_thm reordered_lookups_thm reordered_batches_thm reordered_queries_thm reordered_exists_thm
C110 proved vocab_programs_thm storage_programs_thm embeddings_programs_thm mapped_programs_thm metadata_programs_thm text_programs_thm fasttext_programs_thm device_result_thm devices_agree_thm buf_contract_thm buf_responsive_thm cur_contract_thm bufreader_result_thm cursor_result_thm
C111 proved chunk_wprograms_thm file_wprogram_thm text_wprograms_thm floret_wprogram_thm fasttext_wprogram_thm device_written_thm bufwriter_written_thm plain_unnoticed_thm buffered_ok_refuted
  buffered_ok_refuted is the witness that Ok without a flush does not mean that the file is complete.
C112 proved heap_empty_thm heap_push_thm heap_peek_thm heap_assign_thm heap_sort_thm wsr_total_order_thm std_similarity_thm
C113 proved width_64_thm width_64_mmap_thm strict_read_thm strict_mmap_thm casts_read_thm casts_mmap_thm fits_read_thm fits_mmap_thm short_map_thm truncated_refuted damaged_norms_refuted unmapped_refuted
  The refuted theorems are witnesses of the differences that the statement names.
C114 proved modelled_queries_thm similarity_by_exact_thm similarity_by_ok_iff_thm batch_by_irrelevant_thm word_by_exact_thm masked_by_exact_thm analogy_by_exact_thm short_layouts_thm sums_dot_thm sums_cosine_thm nd_dot_depth_thm nd_gemv_depth_thm unit_of_by_thm scaled_unit_by_thm ranked_returns_by_thm similarity_ranked_by_thm word_ranked_by_thm masked_ranked_by_thm analogy_ranked_by_thm layout_irrelevant_refuted
  layout_irrelevant_refuted is the witness that the layout can change the order of results.
C115 proved less_read_thm less_mmap_thm less_text_dims_thm less_word2vec_thm less_floret_thm less_fasttext_thm all_text_dims_thm all_word2vec_thm all_floret_thm all_fasttext_thm enough_read_thm enough_mmap_thm enough_text_dims_thm enough_word2vec_thm enough_floret_thm enough_fasttext_thm greedy_read_thm greedy_text_dims_thm greedy_word2vec_thm greedy_floret_thm greedy_fasttext_thm greedy_norms_refuted
  For finalfusion files, that the reader at isize::MAX is the model's is width_64_thm and width_64_mmap_thm of C113. greedy_norms_refuted is the witness for damaged norms.
C116 proved meta_read_thm meta_inj_thm meta_vocab_thm meta_rewritten_thm meta_lost_refuted meta_dims_refuted
  meta_lost_refuted and meta_dims_refuted are the witnesses for what is lost and not compared. The sampling threshold is a bit pattern; whether a table with a threshold that is NaN survives the toml text is not claimed.
C117 proved width_built_thm width_lookup_thm width_vocab_len_thm width_embedding_thm width_embedding_into_thm width_with_norm_thm width_batch_thm width_batch_into_thm width_queries_thm width_queries_large_thm width_to_explicit_thm width_64_text_thm width_64_text_dims_thm width_64_word2vec_thm width_64_floret_thm width_64_fasttext_thm narrow_text_thm narrow_text_dims_thm narrow_word2vec_thm narrow_floret_thm narrow_fasttext_thm fits_text_thm fits_text_dims_thm fits_word2vec_raw_thm fits_word2vec_thm fits_floret_thm fits_fasttext_thm narrow_seed_refuted narrow_empty_refuted narrow_exponent_refuted
  narrow_seed_refuted, narrow_empty_refuted and narrow_exponent_refuted are the witnesses that the conditions on header numbers, shape and bucket exponent are needed.
C118 proved strict_readers_thm strict_formats_thm shaky_result_thm shaky_file_thm shaky_written_thm
  shaky_file_thm also shows that a failing call while the norms are read is ignored (the finding of C99).
C119 partial chunk_calls_thm chunk_thrift_thm file_calls_thm format_calls_thm word2vec_calls_partial word2vec_calls_refuted
  False as stated: word2vec files whose vectors have no components take two calls for each word that the header promises (word2vec_calls_refuted). Proved for all other readers, and for word2vec files with components.
C120 proved length_write_thm length_len_thm memory_write_thm read_write_thm portable_thm portable_mmap_thm too_wide_refuted
  too_wide_refuted is the witness that the condition on the size is needed: with more data than addresses the stated chunk length wraps.
C121 proved hinted_sound_thm hinted_same_thm hinted_lookup_thm hinted_64_thm hinted_i686_thm hinted_overflow_thm made_dense_thm hinted_ngrams_overflow_thm hinted_ngrams_thm ngram_items_count_thm subword_indices_count_thm hinted_embedding_thm hinted_batch_thm hinted_queries_thm hinted_fasttext_sound_thm hinted_fasttext_thm hinted_fasttext_64_thm hint_overflow_refuted hint_memory_refuted hint_wrap_refuted hint_fasttext_refuted
C122 proved cut_read_thm cut_mmap_thm cut_texts_thm cut_marker_thm message_erasure_thm message_erasure_view_thm message_erasure_mmap_view_thm
C123 partial chunk_type_apart_thm data_type_apart_thm version_apart_thm wrong_version_thm wrong_magic_thm magic_apart_partial magic_apart_refuted vocab_lists_thm storage_lists_thm view_lists_thm mmap_storage_text_partial mmap_storage_lists_refuted bad_word_thm bad_ngram_thm metadata_text_thm no_chunks_text_thm floret_hashes_text_thm quantizer_lengths_thm quantizer_lengths_refuted
  False as stated in three points: magics that are not UTF-8 are shown lossily (magic_apart_refuted); memory mapping accepts quantized matrices but does not list them (mmap_storage_lists_refuted); the lengths of a quantizer are swapped in the text (quantizer_lengths_refuted). The rest is proved, and what the text is in the three cases.
C124 partial compat_erasure_thm bad_number_thm bad_number_apart_thm bad_number_end_partial bad_number_shown_refuted text_bad_line_thm text_dims_bad_line_thm floret_bad_line_thm text_dims_sizes_partial text_dims_shown_refuted floret_params_text_partial floret_hashes_shown_refuted floret_count_text_thm word2vec_cut_partial cut_word_thm header_device_thm floret_header_device_thm text_device_thm floret_device_thm
  False as stated in four points: a number at the end of the data is shown without its last byte (bad_number_shown_refuted); the number of components shown for a file with dimensions is an average, which no line need have (text_dims_shown_refuted), and none is shown if the average is right; floret parameters are shown modulo 2^32 (floret_hashes_shown_refuted); a cut word in a word2vec file is reported as a cut vector, or as not UTF-8 although it is (word2vec_cut_partial, cut_word_thm). The rest is proved, and what the text is in these cases; word2vec_cut_partial has the text for every place of the cut.
C125 partial compat_erasure_thm fasttext_cut_partial cut_word_thm fasttext_word_cut_thm fasttext_word_cut_refuted fasttext_wrong_start_thm fasttext_wrong_config_thm fasttext_wrong_vocab_thm fasttext_wrong_rows_thm fasttext_no_metadata_thm fasttext_version_refuted
  False as stated in two points: a word that was cut is reported as a missing frequency, or as not UTF-8 although it is (fasttext_word_cut_thm says when, fasttext_word_cut_refuted has an example); older versions are accepted although the text says that 12 is expected (fasttext_version_refuted). fasttext_cut_partial has the text for every place of the cut.
C126 partial write_erasure_thm full_device_partial full_device_kind_thm ngram_texts_thm ngram_text_refuted centroids_text_thm centroids_text_refuted
  False as stated in two points: the number of n-grams is called "ngram length", like the length of each n-gram (ngram_text_refuted), and the number of centroids is called the number of subquantizers (centroids_text_refuted). full_device_partial has the text for every place where the room ends.
C127 partial write_text_erasure_thm write_text_dims_erasure_thm write_word2vec_erasure_thm write_floret_erasure_thm write_fasttext_erasure_thm text_full_thm text_dims_full_thm word2vec_full_thm floret_full_thm fasttext_full_partial fasttext_model_text_thm fasttext_entry_type_thm
  False as stated in two points, both in fastText models: the type of the model is called the loss function (fasttext_model_text_thm), and the type of an entry is reported as an error of reading (fasttext_entry_type_thm). fasttext_full_partial has the text for every place where the room ends.
C128 proved layout_thm same_field_thm
C129 partial fasttext_truncated_thm word2vec_truncated_partial word2vec_no_words_refuted text_dims_truncated_partial text_dims_truncated_refuted floret_truncated_partial floret_truncated_refuted text_truncated_partial text_truncated_refuted
  False as stated: the last newline of word2vec files is not needed, and without words the dimensions may be cut (word2vec_no_words_refuted); a cut in the last number of a text file with dimensions or a floret file is not noticed (text_dims_truncated_refuted, floret_truncated_refuted); text files may lack lines, and an empty one makes the reader panic (text_truncated_refuted). Every other cut of a fastText model, a word2vec file with words or a text file with dimensions is shown to be an error, and every other cut of a floret file not to be accepted; what is read in the exceptions is given.
C130 proved text_appended_thm text_concatenated_thm text_dims_appended_thm word2vec_appended_thm word2vec_position_thm floret_appended_thm fasttext_appended_thm fasttext_position_thm
C131 proved texts_anywhere_thm word2vec_anywhere_thm floret_anywhere_thm fasttext_anywhere_thm fasttext_files_thm
C132 proved vocabs_anywhere_thm storages_aligned_thm files_aligned_thm wrapped_aligned_thm moved_file_refuted
  moved_file_refuted is the last sentence of the statement.
C133 proved chunks_steady_thm embeddings_steady_thm file_bytes_aligned_thm predicted_steady_thm predicted_aligned_thm other_steady_thm
