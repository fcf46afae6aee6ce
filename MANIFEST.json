{
 "claims": [
  {
   "property": "C01",
   "status": "proved",
   "theorems": [
    "C01_accepted_nbits",
    "C01_bad_dimension_panics",
    "C01_bucket_is_searchsorted",
    "C01_nan_bucket",
    "C01_quantize_decompress_roundtrip"
   ],
   "note": ""
  },
  {
   "property": "C02",
   "status": "proved",
   "theorems": [
    "C02_pack_unpack",
    "C02_unpack_pack"
   ],
   "note": ""
  },
  {
   "property": "C03",
   "status": "proved",
   "theorems": [
    "C03_argmax_unique",
    "C03_batch_independent",
    "C03_nearest_centroid"
   ],
   "note": ""
  },
  {
   "property": "C04",
   "status": "proved",
   "theorems": [
    "C04_create_stores_documents_any_chunking"
   ],
   "note": ""
  },
  {
   "property": "C05",
   "status": "proved",
   "theorems": [
    "C05_empty_update_loses_documents_refuted",
    "C05_update_appends",
    "C05_update_keeps_old_documents"
   ],
   "note": "Update with an empty batch is outside the statement: C05_empty_update_loses_documents_refuted shows it drops the last chunk."
  },
  {
   "property": "C06",
   "status": "proved",
   "theorems": [
    "C06_delete_filters_and_renumbers",
    "C06_negative_id_corrupts_postings_refuted"
   ],
   "note": "Negative ids are outside the statement: C06_negative_id_corrupts_postings_refuted shows they shift the posting lists."
  },
  {
   "property": "C07",
   "status": "proved",
   "theorems": [
    "C07_inverted_file_exact"
   ],
   "note": ""
  },
  {
   "property": "C08",
   "status": "proved",
   "theorems": [
    "C08_history_is_a_list",
    "C08_stale_handle_wrong_ids_refuted"
   ],
   "note": "Without the reload discipline the ids are wrong: C08_stale_handle_wrong_ids_refuted."
  },
  {
   "property": "C09",
   "status": "proved",
   "theorems": [
    "C09_document_slices"
   ],
   "note": ""
  },
  {
   "property": "C10",
   "status": "proved",
   "theorems": [
    "C10_candidates_sorted_union"
   ],
   "note": ""
  },
  {
   "property": "C11",
   "status": "proved",
   "theorems": [
    "C11_bookkeeping"
   ],
   "note": ""
  },
  {
   "property": "C12",
   "status": "proved",
   "theorems": [
    "C12_append_while_buffered_loses_document_refuted",
    "C12_buffer_flush_preserves_identity"
   ],
   "note": "The append-while-buffered case outside the discipline loses a document: C12_append_while_buffered_loses_document_refuted."
  },
  {
   "property": "C13",
   "status": "proved",
   "theorems": [
    "C13_expansion_only_appends"
   ],
   "note": ""
  },
  {
   "property": "C14",
   "status": "proved",
   "theorems": [
    "C14_many_at_once",
    "C14_reconstruct_all_or_nothing"
   ],
   "note": ""
  },
  {
   "property": "C15",
   "status": "proved",
   "theorems": [
    "C15_codes",
    "C15_codes_read",
    "C15_index_model",
    "C15_interrupted_merge_refuted",
    "C15_metadata_time_refuted",
    "C15_residuals",
    "C15_residuals_read"
   ],
   "note": "Outside the statement: C15_metadata_time_refuted (a chunk file replaced while metadata.json keeps its time to 1 ms is not noticed) and C15_interrupted_merge_refuted (an interrupted merge followed by older times keeps the wrong file)."
  },
  {
   "property": "C16",
   "status": "partial",
   "theorems": [
    "C16_delete_all_refuted",
    "C16_openable_iff_tokens_left",
    "C16_openable_partial"
   ],
   "note": "The full statement is false: C16_delete_all_refuted (deleting every document leaves a directory that cannot be opened). C16_openable_iff_tokens_left says exactly when it holds: if and only if at least one token is left."
  },
  {
   "property": "C17",
   "status": "proved",
   "theorems": [
    "C17_search_returns",
    "C17_search_well_formed",
    "C17_zero_probe_refuted"
   ],
   "note": ""
  },
  {
   "property": "C18",
   "status": "proved",
   "theorems": [
    "C18_exact_scores"
   ],
   "note": ""
  },
  {
   "property": "C19",
   "status": "proved",
   "theorems": [
    "C19_exhaustive_is_exact",
    "C19_small_rescoring_limit_refuted"
   ],
   "note": ""
  },
  {
   "property": "C20",
   "status": "proved",
   "theorems": [
    "C20_batched_probe",
    "C20_probes_agree",
    "C20_standard_probe",
    "C20_threshold_disagreement_refuted",
    "C20_threshold_keeps"
   ],
   "note": ""
  },
  {
   "property": "C21",
   "status": "proved",
   "theorems": [
    "C21_batch_returns",
    "C21_modes_agree",
    "C21_one_result_per_query"
   ],
   "note": ""
  },
  {
   "property": "C22",
   "status": "proved",
   "theorems": [
    "C22_bitwise_refuted",
    "C22_simd_max",
    "C22_simd_max_empty"
   ],
   "note": ""
  },
  {
   "property": "C23",
   "status": "proved",
   "theorems": [
    "C23_delete_resequences",
    "C23_store_is_a_list"
   ],
   "note": ""
  },
  {
   "property": "C24",
   "status": "proved",
   "theorems": [
    "C24_error_leaves_documents_refuted",
    "C24_index_and_metadata_aligned"
   ],
   "note": "When a call reports an error (metadata length mismatch) the documents have already been added: C24_error_leaves_documents_refuted."
  },
  {
   "property": "C25",
   "status": "proved",
   "theorems": [
    "C25_condition_and_ids_rejected",
    "C25_endpoint_by_condition",
    "C25_endpoint_by_ids",
    "C25_endpoint_rejects_both",
    "C25_get_all_in_id_order",
    "C25_get_by_condition_in_id_order",
    "C25_get_by_ids_in_request_order"
   ],
   "note": ""
  },
  {
   "property": "C26",
   "status": "proved",
   "theorems": [
    "C26_accepted_conditions_are_grammatical",
    "C26_identifiers_are_columns_refuted",
    "C26_validator_never_panics"
   ],
   "note": ""
  },
  {
   "property": "C27",
   "status": "proved",
   "theorems": [
    "C27_documented_conditions_are_accepted",
    "C27_keyword_named_column_refuted",
    "C27_numeric_equalities_are_accepted",
    "C27_parser_decides_the_grammar",
    "C27_tokenizer_reads_the_words"
   ],
   "note": ""
  },
  {
   "property": "C28",
   "status": "proved",
   "theorems": [
    "C28_failed_update_where_changes_nothing",
    "C28_unknown_keys_refused",
    "C28_update_where_changes_selected_rows"
   ],
   "note": ""
  },
  {
   "property": "C29",
   "status": "partial",
   "theorems": [
    "C29_null_value_fails_query_refuted",
    "C29_regexp_partial",
    "C29_second_pattern_ignored_refuted"
   ],
   "note": "The full statement is false: C29_second_pattern_ignored_refuted (only one pattern is registered) and C29_null_value_fails_query_refuted. Proved for one REGEXP placeholder over non-null columns."
  },
  {
   "property": "C30",
   "status": "proved",
   "theorems": [
    "C30_identifier_query_is_or_of_tokens",
    "C30_nul_is_syntax_error_refuted",
    "C30_sanitized_query_is_phrases"
   ],
   "note": "Strings containing NUL are outside the statement: C30_nul_is_syntax_error_refuted."
  },
  {
   "property": "C31",
   "status": "proved",
   "theorems": [
    "C31_rrf_alpha_one",
    "C31_rrf_alpha_zero",
    "C31_rrf_best_first",
    "C31_rrf_selects"
   ],
   "note": ""
  },
  {
   "property": "C32",
   "status": "proved",
   "theorems": [
    "C32_relative_fusion"
   ],
   "note": ""
  },
  {
   "property": "C33",
   "status": "proved",
   "theorems": [
    "C33_duplicate_id_returned_twice_refuted",
    "C33_filtered_agrees_with_single_query",
    "C33_filtered_is_global_top"
   ],
   "note": "Duplicate ids are outside the statement: C33_duplicate_id_returned_twice_refuted."
  },
  {
   "property": "C34",
   "status": "proved",
   "theorems": [
    "C34_changed_rows_follow",
    "C34_deleted_row_still_found_refuted",
    "C34_every_item_found",
    "C34_hits_are_documents",
    "C34_rebuild_loses_subwords_refuted",
    "C34_rows_follow_documents",
    "C34_text_contains_strings",
    "C34_tokenizer_change_drops_rows_refuted",
    "C34_unindexed_items_refuted"
   ],
   "note": "Outside the stated conditions: C34_deleted_row_still_found_refuted, C34_rebuild_loses_subwords_refuted (identifier-aware tokenizer), C34_unindexed_items_refuted (update_with_metadata), C34_tokenizer_change_drops_rows_refuted."
  },
  {
   "property": "C35",
   "status": "proved",
   "theorems": [
    "C35_error_keeps_old",
    "C35_error_leaves_no_file",
    "C35_failed_rename_leaves_file_refuted",
    "C35_other_files",
    "C35_power_fails",
    "C35_process_stops",
    "C35_success",
    "C35_unreported_dirsync_refuted"
   ],
   "note": "Findings: C35_failed_rename_leaves_file_refuted (a failed rename leaves the temporary file behind), C35_unreported_dirsync_refuted (a failed fsync of the directory is not reported, and the old content can come back)."
  },
  {
   "property": "C36",
   "status": "proved",
   "theorems": [
    "C36_bad_header_panics_refuted",
    "C36_fortran_order_ignored_refuted",
    "C36_npy_i64_round_trip",
    "C36_npy_i64_truncated_rejected",
    "C36_npy_round_trip",
    "C36_npy_rows",
    "C36_npy_truncated_rejected",
    "C36_raw_array_round_trip",
    "C36_raw_i64_round_trip",
    "C36_raw_i64_truncated_rejected",
    "C36_raw_row",
    "C36_raw_truncated_rejected",
    "C36_wrapped_size_accepted_refuted"
   ],
   "note": "Arrays below isize::MAX - 2^20 bytes. Findings on foreign files: C36_wrapped_size_accepted_refuted, C36_bad_header_panics_refuted, C36_fortran_order_ignored_refuted."
  },
  {
   "property": "C37",
   "status": "partial",
   "theorems": [
    "C37_create",
    "C37_interrupted_append_refuted",
    "C37_interrupted_delete_refuted",
    "C37_interrupted_flush_refuted",
    "C37_interrupted_rebuild_refuted",
    "C37_interrupted_recreate_refuted",
    "C37_update_partial"
   ],
   "note": "Proved: creating is all-or-nothing at every crash point; updates that add in place (append, buffered update, flush with an empty buffer) always re-open, keep every stored document unchanged at every crash point and, when new documents go to new chunk files, show exactly the old or the new list. Missing because false (C37_interrupted_*_refuted): stopping while the last chunk is extended leaves extra lengths and makes the next append return wrong ids; stopping inside a flush loses buffered documents; inside a rebuild or re-creation documents read differently; inside a deletion the index does not open."
  },
  {
   "property": "C38",
   "status": "proved",
   "theorems": [
    "C38_batches_are_whole_requests_in_order",
    "C38_batches_paired",
    "C38_delete_conditions_in_order",
    "C38_pairs_kept",
    "C38_queue_drained"
   ],
   "note": ""
  },
  {
   "property": "C39",
   "status": "partial",
   "theorems": [
    "C39_absolute_names_partial",
    "C39_add_and_update_refuted",
    "C39_background_writers_partial",
    "C39_direct_writers_partial",
    "C39_drop_and_add_refuted",
    "C39_two_names_refuted"
   ],
   "note": "The full statement is false: C39_add_and_update_refuted (name lock against path lock), C39_drop_and_add_refuted (the directory is removed after the lock is given up), C39_two_names_refuted. Proved: exclusion within the background writers and within create/add/config of one name, for every schedule."
  },
  {
   "property": "C40",
   "status": "proved",
   "theorems": [
    "C40_contents_after_any_history",
    "C40_most_recent_kept"
   ],
   "note": "C40_contents_after_any_history covers every sequence of queued updates, direct additions and queued deletions; eviction is one case of api_call."
  },
  {
   "property": "C41",
   "status": "proved",
   "theorems": [
    "C41_late_database_loses_documents_refuted",
    "C41_refused_batch_rolled_back",
    "C41_refused_first_batch_refuted",
    "C41_repair_keeps_common_prefix"
   ],
   "note": "Outside the statement: C41_refused_first_batch_refuted (rolling back the first batch leaves an index no request can use any more) and C41_late_database_loses_documents_refuted (rows not numbered from 0)."
  },
  {
   "property": "C42",
   "status": "proved",
   "theorems": [
    "C42_finished_does_not_change",
    "C42_finished_shown_iff_recent",
    "C42_finished_shows_outcome",
    "C42_finished_update_shown_queued_refuted",
    "C42_queued_count_includes_finished_refuted",
    "C42_queued_visible",
    "C42_running_visible",
    "C42_shown_once",
    "C42_waiting_update_shown_complete_refuted"
   ],
   "note": "Statement is about what is recorded. C42_finished_update_shown_queued_refuted: the handler records after it sent the item, so a finished update can stay 'queued' for ever; C42_waiting_update_shown_complete_refuted; C42_queued_count_includes_finished_refuted."
  },
  {
   "property": "C43",
   "status": "proved",
   "theorems": [
    "C43_dates_correct",
    "C43_timestamps_correct"
   ],
   "note": "Instants before 1970 print as 1970-01-01 and years above 9999 get five digits; both are outside the statement."
  },
  {
   "property": "C44",
   "status": "proved",
   "theorems": [
    "C44_decode_exact",
    "C44_decode_never_panics",
    "C44_documents_exact",
    "C44_empty_document_accepted_refuted",
    "C44_json_infinity_accepted_refuted",
    "C44_rerank_exact",
    "C44_round_trip"
   ],
   "note": ""
  },
  {
   "property": "C45",
   "status": "proved",
   "theorems": [
    "C45_rerank_fails_iff",
    "C45_rerank_sorted_permutation"
   ],
   "note": ""
  },
  {
   "property": "C46",
   "status": "proved",
   "theorems": [
    "C46_answer_is_own_slice",
    "C46_own_embeddings",
    "C46_pool_answers",
    "C46_pool_can_answer_all"
   ],
   "note": "The model is a parameter that embeds text by text (C46_answer_is_own_slice needs no such assumption)."
  },
  {
   "property": "C47",
   "status": "proved",
   "theorems": [
    "C47_check_exact",
    "C47_check_partition"
   ],
   "note": ""
  },
  {
   "property": "C48",
   "status": "proved",
   "theorems": [
    "C48_concurrent_delete_mispairs_refuted",
    "C48_fetch_exact",
    "C48_search_metadata"
   ],
   "note": ""
  },
  {
   "property": "C49",
   "status": "partial",
   "theorems": [
    "C49_absolute_refuted",
    "C49_descending_names_inside_partial",
    "C49_dot_refuted",
    "C49_parent_refuted",
    "C49_plain_names_are_children_partial",
    "C49_plain_names_separate_partial"
   ],
   "note": "The full statement is false: C49_parent_refuted, C49_absolute_refuted, C49_dot_refuted (only empty names are rejected). Proved for names without '..' pieces and leading slash. Symbolic links are not modelled."
  },
  {
   "property": "C50",
   "status": "proved",
   "theorems": [
    "C50_digit_subword_no_token_refuted",
    "C50_mixed_identifier_not_found_refuted",
    "C50_subword_query_matches",
    "C50_subwords_exist",
    "C50_tokens_are_lower_case_words",
    "C50_tokens_exact",
    "C50_whole_query_matches"
   ],
   "note": "Mixed-style identifiers and digit-led sub-words are outside the statement: C50_mixed_identifier_not_found_refuted, C50_digit_subword_no_token_refuted."
  },
  {
   "property": "C51",
   "status": "proved",
   "theorems": [
    "C51_buffer_roundtrip",
    "C51_embeddings_roundtrip",
    "C51_saving_never_fails",
    "C51_without_lengths"
   ],
   "note": ""
  },
  {
   "property": "C52",
   "status": "proved",
   "theorems": [
    "C52_mask",
    "C52_negative_length_refuted",
    "C52_padding"
   ],
   "note": "Negative lengths (never produced by pad_sequences) unmask everything: C52_negative_length_refuted."
  },
  {
   "property": "C53",
   "status": "proved",
   "theorems": [
    "C53_base64_length",
    "C53_base64_round_trip"
   ],
   "note": ""
  },
  {
   "property": "C54",
   "status": "proved",
   "theorems": [
    "C54_between",
    "C54_between_refuted",
    "C54_interpolates",
    "C54_monotone",
    "C54_no_panic",
    "C54_order_statistics",
    "C54_pointwise",
    "C54_rounded_near"
   ],
   "note": "Finite values only (rationals with a rounding function); C54_between_refuted: in f32 the 0.1-quantile of [3,3] is below 3."
  },
  {
   "property": "C55",
   "status": "proved",
   "theorems": [
    "C55_assign_to_centroids",
    "C55_one_each",
    "C55_tie_break_refuted"
   ],
   "note": ""
  },
  {
   "property": "C56",
   "status": "proved",
   "theorems": [
    "C56_search_stages"
   ],
   "note": ""
  },
  {
   "property": "C57",
   "status": "proved",
   "theorems": [
    "C57_case_variant_keys_break_store_refuted",
    "C57_create_reads_back",
    "C57_failed_update_changes_nothing",
    "C57_first_null_makes_text_refuted",
    "C57_refused_create_loses_metadata_refuted",
    "C57_update_reads_back"
   ],
   "note": "Outside the statement: C57_refused_create_loses_metadata_refuted, C57_case_variant_keys_break_store_refuted, C57_first_null_makes_text_refuted."
  },
  {
   "property": "C58",
   "status": "proved",
   "theorems": [
    "C58_ambiguous_column_refuted",
    "C58_stale_pattern_refuted",
    "C58_where_condition_answers",
    "C58_where_condition_exact"
   ],
   "note": "REGEXP conditions are C29; C58_stale_pattern_refuted shows a pattern survives on a pooled connection, C58_ambiguous_column_refuted the case-variant columns."
  },
  {
   "property": "C59",
   "status": "proved",
   "theorems": [
    "C59_distinct_strings_answers",
    "C59_distinct_strings_exact"
   ],
   "note": ""
  },
  {
   "property": "C60",
   "status": "proved",
   "theorems": [
    "C60_bytes",
    "C60_converted_1d",
    "C60_converted_2d",
    "C60_converted_floats_misaligned_refuted",
    "C60_f16_to_f32",
    "C60_f16_to_f32_vector",
    "C60_i32_elements",
    "C60_i64_to_i32",
    "C60_large_lengths_cut_refuted"
   ],
   "note": "Per file; the directory walk and crash points (files are rewritten in place) are not modelled. Findings: C60_large_lengths_cut_refuted, C60_converted_floats_misaligned_refuted (header length is 1 mod 64)."
  },
  {
   "property": "C61",
   "status": "proved",
   "theorems": [
    "C61_index_searcher",
    "C61_keyword_failure_reported_as_empty_refuted",
    "C61_search_answers",
    "C61_subset_with_filter_refuted"
   ],
   "note": ""
  },
  {
   "property": "C62",
   "status": "proved",
   "theorems": [
    "C62_index_follows_the_files",
    "C62_lost_state_refuted",
    "C62_lost_units_refuted",
    "C62_mended_file_refuted",
    "C62_no_units_refuted",
    "C62_same_time_and_size_refuted",
    "C62_state_rebuilt_from_rows"
   ],
   "note": "The conditions in the statement cannot be dropped: C62_lost_units_refuted, C62_mended_file_refuted, C62_no_units_refuted, C62_same_time_and_size_refuted, C62_lost_state_refuted."
  },
  {
   "property": "C63",
   "status": "proved",
   "theorems": [
    "C63_forced_run_is_exact",
    "C63_killed_swap_refuted"
   ],
   "note": "C63_killed_swap_refuted: a forced run killed between its renames is not recovered by unforced runs."
  },
  {
   "property": "C64",
   "status": "proved",
   "theorems": [
    "C64_killed_addition_refuted",
    "C64_killed_deletion_refuted",
    "C64_killed_update_recovers",
    "C64_repair_keeps_common_part",
    "C64_reverted_file_refuted",
    "C64_surplus_rows_removed"
   ],
   "note": "Outside the statement: C64_killed_addition_refuted, C64_killed_deletion_refuted, C64_reverted_file_refuted."
  },
  {
   "property": "C65",
   "status": "proved",
   "theorems": [
    "C65_edit_before_resuming_refuted",
    "C65_killed_build_recovers",
    "C65_killed_first_batch_refuted"
   ],
   "note": "Outside the statement: C65_killed_first_batch_refuted, C65_edit_before_resuming_refuted."
  },
  {
   "property": "C66",
   "status": "proved",
   "theorems": [
    "C66_different_files_refuted",
    "C66_seeded_worktree"
   ],
   "note": "Outside the statement: C66_different_files_refuted."
  },
  {
   "property": "C67",
   "status": "proved",
   "theorems": [
    "C67_not_a_number_refuted",
    "C67_other_trees",
    "C67_ward_tree",
    "C67_wrong_length"
   ],
   "note": "Ward for any arithmetic; other methods under order laws met by exact arithmetic. Outside the statement: C67_not_a_number_refuted."
  },
  {
   "property": "C68",
   "status": "partial",
   "theorems": [
    "C68_infinite_component_refuted",
    "C68_pooling_ends_partial",
    "C68_pooling_ends_refuted",
    "C68_ward_ends_partial"
   ],
   "note": "Proved for exact arithmetic (order and reducibility laws). Refuted for binary64: C68_pooling_ends_refuted exhibits finite embeddings whose pooling never ends; C68_infinite_component_refuted a panic."
  },
  {
   "property": "C69",
   "status": "proved",
   "theorems": [
    "C69_closest_first_refuted",
    "C69_extremes",
    "C69_number_of_clusters"
   ],
   "note": "The merges kept are the first rows of the matrix, which for Ward are not the closest ones: C69_closest_first_refuted."
  },
  {
   "property": "C70",
   "status": "proved",
   "theorems": [
    "C70_average_mean",
    "C70_complete_closest",
    "C70_connected_components",
    "C70_cut_at_distance",
    "C70_single_closest",
    "C70_ward_cut_refuted",
    "C70_ward_means",
    "C70_ward_reciprocal",
    "C70_weighted_halves"
   ],
   "note": "Does not hold of Ward's matrix: C70_ward_cut_refuted."
  },
  {
   "property": "C71",
   "status": "proved",
   "theorems": [
    "C71_condensed_entry",
    "C71_condensed_length",
    "C71_cosine_distances"
   ],
   "note": ""
  },
  {
   "property": "C72",
   "status": "proved",
   "theorems": [
    "C72_documents",
    "C72_equal_tokens_refuted",
    "C72_pooled_count",
    "C72_pooled_groups"
   ],
   "note": "The groups need not hold the closest tokens: C72_equal_tokens_refuted."
  },
  {
   "property": "C73",
   "status": "proved",
   "theorems": [
    "C73_answers",
    "C73_batches",
    "C73_documents",
    "C73_same_everywhere"
   ],
   "note": "Under a tokenizer and a network as in OnnxSpec (steady, ignores_padding); document length at least 3."
  },
  {
   "property": "C74",
   "status": "proved",
   "theorems": [
    "C74_answers",
    "C74_document_rows",
    "C74_queries",
    "C74_query_rows"
   ],
   "note": ""
  },
  {
   "property": "C75",
   "status": "proved",
   "theorems": [
    "C75_batch_size_zero_refuted",
    "C75_no_panic",
    "C75_no_tokens_refuted",
    "C75_short_length_refuted"
   ],
   "note": "Lengths below 3, batch size 0 and encodings without tokens panic: C75_*_refuted."
  },
  {
   "property": "C76",
   "status": "proved",
   "theorems": [
    "C76_lengths",
    "C76_loop_ends",
    "C76_sizes"
   ],
   "note": ""
  },
  {
   "property": "C77",
   "status": "proved",
   "theorems": [
    "C77_ends",
    "C77_every_chunk",
    "C77_panic_loses_refuted",
    "C77_stream"
   ],
   "note": "A panicking worker loses its chunk: C77_panic_loses_refuted; C75 says when workers do not panic."
  },
  {
   "property": "C78",
   "status": "proved",
   "theorems": [
    "C78_any_order",
    "C78_rearranged",
    "C78_some"
   ],
   "note": ""
  },
  {
   "property": "C79",
   "status": "proved",
   "theorems": [
    "C79_braces_refuted",
    "C79_double_star_refuted",
    "C79_ending",
    "C79_excludes",
    "C79_leading_slash_refuted",
    "C79_name",
    "C79_nothing"
   ],
   "note": "Does not hold of patterns beginning with a slash or with two stars and a slash, and braces are not expanded: C79_double_star_refuted, C79_leading_slash_refuted, C79_braces_refuted."
  },
  {
   "property": "C80",
   "status": "proved",
   "theorems": [
    "C80_excludes",
    "C80_name",
    "C80_names",
    "C80_slash_refuted"
   ],
   "note": "A name written with a slash before or behind it excludes nothing: C80_slash_refuted."
  },
  {
   "property": "C81",
   "status": "proved",
   "theorems": [
    "C81_braces",
    "C81_empty_group_refuted",
    "C81_include",
    "C81_nested_refuted",
    "C81_plain",
    "C81_terminates"
   ],
   "note": "Nested and empty groups: C81_nested_refuted, C81_empty_group_refuted. The glob library is a parameter."
  },
  {
   "property": "C82",
   "status": "proved",
   "theorems": [
    "C82_below",
    "C82_exact",
    "C82_files",
    "C82_only_below_refuted"
   ],
   "note": "Sibling directories are considered too: C82_only_below_refuted."
  },
  {
   "property": "C83",
   "status": "proved",
   "theorems": [
    "C83_always",
    "C83_basic",
    "C83_braces",
    "C83_crlf_refuted",
    "C83_escaped_parentheses_refuted",
    "C83_fixed",
    "C83_fixed_case_refuted",
    "C83_grep",
    "C83_old_notation",
    "C83_plain",
    "C83_word",
    "C83_word_bar_refuted"
   ],
   "note": "-F ignores the documented case-insensitive default, -w does not enclose alternatives, escaped parentheses are groups, and line ends are missed in files with carriage returns: C83_fixed_case_refuted, C83_word_bar_refuted, C83_escaped_parentheses_refuted, C83_crlf_refuted."
  },
  {
   "property": "C84",
   "status": "proved",
   "theorems": [
    "C84_fixed",
    "C84_literal_refuted",
    "C84_numbers",
    "C84_pieces",
    "C84_plain",
    "C84_shown",
    "C84_text"
   ],
   "note": "A unit found only because it contains the pattern as typed is not shown: C84_literal_refuted. C84_fixed asks that lower-casing a text is done piece by piece."
  },
  {
   "property": "C86",
   "status": "proved",
   "theorems": [
    "C86_coherence",
    "C86_definition",
    "C86_hash_order",
    "C86_penalty",
    "C86_penalty_lowers_refuted",
    "C86_raised",
    "C86_results",
    "C86_semantic_only_refuted",
    "C86_stem",
    "C86_stem_exactly",
    "C86_total"
   ],
   "note": "Scores are compared as numbers (no NaN). --semantic-only pairs rows and scores by position: C86_semantic_only_refuted. The path penalty raises negative scores: C86_penalty_lowers_refuted."
  },
  {
   "property": "C87",
   "status": "proved",
   "theorems": [
    "C87_every_match",
    "C87_ids",
    "C87_results"
   ],
   "note": "C87_every_match speaks of the matches that the search of the index gives; that search may prune (C56)."
  },
  {
   "property": "C88",
   "status": "proved",
   "theorems": [
    "C88_code_only_refuted",
    "C88_command",
    "C88_count",
    "C88_deterministic_refuted",
    "C88_fails",
    "C88_hard_contract_refuted",
    "C88_hash_order",
    "C88_one_path",
    "C88_overlap_refuted",
    "C88_paths",
    "C88_semantic_pattern_refuted"
   ],
   "note": "The count is that of the candidates, not of the index, and the determinism that of the merge only: C88_code_only_refuted, C88_hard_contract_refuted, C88_overlap_refuted, C88_deterministic_refuted, C88_semantic_pattern_refuted."
  },
  {
   "property": "C85",
   "status": "proved",
   "theorems": [
    "C85_array_text_refuted",
    "C85_first_run_stores",
    "C85_later_runs_store",
    "C85_nothing_made_up",
    "C85_units_come_back"
   ],
   "note": "A unit with a text that reads as a JSON array is never shown: C85_array_text_refuted. Paths that are not UTF-8, on which storing panics, are left out."
  },
  {
   "property": "C89",
   "status": "proved",
   "theorems": [
    "C89_all_or_nothing",
    "C89_deep_file_refuted",
    "C89_every_line_in_a_unit"
   ],
   "note": "The parser (tree-sitter) and the analysis of nodes are parameters; QML files have their own extraction, not modelled. A file nested deeper than the limit gives no unit at all: C89_deep_file_refuted."
  },
  {
   "property": "C90",
   "status": "proved",
   "theorems": [
    "C90_html_page",
    "C90_nested_template_refuted",
    "C90_one_line_script_refuted",
    "C90_page_lines_refuted",
    "C90_scripts_in_place",
    "C90_second_script_refuted",
    "C90_statement_refuted",
    "C90_svelte_page",
    "C90_text_file_whole",
    "C90_vue_file"
   ],
   "note": "Carriage returns are left out in the theorems about scripts. What other pages lose is in C90_one_line_script_refuted, C90_nested_template_refuted, C90_second_script_refuted, C90_statement_refuted and C90_page_lines_refuted."
  },
  {
   "property": "C91",
   "status": "proved",
   "theorems": [
    "C91_any_order",
    "C91_callers_listed",
    "C91_update_forgets_callers_refuted"
   ],
   "note": "Callers in files that did not change are forgotten when the callee's file does: C91_update_forgets_callers_refuted."
  },
  {
   "property": "C92",
   "status": "proved",
   "theorems": [
    "C92_force_include_path_refuted",
    "C92_forced_names",
    "C92_index_of_the_tree",
    "C92_indexed_files",
    "C92_once_and_skipped",
    "C92_rules_by_name",
    "C92_settings_monotone"
   ],
   "note": "The rules of .gitignore (crate ignore) and canonicalize are parameters; names are UTF-8. The documented pattern vendor/internal has no effect: C92_force_include_path_refuted."
  },
  {
   "property": "C93",
   "status": "proved",
   "theorems": [
    "C93_around_the_matches",
    "C93_compact",
    "C93_content_panics_refuted",
    "C93_from_the_start",
    "C93_full_content_refuted",
    "C93_matches_shown",
    "C93_merged_unit_refuted",
    "C93_results_by_file"
   ],
   "note": "Colours and padding are left out; the representative lines are a parameter. With -c a code unit in which no line matches makes the command panic (C93_content_panics_refuted), -c does not show the full unit where a line matches (C93_full_content_refuted), and for a file with several units found the lines shown are counted from the wrong line (C93_merged_unit_refuted)."
  },
  {
   "property": "C94",
   "status": "proved",
   "theorems": [
    "C94_any_batches",
    "C94_creation_succeeds",
    "C94_odd_dimension_panics_refuted",
    "C94_same_index"
   ],
   "note": "A dimension times nbits that is not a multiple of 8 makes creation panic (C94_odd_dimension_panics_refuted). The threads of colgrep's pipeline are sequential here."
  },
  {
   "property": "C95",
   "status": "proved",
   "theorems": [
    "C95_any_moment",
    "C95_ends",
    "C95_first_build_rollback_refuted",
    "C95_first_build_rows_ahead_refuted",
    "C95_never_stuck",
    "C95_returned",
    "C95_returns_while_writing_refuted",
    "C95_sample_first",
    "C95_second_attempt_refuted"
   ],
   "note": "Refuted: nothing is written after the return (C95_returns_while_writing_refuted), a second attempt after a failed one indexes every unit once (C95_second_attempt_refuted), rows never ahead of documents and documents never without rows in a first build (C95_first_build_rows_ahead_refuted, C95_first_build_rollback_refuted). The statement is restricted accordingly."
  },
  {
   "property": "C96",
   "status": "proved",
   "theorems": [
    "C96_deleted_index_refuted",
    "C96_interleaved_create_refuted",
    "C96_interleaved_reads_current",
    "C96_reads_current",
    "C96_rebuilt_index_refuted",
    "C96_repair_deletes_documents_refuted",
    "C96_repair_sees_rows"
   ],
   "note": "Refuted without the precondition: deleted and recreated index (C96_deleted_index_refuted), rebuilt index (C96_rebuilt_index_refuted), creation while a thread opens its connection (C96_interleaved_create_refuted); consequence for the API's repair: C96_repair_deletes_documents_refuted."
  },
  {
   "property": "C97",
   "status": "proved",
   "theorems": [
    "C97_answers",
    "C97_counterpart",
    "C97_create_killed_refuted",
    "C97_histories",
    "C97_killed",
    "C97_killed_create_stuck",
    "C97_reads",
    "C97_split_files"
   ],
   "note": "Hypotheses: no item uses the reserved name _content_id_, stored values are unchanged when stored again in a column of their type (settled), ids are new. Creation is outside the claim: killed before the version is set it is never recovered (C97_killed_create_stuck, C97_create_killed_refuted)."
  },
  {
   "property": "C98",
   "status": "proved",
   "theorems": [
    "C98_add",
    "C98_add_others",
    "C98_add_refused",
    "C98_add_remove",
    "C98_config_back_refuted",
    "C98_hooks",
    "C98_hooks_kept",
    "C98_hooks_others",
    "C98_hooks_twice",
    "C98_install",
    "C98_one_section",
    "C98_other_hooks_refuted",
    "C98_quoted_end_refuted",
    "C98_quoted_marker_refuted",
    "C98_reinstall_refuted",
    "C98_round_trip",
    "C98_uninstall_only",
    "C98_upgrade"
   ],
   "note": "Preconditions as in the statement (no quoted marker, keys given once as parsers ensure). What fails without them: C98_reinstall_refuted, C98_quoted_marker_refuted, C98_quoted_end_refuted, C98_config_back_refuted, C98_other_hooks_refuted."
  },
  {
   "property": "C99",
   "status": "proved",
   "theorems": [
    "C99_cleared_lock_refuted",
    "C99_cleared_while_written_refuted",
    "C99_format_restamped_refuted",
    "C99_in_order",
    "C99_lost_state_refuted",
    "C99_one_writer",
    "C99_search_never_waits",
    "C99_serial",
    "C99_up_to_date"
   ],
   "note": "Preconditions as in the statement. What fails without them: C99_lost_state_refuted (the count overwrites a newer state), C99_cleared_lock_refuted and C99_cleared_while_written_refuted (clearing removes the lock file), C99_format_restamped_refuted."
  },
  {
   "property": "C100",
   "status": "proved",
   "theorems": [
    "C100_accepted_in_order",
    "C100_all_answered",
    "C100_bounded",
    "C100_deleted_documents_return_refuted",
    "C100_deleted_index_answers_refuted",
    "C100_files_current",
    "C100_in_turn",
    "C100_never_stuck",
    "C100_one_version",
    "C100_reads_current",
    "C100_settings_current",
    "C100_settings_lost_refuted",
    "C100_stale_after_start_refuted",
    "C100_undeclared_index_refuted"
   ],
   "note": "Preconditions as in the statement. What fails without them: C100_stale_after_start_refuted, C100_deleted_index_answers_refuted, C100_deleted_documents_return_refuted, C100_undeclared_index_refuted, C100_settings_lost_refuted. Writers with different locks: C39."
  },
  {
   "property": "C101",
   "status": "proved",
   "theorems": [
    "C101_again",
    "C101_clear",
    "C101_clear_refuted",
    "C101_collision_refuted",
    "C101_current",
    "C101_history_refuted",
    "C101_include_refuted",
    "C101_init_refuted",
    "C101_one_project",
    "C101_right_index",
    "C101_status",
    "C101_unrecorded_refuted"
   ],
   "note": "Precondition: names of index directories do not collide (C101_collision_refuted shows what happens else). Not true: that init updates the index a search uses (C101_init_refuted), that the answer does not depend on earlier searches above (C101_history_refuted), that --include only narrows (C101_include_refuted), that clear removes the index status names (C101_clear_refuted), that a complete index is found from below (C101_unrecorded_refuted)."
  },
  {
   "property": "C102",
   "status": "proved",
   "theorems": [
    "C102_conversion_refuted",
    "C102_load_alone",
    "C102_load_while_written_refuted",
    "C102_open_index_does_not_change",
    "C102_open_index_maps_whole_files",
    "C102_operations_are_ordinary",
    "C102_read_after_delete_refuted",
    "C102_removed_directory_refuted",
    "C102_search_after_delete_refuted"
   ],
   "note": "Preconditions: no conversion of a fast-plaid index (C102_conversion_refuted), the directory and its lock files are not removed (C102_removed_directory_refuted). Not true: that a load during a write shows one version (C102_load_while_written_refuted), that a handle can be searched after delete (C102_search_after_delete_refuted, C102_read_after_delete_refuted)."
  },
  {
   "property": "C103",
   "status": "proved",
   "theorems": [
    "C103_bounded",
    "C103_class_refuted",
    "C103_description_kept",
    "C103_dot_refuted",
    "C103_file_components",
    "C103_file_lost_refuted",
    "C103_file_words",
    "C103_fixed_refuted",
    "C103_glued_refuted",
    "C103_long_is_beginning",
    "C103_query_kept",
    "C103_query_words",
    "C103_short_complete"
   ],
   "note": "The words of a pattern are stated for patterns made of plain and escaped characters, class escapes, alternations, marks, braces and simple classes; that the query is kept holds for every pattern. Not true: that the file survives a long description, that all directories are there, that words of a pattern stay apart, that -F patterns are taken as text (the C103_*_refuted theorems)."
  },
  {
   "property": "C104",
   "status": "proved",
   "theorems": [
    "C104_absolute_paths_refuted",
    "C104_alpha_refuted",
    "C104_killed_refuted",
    "C104_last_said_holds",
    "C104_nan_refuted",
    "C104_no_pool_refuted",
    "C104_nothing_asked",
    "C104_other_members_refuted",
    "C104_patterns",
    "C104_round_trip",
    "C104_search_uses",
    "C104_shown_defaults_refuted",
    "C104_something_stands",
    "C104_two_commands_refuted"
   ],
   "note": "Exceptions: relative paths (C104_absolute_paths_refuted: no history makes them absolute), not-a-number (C104_nan_refuted). Not true: that the shown defaults are in use, that alpha 0 can be saved, that a kill or a second command at the same time loses nothing, that other members of the file stay, that --no-pool holds for large runs (the C104_*_refuted theorems)."
  },
  {
   "property": "C105",
   "status": "proved",
   "theorems": [
    "C105_directory_as_query_refuted",
    "C105_misspelt_directory_refuted",
    "C105_no_word_lost",
    "C105_query_as_path_refuted",
    "C105_read_exactly"
   ],
   "note": "Stated against an inductive table of readings. Not true: that with -e an existing directory is searched, that a query with a slash stays a query, that a misspelt directory is reported (the C105_*_refuted theorems)."
  },
  {
   "property": "C106",
   "status": "proved",
   "theorems": [
    "C106_all_listed_refuted",
    "C106_bounded_refuted",
    "C106_code_once_refuted",
    "C106_empty_language_refuted",
    "C106_end_line_refuted",
    "C106_listed",
    "C106_merged",
    "C106_named_language",
    "C106_names",
    "C106_nothing_lost",
    "C106_single_refuted",
    "C106_units"
   ],
   "note": "Unit extraction is a parameter (C89-C91). Not true: that the merged lines reach the end of every unit, that each line is in the merged code once, that a file with one unit is named after the file, that an empty file keeps its language, that the merged text is bounded, that every language is listed (the C106_*_refuted theorems)."
  },
  {
   "property": "C107",
   "status": "proved",
   "theorems": [
    "C107_block_code_refuted",
    "C107_block_comments",
    "C107_block_words_refuted",
    "C107_calls",
    "C107_calls_refuted",
    "C107_calls_with_types_refuted",
    "C107_complexity_refuted",
    "C107_control_flow",
    "C107_declarators",
    "C107_elixir",
    "C107_go_ocaml_imports",
    "C107_haddock_refuted",
    "C107_imports",
    "C107_imports_all_refuted",
    "C107_imports_named_refuted",
    "C107_length_in_bytes",
    "C107_line_comments",
    "C107_lua",
    "C107_lua_imports",
    "C107_modules_used",
    "C107_parameters",
    "C107_parent",
    "C107_python_doc",
    "C107_python_one_line_refuted",
    "C107_python_quotes_refuted",
    "C107_return_types",
    "C107_ruby_imports",
    "C107_unit_imports",
    "C107_unit_imports_refuted",
    "C107_used_modules",
    "C107_variables"
   ],
   "note": "Trees are arbitrary: what tree-sitter's grammars produce is not modelled. Not true: that complexity counts decisions once, that every call or import is recorded, that the imports of a unit are used by it, that block comments, Haddock comments and Python docstrings are recorded as written (the C107_*_refuted theorems)."
  },
  {
   "property": "C108",
   "status": "proved",
   "theorems": [
    "C108_bounded_refuted",
    "C108_capitals_refuted",
    "C108_every_path",
    "C108_never_raised",
    "C108_penalty",
    "C108_query_words_refuted"
   ],
   "note": "Regular expressions are modelled as lists of pieces, tried in all ways. Not true: that an environment cannot raise scores, that directories named Tests are known, that only the words test, spec and benchmark in a query lift the penalty (C108_bounded_refuted, C108_capitals_refuted, C108_query_words_refuted)."
  },
  {
   "property": "C109",
   "status": "proved",
   "theorems": [
    "C109_centroids",
    "C109_empty_sample_refuted",
    "C109_estimate",
    "C109_estimate_refuted",
    "C109_exact_sizes",
    "C109_from_documents",
    "C109_index",
    "C109_refused",
    "C109_succeeds",
    "C109_widths_refuted"
   ],
   "note": "The iteration of the k-means is a parameter. C109_index shows that compute_kmeans meets what the theorems about the index ask of the centroids. Not true: that the estimate is always the number of centroids (rounding), that documents with tokens are enough (the sample may be empty documents), that documents of other widths are refused (C109_estimate_refuted, C109_empty_sample_refuted, C109_widths_refuted)."
  },
  {
   "property": "C110",
   "status": "proved",
   "theorems": [
    "C110_add",
    "C110_add_without_metadata_refuted",
    "C110_delete_refuted",
    "C110_documented_hybrid_refuted",
    "C110_empty_subset_refuted",
    "C110_encoded",
    "C110_fusion_default_refuted",
    "C110_get_metadata_empty_refuted",
    "C110_name",
    "C110_not_found_and_no_model",
    "C110_params_default_refuted",
    "C110_ragged_refuted",
    "C110_responses",
    "C110_search_embeddings",
    "C110_search_texts",
    "C110_subset_and_filter_refuted",
    "C110_unprocessable_refuted"
   ],
   "note": "The model of the server and the index are parameters; HTTP itself, percent-encoding and Python numbers that are not binary32 are not modelled. Not true of the client: an empty subset, a subset with a filter, rows of different widths, several queries with text queries, the default parameters and the default fusion of the documentation, adding without metadata, metadata of no documents, names with ? # or /, 422 (the _refuted theorems)."
  },
  {
   "property": "C111",
   "status": "proved",
   "theorems": [
    "C111_bound_objects_refuted",
    "C111_coverage_refuted",
    "C111_depth",
    "C111_imports",
    "C111_one_unit",
    "C111_units",
    "C111_used_refuted"
   ],
   "note": "Over any syntax tree; the grammar is not modelled and what extract_function, extract_constant and extract_class make of script nodes is a parameter. Not true of the code: objects that are values of bindings are found; units cover the file; an import said to be used is named as a word (the _refuted theorems)."
  },
  {
   "property": "C112",
   "status": "proved",
   "theorems": [
    "C112_arrow_refuted",
    "C112_bounds_refuted",
    "C112_constants",
    "C112_methods",
    "C112_no_type_parameters",
    "C112_one_name",
    "C112_receiver_refuted",
    "C112_several_refuted",
    "C112_template_refuted",
    "C112_templates",
    "C112_type_parameters"
   ],
   "note": "Over any syntax tree; grammars are not modelled, and the name of a CSS rule (ast.rs get_node_name) is a parameter. Not true of the code: names recorded are those of type parameters only; every constant of a group is recorded; a constant recorded as a function is one; methods of generic Go types are recorded under the name of the type (the _refuted theorems)."
  },
  {
   "property": "C113",
   "status": "proved",
   "theorems": [
    "C113_bodies",
    "C113_elixir_refuted",
    "C113_go_type_refuted",
    "C113_names",
    "C113_not_empty",
    "C113_one_kind",
    "C113_one_kind_refuted",
    "C113_one_line",
    "C113_pointer_refuted"
   ],
   "note": "Over any syntax tree; grammars are not modelled. Not true of the code: a node is of one kind in every language; Elixir functions have names of their own; a C function is called by an identifier; a Go type has a name (the _refuted theorems)."
  },
  {
   "property": "C114",
   "status": "proved",
   "theorems": [
    "C114_applied",
    "C114_colour",
    "C114_flag_refuted",
    "C114_library",
    "C114_library_refuted",
    "C114_mode",
    "C114_sizes",
    "C114_start",
    "C114_starts"
   ],
   "note": "The environment is any map from names to values, UTF-8 or not. Not true of the code: a flag settles the choice whatever the environment says; the libraries on their own heed the same variables (the _refuted theorems)."
  },
  {
   "property": "C115",
   "status": "proved",
   "theorems": [
    "C115_any_order",
    "C115_health_refuted",
    "C115_link_refuted",
    "C115_listed",
    "C115_summaries"
   ],
   "note": "For one reading of the directory, during which it does not change. Not true of the code: an index behind a link is listed although it is served; the health report speaks of every listed index (the _refuted theorems)."
  },
  {
   "property": "C116",
   "status": "proved",
   "theorems": [
    "C116_channel_refuted",
    "C116_ends",
    "C116_help_refuted",
    "C116_limits",
    "C116_per_second_refuted",
    "C116_rate",
    "C116_runs"
   ],
   "note": "Arguments are UTF-8. Not true of the code: -h asks for help; RATE_LIMIT_PER_SECOND is a number of requests per second; any number will do for the size of a queue or a quota (the _refuted theorems and C116_rate)."
  },
  {
   "property": "C117",
   "status": "proved",
   "theorems": [
    "C117_blank_refuted",
    "C117_copy",
    "C117_copy_over",
    "C117_links_refuted",
    "C117_siblings"
   ],
   "note": "Not true of the code: that symbolic links are copied as they are, and that every worktree git lists is found (the _refuted theorems). A copy that fails is modelled as an error, not as what it leaves behind."
  },
  {
   "property": "C118",
   "status": "proved",
   "theorems": [
    "C118_acknowledged",
    "C118_deferred",
    "C118_honoured",
    "C118_message",
    "C118_message_refuted",
    "C118_never_lost",
    "C118_no_false_alarm",
    "C118_outside_refuted"
   ],
   "note": "Guards are dropped by who made them, and fewer than 2^64 are alive. Not true of the code: that an answer yes means no section is open at that moment, and that the message tells what was so when the key was pressed (the _refuted theorems). One order of accesses is assumed although the loads are Relaxed."
  },
  {
   "property": "C119",
   "status": "proved",
   "theorems": [
    "C119_fewer_refuted",
    "C119_speaks",
    "C119_stops"
   ],
   "note": "The walk (which files are hidden or ignored) and the look-ups of indices are given. Not true of the code: that fewer files never end the advice (an empty project is not small)."
  },
  {
   "property": "C120",
   "status": "proved",
   "theorems": [
    "C120_exact",
    "C120_names",
    "C120_never_fails"
   ],
   "note": "Of the errors of SQLite only the clash of table names is modelled; a table on the connection that no call of this process made is excluded in C120_never_fails."
  }
 ]
}