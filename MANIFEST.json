{
 "claims": [
  {
   "property": "C01",
   "status": "proved",
   "theorems": [
    "C01_item_frequencies"
   ],
   "note": ""
  },
  {
   "property": "C02",
   "status": "proved",
   "theorems": [
    "C02_executions_bounded",
    "C02_no_deadlock",
    "C02_schedule_independent"
   ],
   "note": ""
  },
  {
   "property": "C03",
   "status": "proved",
   "theorems": [
    "C03_window_contents"
   ],
   "note": ""
  },
  {
   "property": "C04",
   "status": "partial",
   "theorems": [
    "C04_cooccurrence_counts_refuted",
    "C04_cooccurrence_counts_partial",
    "C04_never_overcounts_partial"
   ],
   "note": "Refuted: in a segment of n tokens with 2 <= n <= right span, the last token is never processed as target word. Proved: counts are exact for all other segments, and never exceed the specification for any segment."
  },
  {
   "property": "C05",
   "status": "proved",
   "theorems": [
    "C05_processed_targets"
   ],
   "note": ""
  },
  {
   "property": "C06",
   "status": "partial",
   "theorems": [
    "C06_symmetry_refuted",
    "C06_symmetry_partial"
   ],
   "note": "Refuted for short segments (see C04); symmetric when no segment has between 2 and right-span tokens."
  },
  {
   "property": "C07",
   "status": "proved",
   "theorems": [
    "C07_separators_isolate",
    "C07_other_lines_ignored"
   ],
   "note": ""
  },
  {
   "property": "C08",
   "status": "proved",
   "theorems": [
    "C08_vocab_filter_restricts"
   ],
   "note": ""
  },
  {
   "property": "C09",
   "status": "proved",
   "theorems": [
    "C09_row_total_bound"
   ],
   "note": ""
  },
  {
   "property": "C10",
   "status": "proved",
   "theorems": [
    "C10_terminates",
    "C10_counts",
    "C10_schedule_independent"
   ],
   "note": ""
  },
  {
   "property": "C11",
   "status": "proved",
   "theorems": [
    "C11_tokens_exact",
    "C11_each_occurrence_once"
   ],
   "note": ""
  },
  {
   "property": "C12",
   "status": "partial",
   "theorems": [
    "C12_tokens_never_lost_refuted",
    "C12_tokens_never_lost_partial"
   ],
   "note": "Refuted: one file and two workers, the idle worker's empty result is the only one read. Proved complete whenever every worker takes at least one file."
  },
  {
   "property": "C13",
   "status": "proved",
   "theorems": [
    "C13_executions_bounded",
    "C13_items",
    "C13_complete"
   ],
   "note": ""
  },
  {
   "property": "C14",
   "status": "partial",
   "theorems": [
    "C14_token_reading_total_refuted",
    "C14_fails_exactly_when_partial",
    "C14_otherwise_succeeds_partial"
   ],
   "note": "Refuted: right span 0 and an empty segment raise IndexError. Proved to be the only failure."
  },
  {
   "property": "C15",
   "status": "proved",
   "theorems": [
    "C15_merge_keeps_tokens",
    "C15_merge_raises"
   ],
   "note": ""
  },
  {
   "property": "C16",
   "status": "proved",
   "theorems": [
    "C16_type_string_roundtrip",
    "C16_type_string_raises",
    "C16_token_string_roundtrip",
    "C16_type_attributes_roundtrip",
    "C16_type_attributes",
    "C16_type_none",
    "C16_empty_format",
    "C16_token_attributes_roundtrip",
    "C16_token_attributes"
   ],
   "note": ""
  },
  {
   "property": "C17",
   "status": "proved",
   "theorems": [
    "C17_vocab_history"
   ],
   "note": ""
  },
  {
   "property": "C18",
   "status": "proved",
   "theorems": [
    "C18_dataframe_order",
    "C18_dataframe_canonical",
    "C18_item_list_sorted"
   ],
   "note": ""
  },
  {
   "property": "C19",
   "status": "proved",
   "theorems": [
    "C19_slice_most_frequent",
    "C19_slice_range"
   ],
   "note": ""
  },
  {
   "property": "C20",
   "status": "proved",
   "theorems": [
    "C20_comparisons",
    "C20_tuple_is_conjunction",
    "C20_select_items",
    "C20_select_freqs",
    "C20_partition"
   ],
   "note": ""
  },
  {
   "property": "C21",
   "status": "proved",
   "theorems": [
    "C21_subvocab"
   ],
   "note": ""
  },
  {
   "property": "C22",
   "status": "partial",
   "theorems": [
    "C22_plain_roundtrip_refuted",
    "C22_plain_roundtrip_iff_partial"
   ],
   "note": "Refuted in general by a witness (item with a tab); the round trip is characterised exactly: it is lossless iff every item is non-empty, does not start with white space and holds no tab or line boundary."
  },
  {
   "property": "C23",
   "status": "proved",
   "theorems": [
    "C23_equal_is_map_equality"
   ],
   "note": ""
  },
  {
   "property": "C24",
   "status": "proved",
   "theorems": [
    "C24_dict_matrix_dict",
    "C24_value_is_indexing"
   ],
   "note": ""
  },
  {
   "property": "C25",
   "status": "proved",
   "theorems": [
    "C25_submatrix_cells",
    "C25_submatrix_values",
    "C25_submatrix_none"
   ],
   "note": ""
  },
  {
   "property": "C26",
   "status": "proved",
   "theorems": [
    "C26_reorder",
    "C26_reorder_unknown",
    "C26_transpose"
   ],
   "note": ""
  },
  {
   "property": "C27",
   "status": "proved",
   "theorems": [
    "C27_merge_two_adds",
    "C27_merge_two_commutes",
    "C27_merge_two_associates"
   ],
   "note": ""
  },
  {
   "property": "C28",
   "status": "proved",
   "theorems": [
    "C28_merge_matrices_adds",
    "C28_merge_method_adds"
   ],
   "note": ""
  },
  {
   "property": "C29",
   "status": "proved",
   "theorems": [
    "C29_drop_rows",
    "C29_drop_columns",
    "C29_drop_single_fails"
   ],
   "note": ""
  },
  {
   "property": "C30",
   "status": "partial",
   "theorems": [
    "C30_multiply_cells_partial",
    "C30_comparison_mask",
    "C30_comparison_dense_partial",
    "C30_multiply_by_mask",
    "C30_multiply_cells_refuted",
    "C30_multiply_by_item_refuted",
    "C30_comparison_dense_refuted",
    "C30_comparison_zero_raises"
   ],
   "note": "Refuted: with an explicit zero in the left matrix multiply acts as a mask; operands are combined by position whatever their items; comparisons that zero satisfies miss unstored cells; >= 0 and <= 0 raise. Proved: multiplication without explicit zeros, the exact mask of every comparison, masks applied to any matrix."
  },
  {
   "property": "C31",
   "status": "proved",
   "theorems": [
    "C31_sums",
    "C31_totals",
    "C31_single_fails"
   ],
   "note": ""
  },
  {
   "property": "C32",
   "status": "partial",
   "theorems": [
    "C32_load_save_partial",
    "C32_load_save_transposed",
    "C32_transposed_refuted",
    "C32_stale_file_refuted",
    "C32_unpacked_pac_name_refuted"
   ],
   "note": "Refuted: a transposed (csc) square matrix is read back with cells exchanged; a stale .npz hides a saved array; an unpacked name ending in .pac. Proved for all other saves, with the exact result for csc matrices."
  },
  {
   "property": "C33",
   "status": "partial",
   "theorems": [
    "C33_crash_packed_partial",
    "C33_crash_unpacked_refuted",
    "C33_crash_packed_refuted"
   ],
   "note": "Refuted: unpacked saves mix new items with old cells; a packed sparse matrix replacing an array mixes old items with new cells. Proved for all other packed saves at every crash point."
  },
  {
   "property": "C34",
   "status": "proved",
   "theorems": [
    "C34_most_similar",
    "C34_unknown_item"
   ],
   "note": ""
  },
  {
   "property": "C35",
   "status": "proved",
   "theorems": [
    "C35_table_sums",
    "C35_reference_matrix"
   ],
   "note": ""
  },
  {
   "property": "C36",
   "status": "proved",
   "theorems": [
    "C36_scores",
    "C36_textbook",
    "C36_failing_table",
    "C36_unknown_measure",
    "C36_missing_marginal",
    "C36_vocabulary_order"
   ],
   "note": ""
  },
  {
   "property": "C37",
   "status": "proved",
   "theorems": [
    "C37_ppmi_values",
    "C37_ppmi_sign"
   ],
   "note": ""
  },
  {
   "property": "C38",
   "status": "partial",
   "theorems": [
    "C38_ppmi_agree",
    "C38_pmi_agree_partial",
    "C38_pmi_of_zero_refuted"
   ],
   "note": "C38_ppmi_agree proves PPMI agreement within 2.2e-10 on all cells; plain PMI agrees for positive counts (partial), and is refuted for stored zeros where the two differ by more than 1."
  },
  {
   "property": "C39",
   "status": "partial",
   "theorems": [
    "C39_dice",
    "C39_delta_p",
    "C39_delta_p_coll",
    "C39_chi_square",
    "C39_log_likelihood",
    "C39_G2",
    "C39_log_likelihood_nonneg_partial",
    "C39_log_likelihood_nonneg_refuted",
    "C39_dice_matrix"
   ],
   "note": "Dice, Delta-P, chi-square bounds proved in full. Log-likelihood: proved non-negative, zero iff independent, for positive tables (partial); refuted with zero cells at large counts because of smoothing."
  },
  {
   "property": "C40",
   "status": "partial",
   "theorems": [
    "C40_symmetric",
    "C40_value",
    "C40_increasing_partial",
    "C40_increasing_refuted"
   ],
   "note": "Symmetry proved. Strict increase proved for expected counts below 1e10; refuted at an expected count of 2e10 where the smoothing of exact ratio 1 breaks the order."
  },
  {
   "property": "C41",
   "status": "proved",
   "theorems": [
    "C41_ranks",
    "C41_always_answers"
   ],
   "note": ""
  },
  {
   "property": "C42",
   "status": "proved",
   "theorems": [
    "C42_cosine",
    "C42_symmetric_bounded",
    "C42_scaling",
    "C42_one",
    "C42_axis",
    "C42_no_cells"
   ],
   "note": ""
  },
  {
   "property": "C43",
   "status": "partial",
   "theorems": [
    "C43_weights_partial",
    "C43_lemma_only",
    "C43_columns_differ",
    "C43_own_type_refuted"
   ],
   "note": "Proved for tokens whose lemma and part of speech have no slash, and for lemma-only tokens; refuted for types with more than two slash-separated fields such as and/or/CC, whose rows become zero."
  },
  {
   "property": "C44",
   "status": "proved",
   "theorems": [
    "C44_addition",
    "C44_row_order",
    "C44_l1_unit",
    "C44_no_cells",
    "C44_mismatch",
    "C44_unknown_operation",
    "C44_unknown_normalization",
    "C44_csc"
   ],
   "note": ""
  },
  {
   "property": "C45",
   "status": "partial",
   "theorems": [
    "C45_all_or_nothing",
    "C45_products_refuted"
   ],
   "note": "Refuted: the condition is inverted. C45_all_or_nothing states the exact result: 0 or 1 before normalisation."
  },
  {
   "property": "C46",
   "status": "proved",
   "theorems": [
    "C46_sound",
    "C46_returns",
    "C46_sentence_graphs"
   ],
   "note": ""
  },
  {
   "property": "C47",
   "status": "partial",
   "theorems": [
    "C47_complete_partial",
    "C47_unconstrained_refuted"
   ],
   "note": "Complete for patterns in which every node and every edge has at least one constraint. A pattern node or edge without constraints never matches (the empty dict of matches is false): C47_unconstrained_refuted."
  },
  {
   "property": "C48",
   "status": "proved",
   "theorems": [
    "C48_once"
   ],
   "note": ""
  },
  {
   "property": "C49",
   "status": "proved",
   "theorems": [
    "C49_cells",
    "C49_built",
    "C49_terminates",
    "C49_schedule_independent",
    "C49_file",
    "C49_corpus"
   ],
   "note": ""
  },
  {
   "property": "C50",
   "status": "partial",
   "theorems": [
    "C50_filter_partial",
    "C50_label_partial",
    "C50_label_refuted",
    "C50_none_refuted"
   ],
   "note": "With a list: the matches kept are exactly those whose target's attribute values are in the list (C50_filter_partial), and the row label is that type when the representation groups are whole values (C50_label_partial). Missing/false: labels with shortened values are compared in full (C50_label_refuted); without a list the filter is an empty vocabulary and nothing is counted in any corpus (C50_none_refuted)."
  },
  {
   "property": "C51",
   "status": "proved",
   "theorems": [
    "C51_lines",
    "C51_groups"
   ],
   "note": ""
  },
  {
   "property": "C52",
   "status": "partial",
   "theorems": [
    "C52_exact_partial",
    "C52_connected_partial",
    "C52_trees",
    "C52_circle_refuted",
    "C52_star_refuted",
    "C52_zero_refuted",
    "C52_single_refuted"
   ],
   "note": "Exact for connected patterns with two or more nodes, no loops, no node with id 0, at most three neighbours per node. For trees with any numbers of neighbours (C52_trees): the walk ends, paths are answered True, and False means a node with exactly three neighbours. Outside: a four-leaf star is answered True (C52_star_refuted), node id 0 and single nodes are answered False (C52_zero_refuted, C52_single_refuted), a circle with leaves is walked for ever (C52_circle_refuted)."
  },
  {
   "property": "C53",
   "status": "proved",
   "theorems": [
    "C53_bijection",
    "C53_items",
    "C53_layout"
   ],
   "note": ""
  },
  {
   "property": "C54",
   "status": "proved",
   "theorems": [
    "C54_partition",
    "C54_step2"
   ],
   "note": ""
  },
  {
   "property": "C55",
   "status": "partial",
   "theorems": [
    "C55_antichain",
    "C55_sound",
    "C55_covers_partial",
    "C55_covers_refuted"
   ],
   "note": "C55_covers_partial needs different scores for different clusters; C55_covers_refuted: a cluster found twice with another of the same score in between is dropped altogether. The rest (no kept cluster contains another, none invented) is proved without conditions."
  },
  {
   "property": "C56",
   "status": "partial",
   "theorems": [
    "C56_shrinks_partial",
    "C56_shrinks_refuted",
    "C56_limit",
    "C56_step"
   ],
   "note": "The residue list of the last recursion may equal the one before (C56_shrinks_refuted), in which case the loop stops; all others are strictly shorter (C56_shrinks_partial). Termination, the bound on the number of recursions and independence of the limit are proved."
  },
  {
   "property": "C57",
   "status": "partial",
   "theorems": [
    "C57_residues_partial",
    "C57_total",
    "C57_argmax",
    "C57_assigned_refuted"
   ],
   "note": "Proved for step 3 when the elements are given in the order of the matrix rows (see C94); C57_assigned_refuted: the committees with the assigned elements are dropped by major_steps."
  },
  {
   "property": "C58",
   "status": "partial",
   "theorems": [
    "C58_exact",
    "C58_same_iff",
    "C58_same_partial",
    "C58_sound",
    "C58_tasks",
    "C58_reused_refuted",
    "C58_one_cpu_refuted"
   ],
   "note": "Proved when no process takes two tasks; in general C58_exact states what is left and C58_same_iff when that is everything. C58_reused_refuted: a process that takes two tasks overwrites its first result file; C58_one_cpu_refuted: with one CPU the step raises ZeroDivisionError."
  },
  {
   "property": "C59",
   "status": "partial",
   "theorems": [
    "C59_override",
    "C59_succeeds",
    "C59_fails",
    "C59_default_section_refuted"
   ],
   "note": "True with DEFAULT-section options counted as options of every section; refuted in the reading where only options written in a section count."
  },
  {
   "property": "C60",
   "status": "partial",
   "theorems": [
    "C60_read_fnames",
    "C60_functional",
    "C60_prepare_refuted",
    "C60_prepare_other"
   ],
   "note": "read_fnames is faithful; prepare_fnames(str) is not: it passes the encoding as the directory."
  },
  {
   "property": "C61",
   "status": "partial",
   "theorems": [
    "C61_lookup_pure_refuted",
    "C61_lookup_pure_partial",
    "C61_lookup_inserts"
   ],
   "note": "Refuted for vocabularies built from a defaultdict (a failed lookup inserts the item with frequency 0); proved for all others, with the exact effect in the defaultdict case."
  },
  {
   "property": "C62",
   "status": "proved",
   "theorems": [
    "C62_select_items_word"
   ],
   "note": ""
  },
  {
   "property": "C63",
   "status": "partial",
   "theorems": [
    "C63_second_call_partial",
    "C63_second_call_same_refuted"
   ],
   "note": "Refuted: a second call returns the earlier tokens once per worker plus the tokens of the files again; this multiplicity is proved exactly."
  },
  {
   "property": "C64",
   "status": "partial",
   "theorems": [
    "C64_item_counts_never_incomplete",
    "C64_tokens_never_incomplete_refuted"
   ],
   "note": "Refuted for token retrieval (idle worker's result returned in place of the failed file's). Proved for item counting: the call never returns when a file fails."
  },
  {
   "property": "C65",
   "status": "partial",
   "theorems": [
    "C65_at_least_one_worker_partial",
    "C65_always_returns_refuted"
   ],
   "note": "Refuted: one processor gives zero workers and build_item_freq blocks for ever. Proved for two or more processors."
  },
  {
   "property": "C66",
   "status": "partial",
   "theorems": [
    "C66_empty_dict_refused",
    "C66_empty_dict_refuted",
    "C66_merge_of_zeros_refused",
    "C66_merge_of_zeros_refuted"
   ],
   "note": "Refuted: ValueError for a dict without counts and for merging matrices of zeros with different items; both characterised exactly."
  },
  {
   "property": "C67",
   "status": "partial",
   "theorems": [
    "C67_different_rows_refused",
    "C67_merge_any_rows_refuted",
    "C67_merge_any_storage_refuted"
   ],
   "note": "Refuted: different rows raise NotImplementedError; a transposed (csc) matrix is merged with its cells misplaced."
  },
  {
   "property": "C68",
   "status": "partial",
   "theorems": [
    "C68_equal_sound",
    "C68_equal_complete_partial",
    "C68_equal_complete_refuted"
   ],
   "note": "Refuted: two matrices with equal cells, one with an explicit zero, are not equal. Proved: True implies equal cells; complete without explicit zeros."
  },
  {
   "property": "C69",
   "status": "partial",
   "theorems": [
    "C69_drop_empty_rows",
    "C69_drop_empty_columns",
    "C69_documented_refuted",
    "C69_all_columns_empty_refuted"
   ],
   "note": "Refuted: the flag works opposite to its documentation, and dropping columns raises AttributeError when all are empty. Proved: the exact set dropped for both values of the flag and both axes."
  },
  {
   "property": "C70",
   "status": "partial",
   "theorems": [
    "C70_exactly_k_refuted",
    "C70_exactly_k_partial"
   ],
   "note": "Refuted: with ties k+1 items may be returned. Proved: exactly k when the item is strictly closest to itself."
  },
  {
   "property": "C71",
   "status": "proved",
   "theorems": [
    "C71_concatenate"
   ],
   "note": ""
  },
  {
   "property": "C72",
   "status": "partial",
   "theorems": [
    "C72_one_number_type",
    "C72_mixed_number_types_refuted",
    "C72_boolean_indices_refuted"
   ],
   "note": "Refuted: later floats are truncated when the first value is an int; boolean values turn indices into 0/1. Proved for dicts of one type other than bool."
  },
  {
   "property": "C73",
   "status": "partial",
   "theorems": [
    "C73_save_others_partial",
    "C73_load_others_partial",
    "C73_save_others_refuted",
    "C73_load_others_refuted"
   ],
   "note": "Refuted: the user's name.meta is deleted by saving and by loading. Proved: exactly which files a packed save touches, and that loading changes nothing when no such files exist."
  },
  {
   "property": "C74",
   "status": "partial",
   "theorems": [
    "C74_renamed_refuted",
    "C74_renamed_another_refuted",
    "C74_moved_partial"
   ],
   "note": "Refuted: a renamed file fails to load, or loads another matrix found under the new name. Proved for moving to another directory under the same name."
  },
  {
   "property": "C75",
   "status": "partial",
   "theorems": [
    "C75_survivors",
    "C75_readable_files_refuted"
   ],
   "note": "C75_survivors characterises the result for every execution; the wish that readable files are all counted is refuted."
  },
  {
   "property": "C76",
   "status": "partial",
   "theorems": [
    "C76_incremented_vocab_refuted",
    "C76_incremented_col_vocab_refuted",
    "C76_survivors",
    "C76_exact"
   ],
   "note": "Refuted by concrete executions for row and column vocabularies. C76_survivors and C76_exact hold for vocabularies of any kind: a worker dies if and only if it meets an unreadable file or a pair let through by the flags that is not in the vocabularies; the result holds the counts of the other workers, and of the whole corpus when there is no such pair."
  },
  {
   "property": "C77",
   "status": "partial",
   "theorems": [
    "C77_no_row_marginals",
    "C77_one_column",
    "C77_ppmi_defaults_refuted"
   ],
   "note": "Refuted: no nfreq always raises AttributeError (C77_no_row_marginals), one column and no cfreq always raises IndexError (C77_one_column)."
  },
  {
   "property": "C78",
   "status": "proved",
   "theorems": [
    "C78_zscore_sign"
   ],
   "note": ""
  },
  {
   "property": "C79",
   "status": "partial",
   "theorems": [
    "C79_log_ratio_sign_partial",
    "C79_exclusive_collocate",
    "C79_log_ratio_sign_refuted"
   ],
   "note": "Proved when the second ratio is positive; C79_exclusive_collocate and the refutation cover collocates seen with the target only."
  },
  {
   "property": "C80",
   "status": "proved",
   "theorems": [
    "C80_entropy_bounds"
   ],
   "note": ""
  },
  {
   "property": "C81",
   "status": "partial",
   "theorems": [
    "C81_reverse_refuted",
    "C81_rank_one"
   ],
   "note": "Refuted; C81_rank_one states what rank 1 means for both values of the flag."
  },
  {
   "property": "C82",
   "status": "partial",
   "theorems": [
    "C82_mean_partial",
    "C82_mean_refuted"
   ],
   "note": "Proved for non-negative weights that are not all zero, and zero rows; refuted for weights that cancel."
  },
  {
   "property": "C83",
   "status": "proved",
   "theorems": [
    "C83_distance",
    "C83_range",
    "C83_unknown_metric",
    "C83_no_cells"
   ],
   "note": ""
  },
  {
   "property": "C84",
   "status": "partial",
   "theorems": [
    "C84_empty_sentence_refuted"
   ],
   "note": "False: the worker that reads a file with an empty sentence dies with ValueError, and build_dependency blocks for every schedule."
  },
  {
   "property": "C85",
   "status": "partial",
   "theorems": [
    "C85_again_partial",
    "C85_again_refuted"
   ],
   "note": "False: with F files the second call counts every earlier match 1+F times (C85_again_partial gives the exact counts); witness with one file and cell 1, then 3."
  },
  {
   "property": "C86",
   "status": "partial",
   "theorems": [
    "C86_full_feature_refuted",
    "C86_full_chain"
   ],
   "note": "False when the target is node 1 and a leaf: every match has the feature #T#. For patterns where no node has two dependents the feature is proved in full; for branching patterns only examples."
  },
  {
   "property": "C87",
   "status": "proved",
   "theorems": [
    "C87_trees"
   ],
   "note": ""
  },
  {
   "property": "C88",
   "status": "proved",
   "theorems": [
    "C88_partition"
   ],
   "note": ""
  },
  {
   "property": "C89",
   "status": "partial",
   "theorems": [
    "C89_best_partial",
    "C89_empty_refuted"
   ],
   "note": "Holds if some cluster of several elements has a positive score; C89_empty_refuted: otherwise the result is an empty cluster with score 0. major_steps never passes the option on."
  },
  {
   "property": "C90",
   "status": "partial",
   "theorems": [
    "C90_best_partial",
    "C90_two_refuted"
   ],
   "note": "C90_best_partial: assuming each committee is strictly most similar to itself, the most similar free committee is taken, except that the least similar committee of all is never considered; C90_two_refuted: two committees are never merged."
  },
  {
   "property": "C91",
   "status": "partial",
   "theorems": [
    "C91_accounted_partial",
    "C91_failure_refuted",
    "C91_nothing_refuted",
    "C91_stranger_refuted"
   ],
   "note": "C91_failure_refuted: an exception in a recursion loses its elements; C91_nothing_refuted: finding no clusters is such an exception; C91_stranger_refuted: an element that is not a row of the matrices makes others be judged by no row; C57_assigned_refuted: elements assigned in step 3 are not returned. C91_accounted_partial: what a recursion returns otherwise."
  },
  {
   "property": "C92",
   "status": "proved",
   "theorems": [
    "C92_elements"
   ],
   "note": ""
  },
  {
   "property": "C93",
   "status": "partial",
   "theorems": [
    "C93_singletons_partial",
    "C93_lost_refuted",
    "C93_second_refuted"
   ],
   "note": "C93_lost_refuted and C93_second_refuted: two ways of losing an element; C93_singletons_partial characterises the singletons kept."
  },
  {
   "property": "C94",
   "status": "partial",
   "theorems": [
    "C94_rows_partial",
    "C94_order_refuted"
   ],
   "note": "C94_rows_partial gives the exact result for any order; C94_order_refuted: with another order elements are judged by other elements' rows. Equal order: C57."
  },
  {
   "property": "C95",
   "status": "partial",
   "theorems": [
    "C95_minsize_refuted",
    "C95_none_refuted",
    "C95_distance",
    "C95_minsize"
   ],
   "note": "Refuted: comparing the number of elements with the string 'median' is a TypeError for every element, and step 1 returns no clusters."
  },
  {
   "property": "C96",
   "status": "proved",
   "theorems": [
    "C96_scores",
    "C96_average"
   ],
   "note": ""
  },
  {
   "property": "C97",
   "status": "partial",
   "theorems": [
    "C97_missing_file_refuted"
   ],
   "note": "Refuted: the defaults are returned silently."
  },
  {
   "property": "C98",
   "status": "partial",
   "theorems": [
    "C98_single_partial",
    "C98_one_key_refuted",
    "C98_ignored_refuted"
   ],
   "note": "Refuted: the two keys are swapped in the constructor. Proved instead which expression is used and when the constructor fails."
  },
  {
   "property": "C99",
   "status": "partial",
   "theorems": [
    "C99_type",
    "C99_colloc",
    "C99_column",
    "C99_known",
    "C99_unknown_name",
    "C99_token_partial",
    "C99_token_format_refuted",
    "C99_unknown_column_refuted"
   ],
   "note": "Types, collocates and columns proved. The last two parts of the token format are dropped whatever they are (refuted), unknown columns give the whole line (refuted)."
  },
  {
   "property": "C100",
   "status": "partial",
   "theorems": [
    "C100_single_partial",
    "C100_left_right_refuted",
    "C100_other_machines_refuted",
    "C100_forms_refuted"
   ],
   "note": "Proved for a line-machine with mechanism 'single'; refuted for 'left-right' and for the type/colloc/token machines."
  },
  {
   "property": "C101",
   "status": "partial",
   "theorems": [
    "C101_others_partial",
    "C101_colloc_partial",
    "C101_colloc_refuted"
   ],
   "note": "Only the key colloc changes; refuted when it is absent."
  },
  {
   "property": "C102",
   "status": "partial",
   "theorems": [
    "C102_tmp_path_partial",
    "C102_output_path_refuted",
    "C102_no_path_refuted"
   ],
   "note": "Proved with tmp-path; refuted without: KeyError with neither path, ~/tmp with output-path."
  },
  {
   "property": "C103",
   "status": "partial",
   "theorems": [
    "C103_construct_refuted"
   ],
   "note": "Refuted: everything below ~/tmp is removed; proved that nothing else is. Failing removals are not modelled."
  },
  {
   "property": "C104",
   "status": "partial",
   "theorems": [
    "C104_files",
    "C104_once",
    "C104_order",
    "C104_listing_partial",
    "C104_listing_set_partial",
    "C104_listing_refuted",
    "C104_missing_refuted"
   ],
   "note": "Each file once and directory order proved; refuted that the order of files is independent of the listing, and that a missing path is an error."
  },
  {
   "property": "C105",
   "status": "partial",
   "theorems": [
    "C105_extension_partial",
    "C105_same_stem_refuted"
   ],
   "note": "Partial: equal identifiers imply different extensions; refuted in general."
  },
  {
   "property": "C106",
   "status": "partial",
   "theorems": [
    "C106_wrap_partial",
    "C106_wrap_rejects",
    "C106_wrap_counts",
    "C106_wrap_refuted"
   ],
   "note": "Proved unless the array is symmetric within numpy's tolerances and the lists differ; refuted in general. Finite rational cells."
  },
  {
   "property": "C107",
   "status": "partial",
   "theorems": [
    "C107_submatrix_cells",
    "C107_submatrix_partial",
    "C107_submatrix_fails",
    "C107_submatrix_refuted"
   ],
   "note": "Cells of a returned matrix proved in general; success proved unless the selection looks symmetric over different items or a SquareMatrix gets one list; refuted in general. SquareMatrix of one item with one list not modelled."
  },
  {
   "property": "C108",
   "status": "partial",
   "theorems": [
    "C108_todense",
    "C108_todense_partial",
    "C108_submatrix",
    "C108_transpose",
    "C108_reorder",
    "C108_reorder_outcome",
    "C108_sums",
    "C108_index",
    "C108_equal",
    "C108_multiply_partial",
    "C108_cmp_partial",
    "C108_concat",
    "C108_concat_columns",
    "C108_square_refuted",
    "C108_refuted"
   ],
   "note": "todense, submatrix, transpose, reorder, sum, indexing and equal proved; multiply without stored zeros and comparisons that zero fails; refuted for the rest. Reordering by an empty list is an IndexError for the dense matrix only; C108_reorder_outcome says when the dense one can be reordered."
  },
  {
   "property": "C109",
   "status": "partial",
   "theorems": [
    "C109_transpose_partial",
    "C109_transpose_refuted"
   ],
   "note": "Proved for every NormalMatrix; refuted for SquareMatrix, which includes tables that are only nearly symmetric."
  },
  {
   "property": "C110",
   "status": "partial",
   "theorems": [
    "C110_equal_partial",
    "C110_equal_refl",
    "C110_equal_refuted"
   ],
   "note": "Proved for integer cells of up to five digits; refuted in general (not symmetric)."
  },
  {
   "property": "C111",
   "status": "partial",
   "theorems": [
    "C111_mask_cells",
    "C111_mask_partial",
    "C111_mask_refuted"
   ],
   "note": "Cells proved; success unless the mask looks symmetric over different items; refuted in general."
  },
  {
   "property": "C112",
   "status": "partial",
   "theorems": [
    "C112_sample_partial",
    "C112_sample_distinct",
    "C112_sample_invalid",
    "C112_sample_exists",
    "C112_sample_refuted"
   ],
   "note": "Proved for whole numbers and 0 < p < 1 (exact product, no float rounding); refuted for 1.0 and for SquareMatrix."
  },
  {
   "property": "C113",
   "status": "partial",
   "theorems": [
    "C113_contexts_stored",
    "C113_contexts_partial",
    "C113_contexts_unknown",
    "C113_contexts_refuted"
   ],
   "note": "Stored columns proved; equals non-zero columns when no zero is stored; refuted with stored zeros."
  },
  {
   "property": "C114",
   "status": "proved",
   "theorems": [
    "C114_index",
    "C114_index_names",
    "C114_index_unknown",
    "C114_index_range",
    "C114_index_other"
   ],
   "note": ""
  },
  {
   "property": "C115",
   "status": "partial",
   "theorems": [
    "C115_cells_are_positions",
    "C115_nearest_refuted",
    "C115_nearest_partial"
   ],
   "note": "Cells proved to be the rightmost position; nearest refuted, and proved where the rightmost is the nearest."
  },
  {
   "property": "C116",
   "status": "partial",
   "theorems": [
    "C116_one_row_each_refuted",
    "C116_one_row_each_partial"
   ],
   "note": "Proved for distinct file ids and token formats ending in fid/lid; refuted for files with the same id."
  },
  {
   "property": "C117",
   "status": "partial",
   "theorems": [
    "C117_distance_refuted",
    "C117_distance_partial",
    "C117_with_vocabulary"
   ],
   "note": "Proved without column vocabulary; with one, positions among the kept collocates proved exactly and the distance refuted."
  },
  {
   "property": "C118",
   "status": "partial",
   "theorems": [
    "C118_outcome",
    "C118_total_refuted"
   ],
   "note": "Exact outcome proved: succeeds iff some remaining token has a collocate; refuted otherwise (ValueError)."
  },
  {
   "property": "C119",
   "status": "partial",
   "theorems": [
    "C119_sample_refuted",
    "C119_too_many_refuted",
    "C119_sample_partial"
   ],
   "note": "Proved for nodes made from a match with n not above the frequency; refuted for nodes made from strings and for larger n."
  },
  {
   "property": "C120",
   "status": "partial",
   "theorems": [
    "C120_save_load_refuted"
   ],
   "note": "Refuted for all nodes."
  },
  {
   "property": "C121",
   "status": "partial",
   "theorems": [
    "C121_variants_refuted",
    "C121_queries"
   ],
   "note": "Refuted: KeyError for every variant that is not itself a token string. Proved: the queries passed on are the variants of all concepts (C121_queries)."
  },
  {
   "property": "C122",
   "status": "partial",
   "theorems": [
    "C122_positions",
    "C122_matrix",
    "C122_readings_agree_refuted",
    "C122_readings_agree_partial"
   ],
   "note": "Exact content of make_token_colloc proved; agreement proved without repeated collocates, refuted with them."
  },
  {
   "property": "C123",
   "status": "partial",
   "theorems": [
    "C123_fit_counts_all_partial",
    "C123_fit_counts_all_refuted"
   ],
   "note": "Proved when types and collocates share their format, for all schedules; refuted otherwise."
  },
  {
   "property": "C124",
   "status": "partial",
   "theorems": [
    "C124_queries_partial",
    "C124_queries_refuted"
   ],
   "note": "Refuted: a field whose word holds a colon is dropped silently, and a line with tabs but no field of the form name:word gives a query whose default is None. Proved: exactly what each line gives, for all texts."
  },
  {
   "property": "C125",
   "status": "partial",
   "theorems": [
    "C125_word_partial",
    "C125_default_key_refuted"
   ],
   "note": "Refuted for the default value of def_key (KeyError for every dict query without the corpus). Proved for the key with which the queries were read."
  },
  {
   "property": "C126",
   "status": "partial",
   "theorems": [
    "C126_match",
    "C126_freq_refuted"
   ],
   "note": "Refuted for column 'freq', which the documentation allows: TypeError for every vocabulary with items. Proved for column 'item'."
  },
  {
   "property": "C127",
   "status": "proved",
   "theorems": [
    "C127_type_file"
   ],
   "note": ""
  },
  {
   "property": "C128",
   "status": "proved",
   "theorems": [
    "C128_json_round_trip",
    "C128_other_format"
   ],
   "note": ""
  },
  {
   "property": "C129",
   "status": "partial",
   "theorems": [
    "C129_json_detected",
    "C129_plain_partial",
    "C129_plain_refuted"
   ],
   "note": "Refuted for the plain format (cat 12 is read as cat 1 without error). Proved for json, for every cut. For the plain format it is proved that what is read is the first items of the file and at most one wrong frequency, made of the first digits of the right one; items must be savable (C22) and frequencies not negative."
  },
  {
   "property": "C130",
   "status": "partial",
   "theorems": [
    "C130_concordance_partial",
    "C130_concordance_refuted"
   ],
   "note": "Refuted when a collocate holds a space. Proved when no string is empty or holds white space; the text itself is exact for all."
  },
  {
   "property": "C131",
   "status": "partial",
   "theorems": [
    "C131_subsets_refuted",
    "C131_subsets_partial",
    "C131_negative"
   ],
   "note": "Refuted: the class WordDict does not exist, NameError for every list that is not empty. Proved under the assumption that it does."
  },
  {
   "property": "C132",
   "status": "partial",
   "theorems": [
    "C132_equal_refuted",
    "C132_attribute_refuted"
   ],
   "note": "Refuted: == with a vocabulary is None, != is always true, attributes that do not exist are None."
  },
  {
   "property": "C133",
   "status": "partial",
   "theorems": [
    "C133_parse_partial",
    "C133_edges",
    "C133_parse_refuted"
   ],
   "note": "Refuted: a blank between an arrow and a bracket, a list inside a list, the notation of the docstring. Proved for texts with any white space around labels, arrows and branches (but none between an arrow and a bracket), arrows in labels only inside brackets that are closed, and no commas inside the branches of a list."
  },
  {
   "property": "C134",
   "status": "partial",
   "theorems": [
    "C134_attrs_partial",
    "C134_attrs_refuted"
   ],
   "note": "Refuted: labels without names are an error (the docstring's notation), three attributes are split wrongly. Proved for one or two parts whose name comes before every other >."
  },
  {
   "property": "C135",
   "status": "partial",
   "theorems": [
    "C135_csv_partial",
    "C135_macro_csv_refuted"
   ],
   "note": "Refuted for MacroGraph.read_csv, which fails for every table with a row. Proved for PatternGraph and rows of the texts of C133 with the labels of C134."
  },
  {
   "property": "C136",
   "status": "partial",
   "theorems": [
    "C136_macros_partial",
    "C136_feature_refuted"
   ],
   "note": "Refuted: the documented attribute nodeID of a feature is not read. Proved with featureID for documents of the documented form, connectors of one character."
  },
  {
   "property": "C137",
   "status": "partial",
   "theorems": [
    "C137_graphml_partial",
    "C137_graphml_refuted"
   ],
   "note": "Refuted: the defaults of edges are given to nodes and to no edge; without a line that begins with </graphml it is a TypeError. Proved for the nodes of files that put every graph's end and the end of the file on a line of their own."
  },
  {
   "property": "C138",
   "status": "partial",
   "theorems": [
    "C138_labels_partial",
    "C138_tokens_refuted"
   ],
   "note": "Refuted: tokens with the same label are one node. Proved: nodes are exactly the labels, an edge between two labels has the last relation between them."
  },
  {
   "property": "C139",
   "status": "partial",
   "theorems": [
    "C139_match_refuted",
    "C139_target_feature_refuted"
   ],
   "note": "Refuted: no path with an edge is ever found, TypeError as soon as there is a neighbour; match_target_feature fails for every sentence with a label that is neither empty nor 0."
  },
  {
   "property": "C140",
   "status": "proved",
   "theorems": [
    "C140_vectors"
   ],
   "note": ""
  },
  {
   "property": "C141",
   "status": "proved",
   "theorems": [
    "C141_outcomes"
   ],
   "note": ""
  },
  {
   "property": "C142",
   "status": "proved",
   "theorems": [
    "C142_bad_tables"
   ],
   "note": ""
  },
  {
   "property": "C143",
   "status": "partial",
   "theorems": [
    "C143_weights_partial",
    "C143_column_numbers",
    "C143_labels_refuted",
    "C143_failures"
   ],
   "note": "Refuted: weights are put under the label with the same number, so columns in another order are mislabelled. Proved for equal columns and every token of a type with weights having a context (otherwise KeyError); also proved what happens for other columns, and ValueError when no context has a weight or the numbers of columns differ."
  },
  {
   "property": "C144",
   "status": "partial",
   "theorems": [
    "C144_calls",
    "C144_answers_unique",
    "C144_similarities_kept_refuted"
   ],
   "note": "Refuted: compute_distance overwrites the similarities. The rest is proved for all sequences of calls."
  },
  {
   "property": "C145",
   "status": "partial",
   "theorems": [
    "C145_name_refuted",
    "C145_name"
   ],
   "note": "Refuted: the test is the wrong way round, a given name is replaced by the last part of the path and without a name there is none. Proved exactly."
  },
  {
   "property": "C146",
   "status": "proved",
   "theorems": [
    "C146_meas_vec"
   ],
   "note": ""
  },
  {
   "property": "C147",
   "status": "proved",
   "theorems": [
    "C147_committees",
    "C147_single",
    "C147_order",
    "C147_failures"
   ],
   "note": ""
  },
  {
   "property": "C148",
   "status": "proved",
   "theorems": [
    "C148_kept",
    "C148_empty"
   ],
   "note": ""
  },
  {
   "property": "C149",
   "status": "proved",
   "theorems": [
    "C149_reverse",
    "C149_partition"
   ],
   "note": ""
  },
  {
   "property": "C150",
   "status": "partial",
   "theorems": [
    "C150_sparse",
    "C150_dense",
    "C150_none_refuted"
   ],
   "note": "Refuted only for None: None (and 0) print everything. The table is proved exactly for all limits that are not negative."
  },
  {
   "property": "C151",
   "status": "proved",
   "theorems": [
    "C151_repr",
    "C151_by_freq_unique"
   ],
   "note": ""
  },
  {
   "property": "C152",
   "status": "partial",
   "theorems": [
    "C152_read_index",
    "C152_row_items",
    "C152_row_items_general",
    "C152_read_default",
    "C152_sparse",
    "C152_sparse_default",
    "C152_round_trip_refuted"
   ],
   "note": "Refuted: with the default arguments the row items become a column 'Unnamed: 0'; a sparse matrix read with issparse=True stores NaN in every cell that was empty (TypeError with the default index_col). Proved: index_col=0 returns all columns and cells of a dense matrix, and its row items when none reads as a missing value and not all as numbers; the exact result in all other cases."
  },
  {
   "property": "C153",
   "status": "proved",
   "theorems": [
    "C153_item_ids"
   ],
   "note": ""
  },
  {
   "property": "C154",
   "status": "partial",
   "theorems": [
    "C154_drop_zero",
    "C154_zero_rows_refuted",
    "C154_never",
    "C154_describe"
   ],
   "note": "Refuted: a row of stored zeros is kept, formats other than coo are an AttributeError, TypeTokenMatrix.drop_zero_rows returns None. Proved for coo: exactly the rows (columns) without a stored cell are removed, the others renumbered in order."
  },
  {
   "property": "C155",
   "status": "partial",
   "theorems": [
    "C155_round_trip_partial",
    "C155_files",
    "C155_array_files",
    "C155_load_failures",
    "C155_listed_refuted",
    "C155_shared_refuted"
   ],
   "note": "Refuted for a listed attribute that is not an array (it becomes None) and for an object in two attributes (it is saved twice, the second time without its large arrays, which are missing after loading). Proved for trees of objects with attribute names without dots, all files writable: every attribute, file name and content exactly; which loads fail."
  },
  {
   "property": "C156",
   "status": "partial",
   "theorems": [
    "C156_attributes",
    "C156_failure_refuted",
    "C156_cycle_refuted",
    "C156_earlier_refuted"
   ],
   "note": "Refuted when a file of an object further down cannot be written (attributes that were set aside above it stay deleted), for cyclic objects (the recursion does not end), and for the file that was there before (a failed pickle leaves it cut off). Proved for all heaps: kept after success, after an object that cannot be pickled, whenever the array files are writable, and always for objects without nested ones."
  },
  {
   "property": "C157",
   "status": "partial",
   "theorems": [
    "C157_handle",
    "C157_after_name_refuted"
   ],
   "note": "Refuted after an earlier save to a file name: the lists of array names it added make load look for files under the new name. Proved for objects without these attributes."
  },
  {
   "property": "C158",
   "status": "partial",
   "theorems": [
    "C158_walks",
    "C158_chain",
    "C158_others",
    "C158_occurrences_refuted",
    "C158_root_refuted"
   ],
   "note": "Refuted: in trees nothing is recorded unless the feature is a chain that starts at the target (C158_others; C158_occurrences_refuted has an occurrence that is missed), and a head without label (node 0 of every sentence read from a corpus) is a KeyError (C158_root_refuted). Proved for all labelled graphs: the records are exactly the walks that do not step back, once each (C158_walks); in labelled trees with a chain from the target: exactly the occurrences, once each, with their labels and relations (C158_chain)."
  },
  {
   "property": "C159",
   "status": "partial",
   "theorems": [
    "C159_labels",
    "C159_gaps",
    "C159_integer",
    "C159_words_refuted",
    "C159_lines"
   ],
   "note": "Refuted for the words: without an attribute called label every node shows as ROOT (C159_words_refuted). Proved: labels in the order of the numbers when these are 0 to n-1, otherwise IndexError; one line for every node and edge of other graphs."
  },
  {
   "property": "C160",
   "status": "partial",
   "theorems": [
    "C160_marks",
    "C160_target_refuted",
    "C160_call_refuted",
    "C160_match_refuted",
    "C160_key_refuted",
    "C160_old",
    "C160_old_refuted"
   ],
   "note": "Refuted: target is a method, so no node is excluded until set_target replaces it (C160_target_refuted), after which target() is a TypeError (C160_call_refuted); a marked macro matches nothing, since the mark is taken for a constraint (C160_match_refuted, C160_key_refuted); a second feature_old on the same match is a TypeError (C160_old_refuted). Proved: the marks, and what feature_old puts into the pattern text; how that text is put together (graph.py:817-851) is not modelled."
  },
  {
   "property": "C161",
   "status": "partial",
   "theorems": [
    "C161_console",
    "C161_silent",
    "C161_file",
    "C161_no_file",
    "C161_levels",
    "C161_arguments_refuted",
    "C161_critical_refuted",
    "C161_notset_refuted",
    "C161_levels_refuted"
   ],
   "note": "C161_console, C161_silent, C161_file and C161_no_file say exactly what is written, for all histories (the files: when no handler of a user is attached while the log file is changed, see C162). C161_levels: levels up to WARNING make no difference to the files. Refuted: the message on the console has its arguments put in (C161_arguments_refuted); a critical record always looks the same (C161_critical_refuted: after a record whose arguments do not fit, the format of that record stays); lowering the level to NOTSET shows no less (C161_notset_refuted); setting the level never matters for the file (C161_levels_refuted)."
  },
  {
   "property": "C162",
   "status": "partial",
   "theorems": [
    "C162_moved",
    "C162_users",
    "C162_users_only",
    "C162_fails",
    "C162_console_lost",
    "C162_user_refuted",
    "C162_sink_refuted",
    "C162_twice_refuted"
   ],
   "note": "C162_moved, C162_users and C162_users_only: holds when no handler of a user is attached at the change. Refuted with such a handler: the old file keeps growing (C162_user_refuted), the handler of the user is lost (C162_sink_refuted), lines are written twice (C162_twice_refuted). C162_fails: after a file that cannot be opened no file is written any more; C162_console_lost: a further call with a good file silences the console for ever."
  },
  {
   "property": "C163",
   "status": "partial",
   "theorems": [
    "C163_counts",
    "C163_objects",
    "C163_defined",
    "C163_unique",
    "C163_no_rows",
    "C163_stateless_refuted",
    "C163_empty_refuted",
    "C163_forgotten_refuted",
    "C163_snapshot_refuted",
    "C163_none_refuted"
   ],
   "note": "C163_counts, C163_defined, C163_unique, C163_objects, C163_no_rows: exactly which vocabularies a call uses, for all histories. Refuted as stated: columns of an earlier call are used when none are given (C163_stateless_refuted), an empty vocabulary is taken for none (C163_empty_refuted), columns given in a call without rows are forgotten (C163_forgotten_refuted), vocabularies are shared, not copied (C163_snapshot_refuted), None also stands for missing rows (C163_none_refuted)."
  },
  {
   "property": "C164",
   "status": "partial",
   "theorems": [
    "C164_settings",
    "C164_numbers",
    "C164_items",
    "C164_token",
    "C164_missing_group",
    "C164_line",
    "C164_no_line",
    "C164_form_refuted",
    "C164_token_refuted",
    "C164_token_line_refuted"
   ],
   "note": "C164_settings, C164_numbers, C164_items, C164_token, C164_missing_group, C164_line, C164_no_line. Refuted: a Getter gives items of its own form (C164_form_refuted), tokens start with the lemma (C164_token_refuted), token_line_machine matches something (C164_token_line_refuted: always TypeError). A theorem is named refuted because the documented behaviour fails."
  },
  {
   "property": "C165",
   "status": "partial",
   "theorems": [
    "C165_content",
    "C165_parse",
    "C165_again_refuted",
    "C165_empty_refuted",
    "C165_path",
    "C165_owner",
    "C165_owner_refuted"
   ],
   "note": "C165_content, C165_parse, C165_path, C165_owner. Refuted: parsing again changes nothing (C165_again_refuted), no text gives no lines (C165_empty_refuted), the list of the caller is never changed or always shared (C165_owner_refuted)."
  },
  {
   "property": "C166",
   "status": "partial",
   "theorems": [
    "C166_sparse",
    "C166_dense",
    "C166_rows",
    "C166_todense",
    "C166_slices",
    "C166_errors",
    "C166_dimensions_refuted",
    "C166_todense_refuted"
   ],
   "note": "C166_sparse, C166_dense, C166_rows, C166_slices, C166_errors, C166_todense (cells and exceptions). Refuted: the dimensions of the result do not depend on how many rows a slice selects (C166_dimensions_refuted), and are the same after todense (C166_todense_refuted)."
  },
  {
   "property": "C167",
   "status": "partial",
   "theorems": [
    "C167_rows",
    "C167_columns",
    "C167_indexable",
    "C167_unusable",
    "C167_errors",
    "C167_sparse",
    "C167_total",
    "C167_transposed",
    "C167_reorder",
    "C167_empty_rows",
    "C167_indexable_refuted",
    "C167_mixed_refuted",
    "C167_reorder_total_refuted"
   ],
   "note": "C167_rows, C167_columns, C167_total, C167_transposed, C167_errors, C167_sparse, C167_reorder, C167_empty_rows hold. What can be done with the result: C167_indexable says when, C167_unusable what fails otherwise; refuted as stated by C167_indexable_refuted (two csr matrices, axis 1) and C167_mixed_refuted; reordering does not keep the total (C167_reorder_total_refuted)."
  },
  {
   "property": "C168",
   "status": "partial",
   "theorems": [
    "C168_own_sums",
    "C168_given",
    "C168_no_total",
    "C168_single_line",
    "C168_nothing_stored",
    "C168_unknown",
    "C168_defaults_refuted"
   ],
   "note": "C168_own_sums, C168_given, C168_no_total, C168_single_line, C168_nothing_stored, C168_unknown. Refuted as documented: nfreq, cfreq and N can be left out together (C168_defaults_refuted: TypeError for a two-by-two matrix)."
  },
  {
   "property": "C169",
   "status": "partial",
   "theorems": [
    "C169_pairwise",
    "C169_mi",
    "C169_mi_errors",
    "C169_cbc",
    "C169_cbc_refuted",
    "C169_llik_refuted",
    "C169_vectorize_refuted"
   ],
   "note": "C169_pairwise (all names but llik), C169_mi, C169_mi_errors, C169_cbc. Refuted: llik for a single table (C169_llik_refuted: NotImplementedError), CBC without measmx (C169_cbc_refuted: fails for every matrix with something stored), vectorize (C169_vectorize_refuted: never returns)."
  },
  {
   "property": "C170",
   "status": "partial",
   "theorems": [
    "C170_exact",
    "C170_built",
    "C170_root_refuted",
    "C170_feature",
    "C170_skipped",
    "C170_skipped_refuted"
   ],
   "note": "Exact when no placement puts the root of the feature on a node without label (C170_exact, C170_built from lines to matches). Refuted: such a placement is a KeyError (C170_root_refuted); a feature of one node is an AssertionError (C170_feature); a sentence that is no tree is skipped only if its nodes are numbered 0..n-1 (C170_skipped), otherwise IndexError (C170_skipped_refuted)."
  },
  {
   "property": "C171",
   "status": "partial",
   "theorems": [
    "C171_graph",
    "C171_lines",
    "C171_worded",
    "C171_cases",
    "C171_bad",
    "C171_constructor",
    "C171_feature",
    "C171_empty_refuted"
   ],
   "note": "All parts proved; a template without nodes is an AttributeError (C171_empty_refuted). Numbers are what int() accepts in ASCII."
  },
  {
   "property": "C172",
   "status": "partial",
   "theorems": [
    "C172_exact",
    "C172_same",
    "C172_others_refuted",
    "C172_root_refuted",
    "C172_unset_refuted"
   ],
   "note": "Holds for features that are chains from the target and sentences whose nodes all have labels (C172_exact, C172_same). Refuted: other features find nothing (C172_others_refuted), walking up to the artificial root is a KeyError (C172_root_refuted), so is the default target (C172_unset_refuted)."
  },
  {
   "property": "C173",
   "status": "partial",
   "theorems": [
    "C173_split",
    "C173_split_refuted",
    "C173_split_count",
    "C173_nodes",
    "C173_nodes_inverse",
    "C173_nodes_bad",
    "C173_product",
    "C173_product_refuted",
    "C173_group",
    "C173_sentence_refuted",
    "C173_sentence"
   ],
   "note": "Refuted: the sentences after the last full 100000 are written to no file (a smaller corpus gives none); the order and the distinctness that the comment of cartesian_product promises; process_sentence, judgeOut, judgeIn, judgeIn_v1 (NameError or ValueError) and outMap (AttributeError) return for no input."
  },
  {
   "property": "C174",
   "status": "partial",
   "theorems": [
    "C174_template",
    "C174_template_refuted",
    "C174_read",
    "C174_build_refuted",
    "C174_caller_refuted",
    "C174_merge",
    "C174_merge_more_refuted",
    "C174_merge_lost_refuted",
    "C174_merge_repeated_refuted",
    "C174_threads",
    "C174_threads_refuted"
   ],
   "note": "Refuted: an edge at the end of a template line is dropped; build_dep_rel and update_dep_rel_caller match nothing, because update_dep_rel and do_job_multicore do not exist (the exceptions are logged); merging the files the subprocesses write repeats every match; an unreadable file loses the results already removed; process takes as many files as it has workers and its producer blocks for ever unless the files fit into the queue. Exact outcome proved in each case."
  },
  {
   "property": "C175",
   "status": "partial",
   "theorems": [
    "C175_multiply_outcome",
    "C175_stored_zero_any_shape",
    "C175_other_items_refuted",
    "C175_other_shapes_refuted",
    "C175_dense_outcome"
   ],
   "note": "Sparse: the zeros that scipy stores in a broadcast product are not modelled, only the values. Dense matrices broadcast likewise (C175_dense_outcome). Refuted: other items raise; other shapes raise."
  },
  {
   "property": "C176",
   "status": "partial",
   "theorems": [
    "C176_same_partial",
    "C176_single",
    "C176_order_partial",
    "C176_small",
    "C176_cluster_partial",
    "C176_ties_refuted",
    "C176_ties_single_refuted",
    "C176_one_cpu_refuted"
   ],
   "note": "Missing in the partial theorems: a process with several tasks (C58 states exactly what is left then), one CPU, ties between different clusters."
  },
  {
   "property": "C177",
   "status": "partial",
   "theorems": [
    "C177_ignored",
    "C177_used",
    "C177_share",
    "C177_highest_refuted"
   ],
   "note": "The full statement for highest_score is refuted; the rest holds. C177_used spells out the calls."
  },
  {
   "property": "C178",
   "status": "partial",
   "theorems": [
    "C178_any_order",
    "C178_end",
    "C178_apart",
    "C178_workers",
    "C178_same_refuted"
   ],
   "note": "C178_same_refuted: of two calls for the same missing directory one may raise (two programs whose first handlers find ~/tmp missing). os.makedirs is modelled after os.py of CPython 3; only directories are in the file system."
  },
  {
   "property": "C179",
   "status": "partial",
   "theorems": [
    "C179_inside",
    "C179_outside",
    "C179_refuted"
   ],
   "note": "C179_refuted: a second program that constructs a handler while the first one's workers are busy makes the first one fail with FileNotFoundError. Emptying a directory is taken as one step."
  },
  {
   "property": "C180",
   "status": "partial",
   "theorems": [
    "C180_right",
    "C180_unique",
    "C180_order",
    "C180_1024_refuted"
   ],
   "note": "Exact division, as floats have it for sizes below 2^53. C180_1024_refuted: rounding up is not carried to the next unit."
  },
  {
   "property": "C181",
   "status": "partial",
   "theorems": [
    "C181_objects",
    "C181_once_refuted"
   ],
   "note": "C181_once_refuted: ItemNode has no __eq__ and no __hash__."
  },
  {
   "property": "C182",
   "status": "proved",
   "theorems": [
    "C182_ppmi",
    "C182_association",
    "C182_measures"
   ],
   "note": ""
  },
  {
   "property": "C183",
   "status": "partial",
   "theorems": [
    "C183_copies",
    "C183_association_partial",
    "C183_association_refuted"
   ],
   "note": "Exact for compute_ppmi; for compute_association equality is refuted (an expected count of exactly 1 is smoothed) and a bound of 44e-11 is proved."
  },
  {
   "property": "C184",
   "status": "proved",
   "theorems": [
    "C184_joint"
   ],
   "note": ""
  },
  {
   "property": "C185",
   "status": "partial",
   "theorems": [
    "C185_backwards_partial",
    "C185_backwards_refuted"
   ],
   "note": "Holds when no segment has 2 to max(l, r) tokens; refuted by the sentence 'a b' with spans 2, 2, because of the lost target of C05."
  },
  {
   "property": "C186",
   "status": "partial",
   "theorems": [
    "C186_vectors",
    "C186_distances",
    "C186_total_refuted"
   ],
   "note": "Total refuted: tokens with a single context word that is a column make the program end in IndexError."
  },
  {
   "property": "C187",
   "status": "partial",
   "theorems": [
    "C187_corpus_partial",
    "C187_corpus_refuted"
   ],
   "note": "Partial: segments longer than the right span (or of one line), all lines in the vocabularies, at least two context words, one format for types and collocates. Refuted for short segments: ValueError."
  },
  {
   "property": "C188",
   "status": "partial",
   "theorems": [
    "C188_nonnegative",
    "C188_sign_partial",
    "C188_plain",
    "C188_always_refuted"
   ],
   "note": "Partial: rows whose weights do not sum to 0. Refuted for negative weights: the vector changes its sign."
  },
  {
   "property": "C189",
   "status": "partial",
   "theorems": [
    "C189_exchange_partial",
    "C189_symmetric_partial",
    "C189_exchange_refuted"
   ],
   "note": "Partial: C189_exchange_partial and C189_symmetric_partial need corpora without segments of 2 to max(l, r) tokens; C189_exchange_refuted: the segment 'a b' with spans of two."
  },
  {
   "property": "C190",
   "status": "partial",
   "theorems": [
    "C190_restrict",
    "C190_scores_refuted"
   ],
   "note": "C190_restrict proves the counts in full; C190_scores_refuted shows that scores with marginals of the matrices differ."
  },
  {
   "property": "C191",
   "status": "proved",
   "theorems": [
    "C191_renamed"
   ],
   "note": "Proved in full for compute_ppmi with the marginals of the matrix."
  },
  {
   "property": "C192",
   "status": "partial",
   "theorems": [
    "C192_add_partial",
    "C192_left",
    "C192_right_partial",
    "C192_right_refuted",
    "C192_add_refuted"
   ],
   "note": "C192_left in full; C192_add_partial and C192_right_partial need corpora without segments that the right span makes short; C192_add_refuted and C192_right_refuted give the segment 'a b'."
  },
  {
   "property": "C193",
   "status": "partial",
   "theorems": [
    "C193_copy_partial",
    "C193_deepcopy_refuted",
    "C193_holders",
    "C193_empty"
   ],
   "note": "The methods of Vocab work (C193_copy_partial, C193_empty). Refuted for copy.deepcopy and pickle: __getattr__ returns None for __getstate__ and __setstate__, so both raise TypeError for every Vocab (C193_deepcopy_refuted) and for exactly the objects that hold one (C193_holders). Values without sharing and cycles."
  },
  {
   "property": "C194",
   "status": "partial",
   "theorems": [
    "C194_templates_partial",
    "C194_filter_refuted",
    "C194_file_refuted",
    "C194_job",
    "C194_sent"
   ],
   "note": "Holds for filters that hold no Vocab (C194_templates_partial, C194_job, C194_sent). Refuted: a Vocab as filter, the documented type, is a TypeError (C194_filter_refuted); no file with a row can be read and an empty list of macros counts as none (C194_file_refuted)."
  }
 ]
}