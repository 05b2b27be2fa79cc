C168_own_sums | ClassicalDedekindReals.sig_not_dec, ClassicalDedekindReals.sig_forall_dec, FunctionalExtensionality.functional_extensionality_dep, Classical_Prop.classic
C168_given | ClassicalDedekindReals.sig_not_dec, ClassicalDedekindReals.sig_forall_dec, FunctionalExtensionality.functional_extensionality_dep, Classical_Prop.classic
C168_no_total | ClassicalDedekindReals.sig_not_dec, ClassicalDedekindReals.sig_forall_dec, FunctionalExtensionality.functional_extensionality_dep, Classical_Prop.classic
C168_single_line | ClassicalDedekindReals.sig_not_dec, ClassicalDedekindReals.sig_forall_dec, FunctionalExtensionality.functional_extensionality_dep, Classical_Prop.classic
C168_nothing_stored | ClassicalDedekindReals.sig_not_dec, ClassicalDedekindReals.sig_forall_dec, FunctionalExtensionality.functional_extensionality_dep, Classical_Prop.classic
C168_unknown | ClassicalDedekindReals.sig_not_dec, ClassicalDedekindReals.sig_forall_dec, FunctionalExtensionality.functional_extensionality_dep, Classical_Prop.classic
C168_defaults_refuted | ClassicalDedekindReals.sig_not_dec, ClassicalDedekindReals.sig_forall_dec, FunctionalExtensionality.functional_extensionality_dep, Classical_Prop.classic
C169_pairwise | ClassicalDedekindReals.sig_not_dec, ClassicalDedekindReals.sig_forall_dec, FunctionalExtensionality.functional_extensionality_dep, Classical_Prop.classic
C169_mi | ClassicalDedekindReals.sig_not_dec, ClassicalDedekindReals.sig_forall_dec, FunctionalExtensionality.functional_extensionality_dep, Classical_Prop.classic
C169_mi_errors | ClassicalDedekindReals.sig_not_dec, ClassicalDedekindReals.sig_forall_dec, FunctionalExtensionality.functional_extensionality_dep, Classical_Prop.classic
C169_cbc | ClassicalDedekindReals.sig_not_dec, ClassicalDedekindReals.sig_forall_dec, FunctionalExtensionality.functional_extensionality_dep, Classical_Prop.classic
C169_cbc_refuted | ClassicalDedekindReals.sig_not_dec, ClassicalDedekindReals.sig_forall_dec, FunctionalExtensionality.functional_extensionality_dep, Classical_Prop.classic
C169_llik_refuted | ClassicalDedekindReals.sig_not_dec, ClassicalDedekindReals.sig_forall_dec, FunctionalExtensionality.functional_extensionality_dep, Classical_Prop.classic
C169_vectorize_refuted | closed
C170_exact | closed
C170_built | closed
C170_root_refuted | closed
C170_feature | closed
C170_skipped | closed
C170_skipped_refuted | closed
C171_graph | closed
C171_lines | closed
C171_worded | closed
C171_cases | closed
C171_bad | closed
C171_constructor | closed
C171_feature | closed
C171_empty_refuted | closed
C172_exact | closed
C172_same | closed
C172_others_refuted | closed
C172_root_refuted | closed
C172_unset_refuted | closed
C35_table_sums | ClassicalDedekindReals.sig_forall_dec
C35_reference_matrix | ClassicalDedekindReals.sig_not_dec, ClassicalDedekindReals.sig_forall_dec, FunctionalExtensionality.functional_extensionality_dep, Classical_Prop.classic
C36_scores | ClassicalDedekindReals.sig_not_dec, ClassicalDedekindReals.sig_forall_dec, FunctionalExtensionality.functional_extensionality_dep, Classical_Prop.classic
C36_textbook | ClassicalDedekindReals.sig_not_dec, ClassicalDedekindReals.sig_forall_dec, FunctionalExtensionality.functional_extensionality_dep, Classical_Prop.classic
C36_failing_table | ClassicalDedekindReals.sig_not_dec, ClassicalDedekindReals.sig_forall_dec, FunctionalExtensionality.functional_extensionality_dep, Classical_Prop.classic
C36_unknown_measure | ClassicalDedekindReals.sig_not_dec, ClassicalDedekindReals.sig_forall_dec, FunctionalExtensionality.functional_extensionality_dep, Classical_Prop.classic
C36_missing_marginal | ClassicalDedekindReals.sig_not_dec, ClassicalDedekindReals.sig_forall_dec, FunctionalExtensionality.functional_extensionality_dep, Classical_Prop.classic
C36_vocabulary_order | ClassicalDedekindReals.sig_not_dec, ClassicalDedekindReals.sig_forall_dec, FunctionalExtensionality.functional_extensionality_dep, Classical_Prop.classic
C37_ppmi_values | ClassicalDedekindReals.sig_not_dec, ClassicalDedekindReals.sig_forall_dec, FunctionalExtensionality.functional_extensionality_dep, Classical_Prop.classic
C37_ppmi_sign | ClassicalDedekindReals.sig_not_dec, ClassicalDedekindReals.sig_forall_dec, FunctionalExtensionality.functional_extensionality_dep, Classical_Prop.classic
C77_no_row_marginals | closed
C77_one_column | ClassicalDedekindReals.sig_not_dec, ClassicalDedekindReals.sig_forall_dec, FunctionalExtensionality.functional_extensionality_dep, Classical_Prop.classic
C77_ppmi_defaults_refuted | ClassicalDedekindReals.sig_not_dec, ClassicalDedekindReals.sig_forall_dec, FunctionalExtensionality.functional_extensionality_dep, Classical_Prop.classic
C38_ppmi_agree | ClassicalDedekindReals.sig_not_dec, ClassicalDedekindReals.sig_forall_dec, FunctionalExtensionality.functional_extensionality_dep, Classical_Prop.classic
C38_pmi_agree_partial | ClassicalDedekindReals.sig_not_dec, ClassicalDedekindReals.sig_forall_dec, FunctionalExtensionality.functional_extensionality_dep, Classical_Prop.classic
C38_pmi_of_zero_refuted | ClassicalDedekindReals.sig_not_dec, ClassicalDedekindReals.sig_forall_dec, FunctionalExtensionality.functional_extensionality_dep, Classical_Prop.classic
C39_dice | ClassicalDedekindReals.sig_forall_dec, FunctionalExtensionality.functional_extensionality_dep
C39_delta_p | ClassicalDedekindReals.sig_forall_dec, FunctionalExtensionality.functional_extensionality_dep
C39_delta_p_coll | ClassicalDedekindReals.sig_forall_dec, FunctionalExtensionality.functional_extensionality_dep
C39_chi_square | ClassicalDedekindReals.sig_forall_dec, FunctionalExtensionality.functional_extensionality_dep
C39_log_likelihood | ClassicalDedekindReals.sig_not_dec, ClassicalDedekindReals.sig_forall_dec, FunctionalExtensionality.functional_extensionality_dep, Classical_Prop.classic
C39_G2 | ClassicalDedekindReals.sig_not_dec, ClassicalDedekindReals.sig_forall_dec, FunctionalExtensionality.functional_extensionality_dep, Classical_Prop.classic
C39_log_likelihood_nonneg_partial | ClassicalDedekindReals.sig_not_dec, ClassicalDedekindReals.sig_forall_dec, FunctionalExtensionality.functional_extensionality_dep, Classical_Prop.classic
C39_log_likelihood_nonneg_refuted | ClassicalDedekindReals.sig_not_dec, ClassicalDedekindReals.sig_forall_dec, FunctionalExtensionality.functional_extensionality_dep, Classical_Prop.classic
C39_dice_matrix | ClassicalDedekindReals.sig_not_dec, ClassicalDedekindReals.sig_forall_dec, FunctionalExtensionality.functional_extensionality_dep, Classical_Prop.classic
C40_symmetric | ClassicalDedekindReals.sig_not_dec, ClassicalDedekindReals.sig_forall_dec, FunctionalExtensionality.functional_extensionality_dep, Classical_Prop.classic
C40_value | ClassicalDedekindReals.sig_not_dec, ClassicalDedekindReals.sig_forall_dec, FunctionalExtensionality.functional_extensionality_dep, Classical_Prop.classic
C40_increasing_partial | ClassicalDedekindReals.sig_not_dec, ClassicalDedekindReals.sig_forall_dec, FunctionalExtensionality.functional_extensionality_dep, Classical_Prop.classic
C40_increasing_refuted | ClassicalDedekindReals.sig_not_dec, ClassicalDedekindReals.sig_forall_dec, FunctionalExtensionality.functional_extensionality_dep, Classical_Prop.classic
C78_zscore_sign | ClassicalDedekindReals.sig_not_dec, ClassicalDedekindReals.sig_forall_dec, FunctionalExtensionality.functional_extensionality_dep
C79_log_ratio_sign_partial | ClassicalDedekindReals.sig_not_dec, ClassicalDedekindReals.sig_forall_dec, FunctionalExtensionality.functional_extensionality_dep, Classical_Prop.classic
C79_exclusive_collocate | ClassicalDedekindReals.sig_not_dec, ClassicalDedekindReals.sig_forall_dec, FunctionalExtensionality.functional_extensionality_dep, Classical_Prop.classic
C79_log_ratio_sign_refuted | ClassicalDedekindReals.sig_not_dec, ClassicalDedekindReals.sig_forall_dec, FunctionalExtensionality.functional_extensionality_dep, Classical_Prop.classic
C80_entropy_bounds | ClassicalDedekindReals.sig_not_dec, ClassicalDedekindReals.sig_forall_dec, FunctionalExtensionality.functional_extensionality_dep, Classical_Prop.classic
C41_ranks | ClassicalDedekindReals.sig_forall_dec, FunctionalExtensionality.functional_extensionality_dep
C41_always_answers | ClassicalDedekindReals.sig_forall_dec, FunctionalExtensionality.functional_extensionality_dep
C81_reverse_refuted | ClassicalDedekindReals.sig_forall_dec, FunctionalExtensionality.functional_extensionality_dep
C81_rank_one | ClassicalDedekindReals.sig_forall_dec, FunctionalExtensionality.functional_extensionality_dep
C42_cosine | ClassicalDedekindReals.sig_not_dec, ClassicalDedekindReals.sig_forall_dec, FunctionalExtensionality.functional_extensionality_dep
C42_symmetric_bounded | ClassicalDedekindReals.sig_not_dec, ClassicalDedekindReals.sig_forall_dec, FunctionalExtensionality.functional_extensionality_dep
C42_scaling | ClassicalDedekindReals.sig_not_dec, ClassicalDedekindReals.sig_forall_dec, FunctionalExtensionality.functional_extensionality_dep
C42_one | ClassicalDedekindReals.sig_not_dec, ClassicalDedekindReals.sig_forall_dec, FunctionalExtensionality.functional_extensionality_dep
C42_axis | ClassicalDedekindReals.sig_not_dec, ClassicalDedekindReals.sig_forall_dec, FunctionalExtensionality.functional_extensionality_dep
C42_no_cells | ClassicalDedekindReals.sig_not_dec, ClassicalDedekindReals.sig_forall_dec, FunctionalExtensionality.functional_extensionality_dep
C83_distance | ClassicalDedekindReals.sig_not_dec, ClassicalDedekindReals.sig_forall_dec, FunctionalExtensionality.functional_extensionality_dep
C83_range | ClassicalDedekindReals.sig_not_dec, ClassicalDedekindReals.sig_forall_dec, FunctionalExtensionality.functional_extensionality_dep
C83_unknown_metric | ClassicalDedekindReals.sig_not_dec, ClassicalDedekindReals.sig_forall_dec, FunctionalExtensionality.functional_extensionality_dep
C83_no_cells | ClassicalDedekindReals.sig_not_dec, ClassicalDedekindReals.sig_forall_dec, FunctionalExtensionality.functional_extensionality_dep
C43_weights_partial | ClassicalDedekindReals.sig_forall_dec, FunctionalExtensionality.functional_extensionality_dep
C43_lemma_only | ClassicalDedekindReals.sig_forall_dec, FunctionalExtensionality.functional_extensionality_dep
C43_columns_differ | ClassicalDedekindReals.sig_forall_dec, FunctionalExtensionality.functional_extensionality_dep
C43_own_type_refuted | ClassicalDedekindReals.sig_forall_dec, FunctionalExtensionality.functional_extensionality_dep
C44_addition | ClassicalDedekindReals.sig_not_dec, ClassicalDedekindReals.sig_forall_dec, FunctionalExtensionality.functional_extensionality_dep
C44_row_order | ClassicalDedekindReals.sig_not_dec, ClassicalDedekindReals.sig_forall_dec, FunctionalExtensionality.functional_extensionality_dep
C44_l1_unit | ClassicalDedekindReals.sig_not_dec, ClassicalDedekindReals.sig_forall_dec, FunctionalExtensionality.functional_extensionality_dep
C44_no_cells | ClassicalDedekindReals.sig_not_dec, ClassicalDedekindReals.sig_forall_dec, FunctionalExtensionality.functional_extensionality_dep
C44_mismatch | ClassicalDedekindReals.sig_not_dec, ClassicalDedekindReals.sig_forall_dec, FunctionalExtensionality.functional_extensionality_dep
C44_unknown_operation | ClassicalDedekindReals.sig_not_dec, ClassicalDedekindReals.sig_forall_dec, FunctionalExtensionality.functional_extensionality_dep
C44_unknown_normalization | ClassicalDedekindReals.sig_not_dec, ClassicalDedekindReals.sig_forall_dec, FunctionalExtensionality.functional_extensionality_dep
C44_csc | ClassicalDedekindReals.sig_not_dec, ClassicalDedekindReals.sig_forall_dec, FunctionalExtensionality.functional_extensionality_dep
C45_all_or_nothing | ClassicalDedekindReals.sig_not_dec, ClassicalDedekindReals.sig_forall_dec, FunctionalExtensionality.functional_extensionality_dep
C45_products_refuted | ClassicalDedekindReals.sig_not_dec, ClassicalDedekindReals.sig_forall_dec, FunctionalExtensionality.functional_extensionality_dep
C82_mean_partial | ClassicalDedekindReals.sig_not_dec, ClassicalDedekindReals.sig_forall_dec, FunctionalExtensionality.functional_extensionality_dep
C82_mean_refuted | ClassicalDedekindReals.sig_not_dec, ClassicalDedekindReals.sig_forall_dec, FunctionalExtensionality.functional_extensionality_dep
C167_rows | closed
C167_columns | closed
C167_indexable | closed
C167_unusable | closed
C167_errors | closed
C167_sparse | closed
C167_total | closed
C167_transposed | closed
C167_reorder | closed
C167_empty_rows | closed
C167_indexable_refuted | closed
C167_mixed_refuted | closed
C167_reorder_total_refuted | closed
C58_exact | closed
C58_same_iff | closed
C176_same_partial | closed
C176_single | closed
C176_order_partial | closed
C176_small | closed
C176_cluster_partial | closed
C176_ties_refuted | closed
C176_ties_single_refuted | closed
C176_one_cpu_refuted | closed
C177_ignored | closed
C177_used | closed
C177_share | closed
C177_highest_refuted | closed
C53_bijection | closed
C53_items | closed
C53_layout | closed
C54_partition | closed
C54_step2 | closed
C55_antichain | closed
C55_sound | closed
C55_covers_partial | closed
C55_covers_refuted | closed
C56_shrinks_partial | closed
C56_shrinks_refuted | closed
C56_limit | closed
C56_step | closed
C57_residues_partial | closed
C57_total | closed
C57_argmax | closed
C57_assigned_refuted | closed
C58_same_partial | closed
C58_sound | closed
C58_tasks | closed
C58_reused_refuted | closed
C58_one_cpu_refuted | closed
C88_partition | closed
C89_best_partial | closed
C89_empty_refuted | closed
C90_best_partial | closed
C90_two_refuted | closed
C91_accounted_partial | closed
C91_failure_refuted | closed
C91_nothing_refuted | closed
C91_stranger_refuted | closed
C92_elements | closed
C93_singletons_partial | closed
C93_lost_refuted | closed
C93_second_refuted | closed
C94_rows_partial | closed
C94_order_refuted | closed
C95_minsize_refuted | closed
C95_none_refuted | closed
C95_distance | closed
C95_minsize | closed
C96_scores | closed
C96_average | closed
C146_meas_vec | ClassicalDedekindReals.sig_not_dec, ClassicalDedekindReals.sig_forall_dec, FunctionalExtensionality.functional_extensionality_dep, Classical_Prop.classic
C147_committees | ClassicalDedekindReals.sig_not_dec, ClassicalDedekindReals.sig_forall_dec, FunctionalExtensionality.functional_extensionality_dep, Classical_Prop.classic
C147_single | ClassicalDedekindReals.sig_not_dec, ClassicalDedekindReals.sig_forall_dec, FunctionalExtensionality.functional_extensionality_dep, Classical_Prop.classic
C147_order | ClassicalDedekindReals.sig_not_dec, ClassicalDedekindReals.sig_forall_dec, FunctionalExtensionality.functional_extensionality_dep, Classical_Prop.classic
C147_failures | ClassicalDedekindReals.sig_not_dec, ClassicalDedekindReals.sig_forall_dec, FunctionalExtensionality.functional_extensionality_dep, Classical_Prop.classic
C148_kept | ClassicalDedekindReals.sig_not_dec, ClassicalDedekindReals.sig_forall_dec, FunctionalExtensionality.functional_extensionality_dep, Classical_Prop.classic
C148_empty | closed
C149_reverse | closed
C149_partition | closed
C59_override | closed
C59_succeeds | closed
C59_fails | closed
C59_default_section_refuted | closed
C97_missing_file_refuted | closed
C98_single_partial | closed
C98_one_key_refuted | closed
C98_ignored_refuted | closed
C99_type | closed
C99_colloc | closed
C99_column | closed
C99_known | closed
C99_unknown_name | closed
C99_token_partial | closed
C99_token_format_refuted | closed
C99_unknown_column_refuted | closed
C100_single_partial | closed
C100_left_right_refuted | closed
C100_other_machines_refuted | closed
C100_forms_refuted | closed
C101_others_partial | closed
C101_colloc_partial | closed
C101_colloc_refuted | closed
C60_read_fnames | closed
C60_functional | closed
C60_prepare_refuted | closed
C60_prepare_other | closed
C104_files | closed
C104_once | closed
C104_order | closed
C104_listing_partial | closed
C104_listing_set_partial | closed
C104_listing_refuted | closed
C104_missing_refuted | closed
C105_extension_partial | closed
C105_same_stem_refuted | closed
C102_tmp_path_partial | closed
C102_output_path_refuted | closed
C102_no_path_refuted | closed
C103_construct_refuted | closed
C01_item_frequencies | closed
C03_window_contents | closed
C04_cooccurrence_counts_refuted | closed
C04_cooccurrence_counts_partial | closed
C04_never_overcounts_partial | closed
C05_processed_targets | closed
C06_symmetry_refuted | closed
C06_symmetry_partial | closed
C07_separators_isolate | closed
C07_other_lines_ignored | closed
C08_vocab_filter_restricts | closed
C09_row_total_bound | closed
C11_tokens_exact | closed
C11_each_occurrence_once | closed
C14_token_reading_total_refuted | closed
C14_fails_exactly_when_partial | closed
C14_otherwise_succeeds_partial | closed
C193_copy_partial | closed
C193_deepcopy_refuted | closed
C193_holders | closed
C193_empty | closed
C194_templates_partial | closed
C194_filter_refuted | closed
C194_file_refuted | closed
C194_job | closed
C194_sent | closed
C106_wrap_partial | closed
C106_wrap_rejects | closed
C106_wrap_counts | closed
C106_wrap_refuted | closed
C107_submatrix_cells | closed
C107_submatrix_partial | closed
C107_submatrix_fails | closed
C107_submatrix_refuted | closed
C108_todense | closed
C108_todense_partial | closed
C108_submatrix | closed
C108_transpose | closed
C108_reorder | closed
C108_reorder_outcome | closed
C108_sums | closed
C108_index | closed
C108_equal | closed
C108_multiply_partial | closed
C108_cmp_partial | closed
C108_concat | closed
C108_concat_columns | closed
C108_square_refuted | closed
C108_refuted | closed
C109_transpose_partial | closed
C109_transpose_refuted | closed
C110_equal_partial | closed
C110_equal_refl | closed
C110_equal_refuted | closed
C111_mask_cells | closed
C111_mask_partial | closed
C111_mask_refuted | closed
C112_sample_partial | closed
C112_sample_distinct | closed
C112_sample_invalid | closed
C112_sample_exists | closed
C112_sample_refuted | closed
C113_contexts_stored | closed
C113_contexts_partial | closed
C113_contexts_unknown | closed
C113_contexts_refuted | closed
C114_index | closed
C114_index_names | closed
C114_index_unknown | closed
C114_index_range | closed
C114_index_other | closed
C46_sound | closed
C46_returns | closed
C46_sentence_graphs | closed
C47_complete_partial | closed
C47_unconstrained_refuted | closed
C48_once | closed
C49_cells | closed
C49_built | closed
C49_terminates | closed
C49_schedule_independent | closed
C49_file | closed
C49_corpus | closed
C50_filter_partial | closed
C50_label_partial | closed
C50_label_refuted | closed
C50_none_refuted | closed
C51_lines | closed
C51_groups | closed
C52_exact_partial | closed
C52_connected_partial | closed
C52_trees | closed
C52_circle_refuted | closed
C52_star_refuted | closed
C52_zero_refuted | closed
C52_single_refuted | closed
C84_empty_sentence_refuted | closed
C85_again_partial | closed
C85_again_refuted | closed
C86_full_feature_refuted | closed
C86_full_chain | closed
C87_trees | closed
C173_split | closed
C173_split_refuted | closed
C173_split_count | closed
C173_nodes | closed
C173_nodes_inverse | closed
C173_nodes_bad | closed
C173_product | closed
C173_product_refuted | closed
C173_group | closed
C173_sentence_refuted | closed
C173_sentence | closed
C174_template | closed
C174_template_refuted | closed
C174_read | closed
C174_build_refuted | closed
C174_caller_refuted | closed
C174_merge | closed
C174_merge_more_refuted | closed
C174_merge_lost_refuted | closed
C174_merge_repeated_refuted | closed
C174_threads | closed
C174_threads_refuted | closed
C182_ppmi | ClassicalDedekindReals.sig_not_dec, ClassicalDedekindReals.sig_forall_dec, FunctionalExtensionality.functional_extensionality_dep, Classical_Prop.classic
C182_association | ClassicalDedekindReals.sig_not_dec, ClassicalDedekindReals.sig_forall_dec, FunctionalExtensionality.functional_extensionality_dep, Classical_Prop.classic
C182_measures | ClassicalDedekindReals.sig_not_dec, ClassicalDedekindReals.sig_forall_dec, FunctionalExtensionality.functional_extensionality_dep, Classical_Prop.classic
C183_copies | ClassicalDedekindReals.sig_not_dec, ClassicalDedekindReals.sig_forall_dec, FunctionalExtensionality.functional_extensionality_dep, Classical_Prop.classic
C183_association_partial | ClassicalDedekindReals.sig_not_dec, ClassicalDedekindReals.sig_forall_dec, FunctionalExtensionality.functional_extensionality_dep, Classical_Prop.classic
C183_association_refuted | ClassicalDedekindReals.sig_not_dec, ClassicalDedekindReals.sig_forall_dec, FunctionalExtensionality.functional_extensionality_dep, Classical_Prop.classic
C184_joint | closed
C185_backwards_partial | closed
C185_backwards_refuted | closed
C164_settings | closed
C164_numbers | closed
C164_items | closed
C164_token | closed
C164_missing_group | closed
C164_line | closed
C164_no_line | closed
C164_form_refuted | closed
C164_token_refuted | closed
C164_token_line_refuted | closed
C165_content | closed
C165_parse | closed
C165_again_refuted | closed
C165_empty_refuted | closed
C165_path | closed
C165_owner | closed
C165_owner_refuted | closed
C158_walks | closed
C158_chain | closed
C158_others | closed
C158_occurrences_refuted | closed
C158_root_refuted | closed
C159_labels | closed
C159_gaps | closed
C159_integer | closed
C159_words_refuted | closed
C159_lines | closed
C160_marks | closed
C160_target_refuted | closed
C160_call_refuted | closed
C160_match_refuted | closed
C160_key_refuted | closed
C160_old | closed
C160_old_refuted | closed
C163_counts | closed
C163_objects | closed
C163_defined | closed
C163_unique | closed
C163_no_rows | closed
C163_stateless_refuted | closed
C163_empty_refuted | closed
C163_forgotten_refuted | closed
C163_snapshot_refuted | closed
C163_none_refuted | closed
C166_sparse | closed
C166_dense | closed
C166_rows | closed
C166_todense | closed
C166_slices | closed
C166_errors | closed
C166_dimensions_refuted | closed
C166_todense_refuted | closed
C161_console | closed
C161_silent | closed
C161_file | closed
C161_no_file | closed
C161_levels | closed
C161_arguments_refuted | closed
C161_critical_refuted | closed
C161_notset_refuted | closed
C161_levels_refuted | closed
C162_moved | closed
C162_users | closed
C162_users_only | closed
C162_fails | closed
C162_console_lost | closed
C162_user_refuted | closed
C162_sink_refuted | closed
C162_twice_refuted | closed
C175_multiply_outcome | closed
C175_stored_zero_any_shape | closed
C175_other_items_refuted | closed
C175_other_shapes_refuted | closed
C175_dense_outcome | closed
C32_load_save_partial | closed
C32_load_save_transposed | closed
C32_transposed_refuted | closed
C32_stale_file_refuted | closed
C32_unpacked_pac_name_refuted | closed
C33_crash_packed_partial | closed
C33_crash_unpacked_refuted | closed
C33_crash_packed_refuted | closed
C73_save_others_partial | closed
C73_load_others_partial | closed
C73_save_others_refuted | closed
C73_load_others_refuted | closed
C74_renamed_refuted | closed
C74_renamed_another_refuted | closed
C74_moved_partial | closed
C24_dict_matrix_dict | closed
C24_value_is_indexing | closed
C25_submatrix_cells | closed
C25_submatrix_values | closed
C25_submatrix_none | closed
C26_reorder | closed
C26_reorder_unknown | closed
C26_transpose | closed
C27_merge_two_adds | closed
C27_merge_two_commutes | closed
C27_merge_two_associates | closed
C67_different_rows_refused | closed
C67_merge_any_rows_refuted | closed
C67_merge_any_storage_refuted | closed
C28_merge_matrices_adds | closed
C28_merge_method_adds | closed
C66_empty_dict_refused | closed
C66_empty_dict_refuted | closed
C66_merge_of_zeros_refused | closed
C66_merge_of_zeros_refuted | closed
C29_drop_rows | closed
C29_drop_columns | closed
C29_drop_single_fails | closed
C69_drop_empty_rows | closed
C69_drop_empty_columns | closed
C69_documented_refuted | closed
C69_all_columns_empty_refuted | closed
C30_multiply_cells_partial | closed
C30_comparison_mask | closed
C30_comparison_dense_partial | closed
C30_multiply_by_mask | closed
C30_multiply_cells_refuted | closed
C30_multiply_by_item_refuted | closed
C30_comparison_dense_refuted | closed
C30_comparison_zero_raises | closed
C31_sums | closed
C31_totals | closed
C31_single_fails | closed
C34_most_similar | closed
C34_unknown_item | closed
C70_exactly_k_refuted | closed
C70_exactly_k_partial | closed
C68_equal_sound | closed
C68_equal_complete_partial | closed
C68_equal_complete_refuted | closed
C71_concatenate | closed
C72_one_number_type | closed
C72_mixed_number_types_refuted | closed
C72_boolean_indices_refuted | closed
C10_terminates | closed
C10_counts | closed
C10_schedule_independent | closed
C75_survivors | closed
C75_readable_files_refuted | closed
C76_incremented_vocab_refuted | closed
C76_incremented_col_vocab_refuted | closed
C02_executions_bounded | closed
C02_no_deadlock | closed
C02_schedule_independent | closed
C13_executions_bounded | closed
C13_items | closed
C13_complete | closed
C12_tokens_never_lost_refuted | closed
C12_tokens_never_lost_partial | closed
C63_second_call_partial | closed
C63_second_call_same_refuted | closed
C64_item_counts_never_incomplete | closed
C64_tokens_never_incomplete_refuted | closed
C65_at_least_one_worker_partial | closed
C65_always_returns_refuted | closed
C76_survivors | closed
C76_exact | closed
C133_parse_partial | closed
C133_edges | closed
C133_parse_refuted | closed
C134_attrs_partial | closed
C134_attrs_refuted | closed
C135_csv_partial | closed
C135_macro_csv_refuted | closed
C136_macros_partial | closed
C136_feature_refuted | closed
C137_graphml_partial | closed
C137_graphml_refuted | closed
C138_labels_partial | closed
C138_tokens_refuted | closed
C139_match_refuted | closed
C139_target_feature_refuted | closed
C140_vectors | ClassicalDedekindReals.sig_not_dec, ClassicalDedekindReals.sig_forall_dec, FunctionalExtensionality.functional_extensionality_dep, Classical_Prop.classic
C141_outcomes | ClassicalDedekindReals.sig_not_dec, ClassicalDedekindReals.sig_forall_dec, FunctionalExtensionality.functional_extensionality_dep, Classical_Prop.classic
C142_bad_tables | ClassicalDedekindReals.sig_not_dec, ClassicalDedekindReals.sig_forall_dec, FunctionalExtensionality.functional_extensionality_dep, Classical_Prop.classic
C143_weights_partial | ClassicalDedekindReals.sig_forall_dec, FunctionalExtensionality.functional_extensionality_dep
C143_column_numbers | ClassicalDedekindReals.sig_forall_dec, FunctionalExtensionality.functional_extensionality_dep
C143_labels_refuted | ClassicalDedekindReals.sig_forall_dec, FunctionalExtensionality.functional_extensionality_dep
C143_failures | ClassicalDedekindReals.sig_forall_dec, FunctionalExtensionality.functional_extensionality_dep
C144_calls | ClassicalDedekindReals.sig_not_dec, ClassicalDedekindReals.sig_forall_dec, FunctionalExtensionality.functional_extensionality_dep
C144_answers_unique | ClassicalDedekindReals.sig_not_dec, ClassicalDedekindReals.sig_forall_dec, FunctionalExtensionality.functional_extensionality_dep
C144_similarities_kept_refuted | ClassicalDedekindReals.sig_not_dec, ClassicalDedekindReals.sig_forall_dec, FunctionalExtensionality.functional_extensionality_dep
C145_name_refuted | closed
C145_name | closed
C124_queries_partial | closed
C124_queries_refuted | closed
C125_word_partial | closed
C125_default_key_refuted | closed
C126_match | closed
C126_freq_refuted | closed
C127_type_file | closed
C128_json_round_trip | closed
C128_other_format | closed
C129_json_detected | closed
C129_plain_partial | closed
C129_plain_refuted | closed
C130_concordance_partial | closed
C130_concordance_refuted | closed
C131_subsets_refuted | closed
C131_subsets_partial | closed
C131_negative | closed
C132_equal_refuted | closed
C132_attribute_refuted | closed
C189_exchange_partial | ClassicalDedekindReals.sig_not_dec, ClassicalDedekindReals.sig_forall_dec, FunctionalExtensionality.functional_extensionality_dep, Classical_Prop.classic
C189_symmetric_partial | ClassicalDedekindReals.sig_not_dec, ClassicalDedekindReals.sig_forall_dec, FunctionalExtensionality.functional_extensionality_dep, Classical_Prop.classic
C189_exchange_refuted | closed
C190_restrict | closed
C190_scores_refuted | ClassicalDedekindReals.sig_not_dec, ClassicalDedekindReals.sig_forall_dec, FunctionalExtensionality.functional_extensionality_dep, Classical_Prop.classic
C191_renamed | ClassicalDedekindReals.sig_not_dec, ClassicalDedekindReals.sig_forall_dec, FunctionalExtensionality.functional_extensionality_dep, Classical_Prop.classic
C192_add_partial | closed
C192_left | closed
C192_right_partial | closed
C192_right_refuted | closed
C192_add_refuted | closed
C155_round_trip_partial | closed
C155_files | closed
C155_array_files | closed
C155_load_failures | closed
C155_listed_refuted | closed
C155_shared_refuted | closed
C156_attributes | closed
C156_failure_refuted | closed
C156_cycle_refuted | closed
C156_earlier_refuted | closed
C157_handle | closed
C157_after_name_refuted | closed
C150_sparse | closed
C150_dense | closed
C150_none_refuted | closed
C151_repr | closed
C151_by_freq_unique | closed
C152_read_index | closed
C152_row_items | closed
C152_row_items_general | closed
C152_read_default | closed
C152_sparse | closed
C152_sparse_default | closed
C152_round_trip_refuted | closed
C153_item_ids | closed
C154_drop_zero | closed
C154_zero_rows_refuted | closed
C154_never | closed
C154_describe | closed
C15_merge_keeps_tokens | closed
C15_merge_raises | closed
C16_type_string_roundtrip | closed
C16_type_string_raises | closed
C16_token_string_roundtrip | closed
C16_type_attributes_roundtrip | closed
C16_type_attributes | closed
C16_type_none | closed
C16_empty_format | closed
C16_token_attributes_roundtrip | closed
C16_token_attributes | closed
C178_any_order | closed
C178_end | closed
C178_apart | closed
C178_workers | closed
C178_same_refuted | closed
C179_inside | closed
C179_outside | closed
C179_refuted | closed
C115_cells_are_positions | closed
C115_nearest_refuted | closed
C115_nearest_partial | closed
C116_one_row_each_refuted | closed
C116_one_row_each_partial | closed
C117_distance_refuted | closed
C117_distance_partial | closed
C117_with_vocabulary | closed
C118_outcome | closed
C118_total_refuted | closed
C119_sample_refuted | closed
C119_too_many_refuted | closed
C119_sample_partial | closed
C120_save_load_refuted | closed
C121_variants_refuted | closed
C121_queries | closed
C122_positions | closed
C122_matrix | closed
C122_readings_agree_refuted | closed
C122_readings_agree_partial | closed
C123_fit_counts_all_partial | closed
C123_fit_counts_all_refuted | closed
C186_vectors | ClassicalDedekindReals.sig_not_dec, ClassicalDedekindReals.sig_forall_dec, FunctionalExtensionality.functional_extensionality_dep, Classical_Prop.classic
C186_distances | ClassicalDedekindReals.sig_not_dec, ClassicalDedekindReals.sig_forall_dec, FunctionalExtensionality.functional_extensionality_dep, Classical_Prop.classic
C186_total_refuted | ClassicalDedekindReals.sig_not_dec, ClassicalDedekindReals.sig_forall_dec, FunctionalExtensionality.functional_extensionality_dep, Classical_Prop.classic
C187_corpus_partial | ClassicalDedekindReals.sig_not_dec, ClassicalDedekindReals.sig_forall_dec, FunctionalExtensionality.functional_extensionality_dep, Classical_Prop.classic
C187_corpus_refuted | ClassicalDedekindReals.sig_not_dec, ClassicalDedekindReals.sig_forall_dec, FunctionalExtensionality.functional_extensionality_dep, Classical_Prop.classic
C188_nonnegative | ClassicalDedekindReals.sig_not_dec, ClassicalDedekindReals.sig_forall_dec, FunctionalExtensionality.functional_extensionality_dep
C188_sign_partial | ClassicalDedekindReals.sig_not_dec, ClassicalDedekindReals.sig_forall_dec, FunctionalExtensionality.functional_extensionality_dep
C188_plain | ClassicalDedekindReals.sig_not_dec, ClassicalDedekindReals.sig_forall_dec, FunctionalExtensionality.functional_extensionality_dep
C188_always_refuted | ClassicalDedekindReals.sig_not_dec, ClassicalDedekindReals.sig_forall_dec, FunctionalExtensionality.functional_extensionality_dep
C180_right | closed
C180_unique | closed
C180_order | closed
C180_1024_refuted | closed
C181_objects | closed
C181_once_refuted | closed
C17_vocab_history | closed
C18_dataframe_order | closed
C18_dataframe_canonical | closed
C18_item_list_sorted | closed
C19_slice_most_frequent | closed
C19_slice_range | closed
C20_comparisons | closed
C20_tuple_is_conjunction | closed
C20_select_items | closed
C20_select_freqs | closed
C20_partition | closed
C21_subvocab | closed
C22_plain_roundtrip_refuted | closed
C22_plain_roundtrip_iff_partial | closed
C23_equal_is_map_equality | closed
C61_lookup_pure_refuted | closed
C61_lookup_pure_partial | closed
C61_lookup_inserts | closed
C62_select_items_word | closed
