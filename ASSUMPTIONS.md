# Axioms used by each theorem (from Print Assumptions)

All of them belong to Coq's standard library:

* `ClassicalDedekindReals.sig_forall_dec`
* `ClassicalDedekindReals.sig_not_dec`
* `Classical_Prop.classic`
* `FunctionalExtensionality.functional_extensionality_dep`

| Theorem | Axioms |
|---|---|
| `C01_kernel_weights_bounded` | sig_forall_dec, sig_not_dec, classic, functional_extensionality_dep |
| `C02_coincident_weight_one` | sig_forall_dec, sig_not_dec, functional_extensionality_dep |
| `C03_nearer_weighs_no_less` | sig_forall_dec, sig_not_dec, classic, functional_extensionality_dep |
| `C03_strictly_decreasing` | sig_forall_dec, sig_not_dec, classic, functional_extensionality_dep |
| `C04_support` | sig_forall_dec, sig_not_dec, functional_extensionality_dep |
| `C05_zero_bandwidth` | sig_forall_dec, sig_not_dec, functional_extensionality_dep |
| `C06_ratio_only` | sig_forall_dec, sig_not_dec, functional_extensionality_dep |
| `C07_unknown_kernel_rejected` | sig_forall_dec, sig_not_dec, functional_extensionality_dep |
| `C08_dask_kernel_agrees` | sig_forall_dec, sig_not_dec, functional_extensionality_dep |
| `C09_integer_count_is_kth_nearest` | sig_forall_dec, functional_extensionality_dep |
| `C09_integer_count_rejected` | sig_forall_dec, functional_extensionality_dep |
| `C10_boxcar_covers_k_neighbours` | sig_forall_dec, sig_not_dec, functional_extensionality_dep |
| `C10_k_neighbours_refuted` | sig_forall_dec, sig_not_dec, functional_extensionality_dep |
| `C10_vanishing_kernels_drop_kth` | sig_forall_dec, sig_not_dec, functional_extensionality_dep |
| `C11_fraction_is_type8_quantile` | sig_forall_dec, functional_extensionality_dep |
| `C11_fraction_monotone` | sig_forall_dec, functional_extensionality_dep |
| `C11_fraction_one_is_max` | sig_forall_dec, functional_extensionality_dep |
| `C11_fraction_rejected` | sig_forall_dec, functional_extensionality_dep |
| `C11_rowwise` | sig_forall_dec, functional_extensionality_dep |
| `C12_dask_agreement_refuted` | sig_forall_dec, functional_extensionality_dep |
| `C12_dask_float_is_ceiling_count` | sig_forall_dec, functional_extensionality_dep |
| `C12_dask_integer_agrees` | sig_forall_dec, functional_extensionality_dep |
| `C12_dask_limit_is_row_count` | sig_forall_dec, functional_extensionality_dep |
| `C12_dask_zero_count_accepted` | sig_forall_dec, functional_extensionality_dep |
| `C13_rows_stochastic_or_zero` | sig_forall_dec, sig_not_dec, classic, functional_extensionality_dep |
| `C14_product_of_dimensions` | sig_forall_dec, sig_not_dec, classic, functional_extensionality_dep |
| `C15_self_is_heaviest` | sig_forall_dec, sig_not_dec, classic, functional_extensionality_dep |
| `C16_order_of_sources` | sig_forall_dec, sig_not_dec, classic, functional_extensionality_dep |
| `C16_order_of_targets` | sig_forall_dec, sig_not_dec, classic, functional_extensionality_dep |
| `C17_distance_ratio_dask_refuted` | sig_forall_dec, sig_not_dec, functional_extensionality_dep |
| `C17_distance_ratio_refuted` | sig_forall_dec, sig_not_dec, functional_extensionality_dep |
| `C18_exactly_one_rule` | sig_forall_dec, sig_not_dec, functional_extensionality_dep |
| `C18_when_it_succeeds` | sig_forall_dec, sig_not_dec, functional_extensionality_dep |
| `C19_targets_required` | sig_forall_dec, sig_not_dec, classic, functional_extensionality_dep |
| `C20_distance_args_only_truthiness` | sig_forall_dec, sig_not_dec, classic, functional_extensionality_dep |
| `C20_falsy_touches_no_file` | sig_forall_dec, sig_not_dec, classic, functional_extensionality_dep |
| `C20_metric_keywords_never_used` | sig_forall_dec, sig_not_dec, classic, functional_extensionality_dep |
| `C20_truthy_switches_to_dask` | sig_forall_dec, sig_not_dec, classic, functional_extensionality_dep |
| `C21_unit_free` | sig_forall_dec, sig_not_dec, classic, functional_extensionality_dep |
| `C21_unit_free_adaptive` | sig_forall_dec, sig_not_dec, classic, functional_extensionality_dep |
| `C22_condensed_is_upper_triangle` | sig_forall_dec, sig_not_dec, classic, functional_extensionality_dep |
| `C22_euclidean_metric` | sig_forall_dec, sig_not_dec, classic, functional_extensionality_dep |
| `C22_euclidean_rounded` | sig_forall_dec, sig_not_dec, classic, functional_extensionality_dep |
| `C22_translation_invariant` | sig_forall_dec, sig_not_dec, classic, functional_extensionality_dep |
| `C23_great_circle_is_angle` | sig_forall_dec, sig_not_dec, classic, functional_extensionality_dep |
| `C23_great_circle_matrix` | sig_forall_dec, sig_not_dec, classic, functional_extensionality_dep |
| `C23_great_circle_metric` | sig_forall_dec, sig_not_dec, classic, functional_extensionality_dep |
| `C23_longitude_period` | sig_forall_dec, sig_not_dec, classic, functional_extensionality_dep |
| `C24_different_dimension_raises` | sig_forall_dec, sig_not_dec, classic, functional_extensionality_dep |
| `C24_different_number_of_vectors_raises` | sig_forall_dec, sig_not_dec, classic, functional_extensionality_dep |
| `C24_great_circle_not_2d_raises` | sig_forall_dec, sig_not_dec, classic, functional_extensionality_dep |
| `C24_matching_coordinates_succeed` | sig_forall_dec, sig_not_dec, classic, functional_extensionality_dep |
| `C24_shapes` | sig_forall_dec, sig_not_dec, classic, functional_extensionality_dep |
| `C25_existing_file_is_returned` | none |
| `C25_overwrite_is_fresh` | none |
| `C25_stale_distances` | none |
| `C26_boolean_product` | none |
| `C26_default_two_steps` | none |
| `C27_sparse_agrees` | none |
| `C27_sparse_raises_when_empty` | none |
| `C28_second_order_csr_schedules` | none |
| `C28_second_order_schedules` | none |
| `C28_shrink_csr_schedules` | sig_forall_dec, functional_extensionality_dep |
| `C28_shrink_interleavings` | sig_forall_dec, functional_extensionality_dep |
| `C28_shrink_schedules` | sig_forall_dec, functional_extensionality_dep |
| `C29_shape_exact` | none |
| `C29_square_refuted` | none |
| `C29_square_when_reflexive` | none |
| `C30_bad_rate_raises` | sig_forall_dec, functional_extensionality_dep |
| `C30_shrink_mask` | sig_forall_dec, functional_extensionality_dep |
| `C30_shrink_rows` | sig_forall_dec, functional_extensionality_dep |
| `C30_shrink_threshold` | sig_forall_dec, functional_extensionality_dep |
| `C31_sparse_agrees` | sig_forall_dec, functional_extensionality_dep |
| `C32_callers_csr` | sig_forall_dec, functional_extensionality_dep |
| `C32_callers_matrix` | sig_forall_dec, functional_extensionality_dep |
| `C33_negative_rate_raises` | sig_forall_dec, functional_extensionality_dep |
| `C33_sampled_rows` | sig_forall_dec, functional_extensionality_dep |
| `C34_reproducible_and_reseeds` | sig_forall_dec, functional_extensionality_dep |
| `C34_reproducible_csr` | sig_forall_dec, functional_extensionality_dep |
| `C35_sparse_agrees` | sig_forall_dec, functional_extensionality_dep |
| `C36_own_target_unused` | sig_forall_dec, functional_extensionality_dep |
| `C37_locality` | sig_forall_dec, functional_extensionality_dep |
| `C38_patches_and_schedule` | sig_forall_dec, functional_extensionality_dep |
| `C38_sequential_loop` | sig_forall_dec, functional_extensionality_dep |
| `C39_jobs_agree_with_sampling_refuted` | sig_forall_dec, functional_extensionality_dep |
| `C39_jobs_agree_without_sampling` | sig_forall_dec, functional_extensionality_dep |
| `C39_sampled_jobs_misaligned` | sig_forall_dec, functional_extensionality_dep |
| `C40_attributes_aligned` | sig_forall_dec, functional_extensionality_dep |
| `C41_dense_and_sparse_agree` | sig_forall_dec, functional_extensionality_dep |
| `C41_stored_zero_lengths` | sig_forall_dec, functional_extensionality_dep |
| `C41_stored_zero_raises` | sig_forall_dec, functional_extensionality_dep |
| `C42_callers_matrix` | sig_forall_dec, functional_extensionality_dep |
| `C42_later_fit_still_leaves_out` | sig_forall_dec, functional_extensionality_dep |
| `C43_fit_without_weights` | sig_forall_dec, functional_extensionality_dep |
| `C43_invalid_data_leaves_object` | sig_forall_dec, functional_extensionality_dep |
| `C43_weights_fail` | sig_forall_dec, functional_extensionality_dep |
| `C44_convex_combination` | sig_forall_dec, sig_not_dec, classic, functional_extensionality_dep |
| `C45_weight_matrix_only_refuted` | sig_forall_dec, functional_extensionality_dep |
| `C46_batch_independence_refuted` | sig_forall_dec, sig_not_dec, classic, functional_extensionality_dep |
| `C46_single_point_has_no_neighbours` | sig_forall_dec, sig_not_dec, classic, functional_extensionality_dep |
| `C47_training_set_and_weights` | sig_forall_dec, sig_not_dec, classic, functional_extensionality_dep |
| `C48_inspection_needs_caches` | sig_forall_dec, functional_extensionality_dep |
| `C48_predict_by_fit_needs_cache` | sig_forall_dec, functional_extensionality_dep |
| `C48_predict_by_weight_needs_caches` | sig_forall_dec, functional_extensionality_dep |
| `C49_estimator_rate_refuted` | sig_forall_dec, sig_not_dec, functional_extensionality_dep |
| `C49_no_leak` | sig_forall_dec, sig_not_dec, functional_extensionality_dep |
| `C50_design_entries` | sig_forall_dec, sig_not_dec, functional_extensionality_dep |
| `C50_everything_computed` | sig_forall_dec, sig_not_dec, functional_extensionality_dep |
| `C50_leave_out_matrix` | sig_forall_dec, functional_extensionality_dep |
| `C50_missing_is_zero` | sig_forall_dec, sig_not_dec, functional_extensionality_dep |
| `C51_attribute_error` | sig_forall_dec, sig_not_dec, functional_extensionality_dep |
| `C51_leave_out_rate_required` | sig_forall_dec, sig_not_dec, functional_extensionality_dep |
| `C52_leave_local_out_irrelevant` | sig_forall_dec, sig_not_dec, functional_extensionality_dep |
| `C53_dense_sparse_identical` | sig_forall_dec, sig_not_dec, functional_extensionality_dep |
| `C53_numba_same_problems` | sig_forall_dec, sig_not_dec, functional_extensionality_dep |
| `C54_replay` | sig_forall_dec, sig_not_dec, functional_extensionality_dep |
| `C55_n_jobs_needs_n_patches` | sig_forall_dec, sig_not_dec, functional_extensionality_dep |
| `C55_sample_rate_must_keep_all` | sig_forall_dec, sig_not_dec, functional_extensionality_dep |
| `C56_residual_is_a_matrix` | sig_forall_dec, sig_not_dec, functional_extensionality_dep |
| `C57_flag_after_any_fit` | sig_forall_dec, sig_not_dec, functional_extensionality_dep |
| `C57_success_restores` | sig_forall_dec, sig_not_dec, functional_extensionality_dep |
| `C58_any_schedule` | sig_forall_dec, functional_extensionality_dep |
| `C58_batch_independent` | sig_forall_dec, functional_extensionality_dep |
| `C58_new_predictions` | sig_forall_dec, functional_extensionality_dep |
| `C58_numba_and_sparse_raise` | sig_forall_dec, functional_extensionality_dep |
| `C59_ignored_for_sparse` | sig_forall_dec, sig_not_dec, functional_extensionality_dep |
| `C59_only_base_zero` | sig_forall_dec, sig_not_dec, functional_extensionality_dep |
| `C60_minimiser` | sig_forall_dec, sig_not_dec, functional_extensionality_dep |
| `C60_total` | sig_forall_dec, sig_not_dec, functional_extensionality_dep |
| `C61_at_most_one` | sig_forall_dec, functional_extensionality_dep |
| `C61_constant_targets` | sig_forall_dec, functional_extensionality_dep |
| `C61_one_iff_exact` | sig_forall_dec, functional_extensionality_dep |
| `C61_shift_scale` | sig_forall_dec, functional_extensionality_dep |
| `C62_fit_gives_such_a_model` | sig_forall_dec, functional_extensionality_dep |
| `C62_one_feature_permuted` | sig_forall_dec, functional_extensionality_dep |
| `C62_returns` | sig_forall_dec, functional_extensionality_dep |
| `C62_zero_repeats_raise` | sig_forall_dec, functional_extensionality_dep |
| `C63_accumulates` | sig_forall_dec, functional_extensionality_dep |
| `C63_fit_does_not_reset` | sig_forall_dec, functional_extensionality_dep |
| `C63_other_number_of_features_raises` | sig_forall_dec, functional_extensionality_dep |
| `C64_depends_on_uninitialised_memory` | sig_forall_dec, functional_extensionality_dep |
| `C64_raises` | sig_forall_dec, functional_extensionality_dep |
| `C64_returns_otherwise` | sig_forall_dec, functional_extensionality_dep |
| `C64_values` | sig_forall_dec, functional_extensionality_dep |
| `C65_between_minimum_and_maximum` | sig_forall_dec, functional_extensionality_dep |
| `C65_local_pd_module` | sig_forall_dec, functional_extensionality_dep |
| `C65_weighted_mean` | sig_forall_dec, functional_extensionality_dep |
| `C65_zero_total_weight_raises` | sig_forall_dec, functional_extensionality_dep |
| `C65_zero_weight_rows_have_no_influence` | sig_forall_dec, functional_extensionality_dep |
| `C66_contract` | sig_forall_dec, functional_extensionality_dep |
| `C66_evaluates_inside_only` | sig_forall_dec, functional_extensionality_dep |
| `C66_exact_threshold` | sig_forall_dec, functional_extensionality_dep |
| `C66_terminates` | sig_forall_dec, functional_extensionality_dep |
| `C67_degenerate` | sig_forall_dec, functional_extensionality_dep |
| `C67_every_bin_is_filled` | sig_forall_dec, functional_extensionality_dep |
| `C67_quantiles` | sig_forall_dec, functional_extensionality_dep |
| `C67_raises` | sig_forall_dec, functional_extensionality_dep |
| `C68_additive_effects` | sig_forall_dec, functional_extensionality_dep |
| `C68_ignored_feature_is_flat` | sig_forall_dec, functional_extensionality_dep |
| `C68_meaning` | sig_forall_dec, functional_extensionality_dep |
| `C68_returns` | sig_forall_dec, functional_extensionality_dep |
| `C69_centred` | sig_forall_dec, functional_extensionality_dep |
| `C69_differ_by_a_constant` | sig_forall_dec, functional_extensionality_dep |
| `C70_no_weights` | sig_forall_dec, functional_extensionality_dep |
| `C70_too_few_or_constant` | sig_forall_dec, functional_extensionality_dep |
| `C71_affine_I` | sig_forall_dec, sig_not_dec, functional_extensionality_dep |
| `C71_affine_everything` | sig_forall_dec, sig_not_dec, functional_extensionality_dep |
| `C71_same_I_and_expectation` | sig_forall_dec, sig_not_dec, functional_extensionality_dep |
| `C72_local_values_sum_to_global` | sig_forall_dec, sig_not_dec, functional_extensionality_dep |
| `C73_column_scaling` | sig_forall_dec, functional_extensionality_dep |
| `C73_row_standardisation_refuted` | sig_forall_dec, functional_extensionality_dep |
| `C73_row_standardised_when_rows_have_equal_sums` | sig_forall_dec, sig_not_dec, functional_extensionality_dep |
| `C73_symmetric_weights_global` | sig_forall_dec, sig_not_dec, functional_extensionality_dep |
| `C74_equal_variances_refuted` | sig_forall_dec, sig_not_dec, functional_extensionality_dep |
| `C74_the_two_variances` | sig_forall_dec, sig_not_dec, functional_extensionality_dep |
| `C75_cluster_sampling` | sig_forall_dec, functional_extensionality_dep |
| `C76_distance_determined` | sig_forall_dec, functional_extensionality_dep |
| `C76_line_distances` | sig_forall_dec, functional_extensionality_dep |
| `C76_when_it_succeeds` | sig_forall_dec, functional_extensionality_dep |
| `C77_typical_is_medoid` | sig_forall_dec, sig_not_dec, functional_extensionality_dep |
| `C78_colour_components` | sig_forall_dec, functional_extensionality_dep |
| `C78_colour_normalisation` | sig_forall_dec, functional_extensionality_dep |
| `C78_range_margin` | sig_forall_dec, functional_extensionality_dep |
| `C78_range_margin_of_bounds` | sig_forall_dec, functional_extensionality_dep |
| `C79_directional` | sig_forall_dec, sig_not_dec, functional_extensionality_dep |
| `C79_directional_nan` | sig_forall_dec, sig_not_dec, functional_extensionality_dep |
| `C79_gaussian` | sig_forall_dec, sig_not_dec, classic, functional_extensionality_dep |
| `C79_radial` | sig_forall_dec, sig_not_dec, functional_extensionality_dep |
| `C79_sine` | sig_forall_dec, sig_not_dec, functional_extensionality_dep |
| `C79_uniform_in_bounds` | sig_forall_dec, functional_extensionality_dep |
| `C80_kernel_entrywise` | sig_forall_dec, sig_not_dec, functional_extensionality_dep |
| `C80_kernel_textbook` | sig_forall_dec, sig_not_dec, functional_extensionality_dep |
| `C81_dask_agrees_fixed_bandwidth` | sig_forall_dec, sig_not_dec, functional_extensionality_dep |
| `C81_dask_fraction_refuted` | sig_forall_dec, sig_not_dec, functional_extensionality_dep |
| `C82_single_location_raises` | sig_forall_dec, functional_extensionality_dep |
| `C82_when_fit_succeeds` | sig_forall_dec, functional_extensionality_dep |
| `C83_sampled_model_cannot_predict_by_sparse_weight` | sig_forall_dec, functional_extensionality_dep |
| `C83_sampled_model_cannot_predict_by_weight` | sig_forall_dec, functional_extensionality_dep |
| `C84_score` | sig_forall_dec, functional_extensionality_dep |
| `C85_callers_weights_shrunk` | sig_forall_dec, sig_not_dec, functional_extensionality_dep |
| `C86_matrices_of_the_model` | sig_forall_dec, sig_not_dec, functional_extensionality_dep |
| `C87_any_schedule_and_batches` | sig_forall_dec, sig_not_dec, functional_extensionality_dep |
| `C88_predict_replaces_the_model` | sig_forall_dec, functional_extensionality_dep |
| `C89_unused_feature` | sig_forall_dec, functional_extensionality_dep |
| `C90_local_ICE` | sig_forall_dec, functional_extensionality_dep |
| `C90_partial_dependence` | sig_forall_dec, functional_extensionality_dep |
| `C91_sampled_importance_raises` | sig_forall_dec, functional_extensionality_dep |
| `C91_sampled_models_raise` | sig_forall_dec, functional_extensionality_dep |
| `C92_local_importance` | sig_forall_dec, functional_extensionality_dep |
| `C93_weight_attributes` | sig_forall_dec, functional_extensionality_dep |
| `C94_global_curve` | sig_forall_dec, functional_extensionality_dep |
| `C94_mean_of_own_effects` | sig_forall_dec, functional_extensionality_dep |
| `C94_returns` | sig_forall_dec, functional_extensionality_dep |
| `C95_five_neighbours_raise` | sig_forall_dec, functional_extensionality_dep |
| `C95_global_raises` | sig_forall_dec, functional_extensionality_dep |
| `C95_local_curve_k` | sig_forall_dec, functional_extensionality_dep |
| `C95_returns_otherwise` | sig_forall_dec, functional_extensionality_dep |
| `C96_additive_effect_refuted` | sig_forall_dec, functional_extensionality_dep |
| `C96_integer_features` | sig_forall_dec, functional_extensionality_dep |
| `C97_p_is_the_lower_tail` | sig_forall_dec, sig_not_dec, functional_extensionality_dep |
| `C98_relabelling` | sig_forall_dec, sig_not_dec, functional_extensionality_dep |
| `C99_diagonal_refuted` | sig_forall_dec, sig_not_dec, functional_extensionality_dep |
| `C99_exact_randomisation_moments` | sig_forall_dec, sig_not_dec, functional_extensionality_dep |
| `C100_constant_values` | sig_forall_dec, sig_not_dec, functional_extensionality_dep |
| `C100_location_without_neighbours` | sig_forall_dec, sig_not_dec, functional_extensionality_dep |
| `C100_single_observation` | sig_forall_dec, sig_not_dec, functional_extensionality_dep |
| `C101_one_selection_method` | sig_forall_dec, functional_extensionality_dep |
| `C101_plain_sampling` | sig_forall_dec, functional_extensionality_dep |
| `C101_seeded_sampling_is_reproducible` | sig_forall_dec, functional_extensionality_dep |
| `C102_quantile_selection` | sig_forall_dec, functional_extensionality_dep |
| `C103_vertical_shifts` | sig_forall_dec, functional_extensionality_dep |
| `C103_zero_iff_parallel` | sig_forall_dec, functional_extensionality_dep |
| `C104_excess_over_the_minimum` | sig_forall_dec, functional_extensionality_dep |
| `C104_minimal_distance_refuted` | sig_forall_dec, functional_extensionality_dep |
| `C105_disjoint_lines_far_apart_refuted` | sig_forall_dec, functional_extensionality_dep |
| `C106_embedding_hover` | sig_forall_dec, functional_extensionality_dep |
| `C106_every_point_in_one_trace` | sig_forall_dec, functional_extensionality_dep |
| `C106_one_legend_entry_per_cluster` | sig_forall_dec, functional_extensionality_dep |
| `C106_scatter_hover_refuted` | sig_forall_dec, functional_extensionality_dep |
| `C106_scatter_hover_when_right` | sig_forall_dec, functional_extensionality_dep |
| `C107_importance_plot` | sig_forall_dec, functional_extensionality_dep |
| `C108_aspect_ratio` | sig_forall_dec, functional_extensionality_dep |
| `C108_degenerate_extent` | sig_forall_dec, functional_extensionality_dep |
| `C109_line_style` | sig_forall_dec, sig_not_dec, classic, functional_extensionality_dep |
| `C110_sum_of_one_refuted` | sig_forall_dec |
| `C110_wrapper_combines_per_point` | sig_forall_dec |
| `C110_wrapper_other_counts` | sig_forall_dec |
| `C111_flat_list_raises` | sig_forall_dec |
| `C111_sampled_points` | sig_forall_dec, functional_extensionality_dep |
| `C111_sampling_succeeds` | sig_forall_dec |
| `C112_exponential` | sig_forall_dec, functional_extensionality_dep |
| `C112_normal` | sig_forall_dec |
| `C112_unknown_distribution` | sig_forall_dec |
| `C112_variance_refuted` | sig_forall_dec, functional_extensionality_dep |
| `C113_bounds_overwritten` | sig_forall_dec |
| `C113_second_call_refuted` | sig_forall_dec, functional_extensionality_dep |
| `C113_tuple_raises` | sig_forall_dec |
| `C114_generated_sample` | sig_forall_dec, functional_extensionality_dep |
| `C114_reproducible_and_unusable_arguments` | sig_forall_dec, functional_extensionality_dep |
| `C114_same_coefficient_deterministic` | sig_forall_dec, functional_extensionality_dep |
| `C114_same_coefficient_refuted` | sig_forall_dec, functional_extensionality_dep |
| `C115_responses` | sig_forall_dec, sig_not_dec, classic, functional_extensionality_dep |
| `C116_always_definite_refuted` | sig_forall_dec, sig_not_dec, functional_extensionality_dep |
| `C116_random_bumps` | sig_forall_dec, sig_not_dec, functional_extensionality_dep |
| `C117_overwrite_keeps_last_dimension` | none |
| `C117_separate_files_are_right` | none |
| `C117_shared_file_returns_first_dimension` | none |
| `C118_crash_before_metadata` | sig_forall_dec |
| `C118_interrupted_write_reads_as_zero` | sig_forall_dec |
| `C118_overwrite_repairs` | sig_forall_dec |
| `C118_uninterrupted_writes` | sig_forall_dec |
| `C118_unwritten_rows_weigh_all_alike` | sig_forall_dec, sig_not_dec, classic, functional_extensionality_dep |
| `C119_diagram_points_and_line` | sig_forall_dec, functional_extensionality_dep |
| `C119_slope_is_row_sum_times_I` | sig_forall_dec, sig_not_dec, functional_extensionality_dep |
| `C120_bounded` | sig_forall_dec, sig_not_dec, classic, functional_extensionality_dep |
| `C120_coincident_weight_one` | sig_forall_dec, sig_not_dec, functional_extensionality_dep |
| `C120_nearer_weighs_no_less` | sig_forall_dec, sig_not_dec, classic, functional_extensionality_dep |
| `C121_inside_is_positive` | sig_forall_dec, sig_not_dec, classic, functional_extensionality_dep |
| `C121_outside_is_zero` | sig_forall_dec, sig_not_dec, functional_extensionality_dep |
| `C121_smooth_kernels_positive_refuted` | sig_forall_dec, sig_not_dec, classic, functional_extensionality_dep |
| `C121_zero_bandwidth` | sig_forall_dec, sig_not_dec, functional_extensionality_dep |
| `C122_binary64_accuracy` | sig_forall_dec, sig_not_dec, classic, functional_extensionality_dep |
| `C122_kernel_weights_representable` | sig_forall_dec, sig_not_dec, functional_extensionality_dep |
| `C122_normalised_row` | sig_forall_dec, functional_extensionality_dep |
| `C122_product_of_dimensions` | sig_forall_dec, functional_extensionality_dep |
| `C122_row_sum_error` | sig_forall_dec, functional_extensionality_dep |
| `C123_dask_kernel_agrees_with_rounding` | sig_forall_dec, sig_not_dec, functional_extensionality_dep |
| `C124_weighted_sum_any_backend` | sig_forall_dec, sig_not_dec, classic, functional_extensionality_dep |
| `C125_backends_predict_alike_refuted` | sig_forall_dec, sig_not_dec, classic, functional_extensionality_dep |
| `C125_fit_prediction_from_dask_weights` | sig_forall_dec, sig_not_dec, classic, functional_extensionality_dep |
| `C125_more_new_points_raise` | sig_forall_dec, sig_not_dec, classic, functional_extensionality_dep |
| `C126_fit_from_coordinates` | sig_forall_dec, sig_not_dec, classic, functional_extensionality_dep |
| `C127_order_of_observations` | sig_forall_dec, functional_extensionality_dep |
| `C127_order_of_observations_from_coordinates` | sig_forall_dec, sig_not_dec, classic, functional_extensionality_dep |
| `C128_scaled_and_translated_coordinates` | sig_forall_dec, sig_not_dec, classic, functional_extensionality_dep |
| `C128_units_of_distance` | sig_forall_dec, sig_not_dec, classic, functional_extensionality_dep |
| `C128_weights_with_unit_per_dimension` | sig_forall_dec, sig_not_dec, functional_extensionality_dep |
| `C129_midpoint_has_effect_refuted` | sig_forall_dec |
| `C129_stacking_call_accepted` | sig_forall_dec |
| `C129_stacking_stores_arguments` | sig_forall_dec |
| `C129_unknown_keyword_reported_refuted` | sig_forall_dec |
| `C129_weight_model_call_accepted` | none |
| `C129_weight_model_stores_arguments` | none |
| `C130_sklearn_workflow_refuted` | sig_forall_dec |
| `C130_stacking_estimator` | sig_forall_dec |
| `C131_arrays_accepted` | sig_forall_dec, functional_extensionality_dep |
| `C131_fit_takes_array_likes_refuted` | sig_forall_dec, functional_extensionality_dep |
| `C131_lists_accepted` | sig_forall_dec, sig_not_dec, functional_extensionality_dep |
| `C131_nested_models_refuted` | sig_forall_dec, functional_extensionality_dep |
| `C132_readme_sample` | sig_forall_dec, sig_not_dec, classic, functional_extensionality_dep |
| `C132_responses` | sig_forall_dec, sig_not_dec, functional_extensionality_dep |
| `C132_same_seed_same_surface_refuted` | sig_forall_dec, functional_extensionality_dep |
| `C132_strong_surface` | sig_forall_dec, sig_not_dec, classic, functional_extensionality_dep |
| `C132_two_features_raise` | sig_forall_dec, functional_extensionality_dep |
| `C133_interaction` | sig_forall_dec, functional_extensionality_dep |
| `C133_manual_surface` | sig_forall_dec, sig_not_dec, classic, functional_extensionality_dep |
| `C133_random_surface` | sig_forall_dec, sig_not_dec, classic, functional_extensionality_dep |
| `C133_too_few_coefficients_raise` | sig_forall_dec, sig_not_dec, functional_extensionality_dep |
| `C133_two_features` | sig_forall_dec, functional_extensionality_dep |
| `C134_fit_succeeds_iff` | sig_forall_dec, sig_not_dec, functional_extensionality_dep |
| `C134_learners_that_need_data` | sig_forall_dec, sig_not_dec, functional_extensionality_dep |
| `C134_numba_ridge` | sig_forall_dec, sig_not_dec, functional_extensionality_dep |
| `C135_sparse_iff_dense` | sig_forall_dec, sig_not_dec, functional_extensionality_dep |
| `C135_sparse_needs_last` | sig_forall_dec, sig_not_dec, functional_extensionality_dep |
| `C135_storage_matters_refuted` | sig_forall_dec, sig_not_dec, functional_extensionality_dep |
| `C136_leaving_everything_out_fails` | sig_forall_dec, sig_not_dec, functional_extensionality_dep |
| `C137_every_estimator_reproduces` | sig_forall_dec, sig_not_dec, functional_extensionality_dep |
| `C137_fit_from_coordinates` | sig_forall_dec, sig_not_dec, classic, functional_extensionality_dep |
| `C137_storage_does_not_matter` | sig_forall_dec, sig_not_dec, functional_extensionality_dep |
| `C137_weights_from_coordinates` | sig_forall_dec, sig_not_dec, classic, functional_extensionality_dep |
| `C138_predictable_alone_refuted` | sig_forall_dec, sig_not_dec, classic, functional_extensionality_dep |
| `C138_prediction_returns_iff` | sig_forall_dec, functional_extensionality_dep |
| `C139_float_data` | sig_forall_dec, functional_extensionality_dep |
| `C139_integer_data_refuted` | sig_forall_dec, functional_extensionality_dep |
| `C139_integer_data_steps` | sig_forall_dec, functional_extensionality_dep |
| `C140_local_ICE_raises_on_large_data` | sig_forall_dec, functional_extensionality_dep |
| `C140_local_ICE_returns` | sig_forall_dec, functional_extensionality_dep |
| `C140_partial_dependence_raises_on_large_data` | sig_forall_dec, functional_extensionality_dep |
| `C141_affine_targets` | sig_forall_dec, sig_not_dec, functional_extensionality_dep |
| `C141_moved_features` | sig_forall_dec, sig_not_dec, functional_extensionality_dep |
| `C141_order_is_irrelevant` | sig_forall_dec, sig_not_dec, functional_extensionality_dep |
| `C141_other_units_refuted` | sig_forall_dec, sig_not_dec, functional_extensionality_dep |
| `C141_scaled_weights_and_alpha` | sig_forall_dec, sig_not_dec, functional_extensionality_dep |
| `C141_weights_count_repetitions` | sig_forall_dec, sig_not_dec, functional_extensionality_dep |
| `C141_zero_weight_is_ignored` | sig_forall_dec, sig_not_dec, functional_extensionality_dep |
| `C142_stronger_penalty_shrinks` | sig_forall_dec, sig_not_dec, functional_extensionality_dep |
| `C142_weighted_errors_cancel` | sig_forall_dec, sig_not_dec, functional_extensionality_dep |
| `C143_every_cluster_is_shown` | sig_forall_dec, functional_extensionality_dep |
| `C143_figure_shows_the_sample` | sig_forall_dec, functional_extensionality_dep |
| `C143_generator_is_reset` | sig_forall_dec, functional_extensionality_dep |
| `C143_same_observations_in_all_features` | sig_forall_dec, functional_extensionality_dep |
| `C144_one_colour_per_cluster` | sig_forall_dec, functional_extensionality_dep |
| `C144_one_colour_with_quantiles_refuted` | sig_forall_dec, functional_extensionality_dep |
| `C144_single_cluster_is_invisible` | sig_forall_dec, functional_extensionality_dep |
| `C145_column_times_need_labels` | sig_forall_dec, functional_extensionality_dep |
| `C145_compound_plot` | sig_forall_dec, functional_extensionality_dep |
| `C145_flat_times_rejected` | sig_forall_dec, functional_extensionality_dep |
| `C146_aspect_scaling` | sig_forall_dec, functional_extensionality_dep |
| `C146_camera_on_a_cylinder` | sig_forall_dec, sig_not_dec, functional_extensionality_dep |
| `C146_pitch_is_elevation_refuted` | sig_forall_dec, sig_not_dec, classic, functional_extensionality_dep |
| `C147_surfaces_below_their_slice` | sig_forall_dec, functional_extensionality_dep |
| `C147_surfaces_between_slices` | sig_forall_dec, functional_extensionality_dep |
| `C147_surfaces_between_uneven_slices_refuted` | sig_forall_dec, functional_extensionality_dep |
| `C148_distances_are_used` | sig_forall_dec, functional_extensionality_dep |
| `C148_embedding_and_labels` | sig_forall_dec, functional_extensionality_dep |
| `C148_features_are_independent` | sig_forall_dec, functional_extensionality_dep |
| `C149_new_points` | sig_forall_dec, functional_extensionality_dep |
| `C149_one_step_refuted` | sig_forall_dec, sig_not_dec, functional_extensionality_dep |
| `C149_two_steps` | sig_forall_dec, sig_not_dec, functional_extensionality_dep |
| `C150_fit` | sig_forall_dec, functional_extensionality_dep |
| `C150_predict_by_fit` | sig_forall_dec, functional_extensionality_dep |
| `C150_predict_by_weight` | sig_forall_dec, functional_extensionality_dep |
| `C151_penalty_in_square_units` | sig_forall_dec, sig_not_dec, functional_extensionality_dep |
| `C151_same_penalty_refuted` | sig_forall_dec, sig_not_dec, functional_extensionality_dep |
| `C152_entries` | sig_forall_dec, sig_not_dec, classic, functional_extensionality_dep |
| `C152_nearer_weighs_no_less` | sig_forall_dec, sig_not_dec, classic, functional_extensionality_dep |
| `C152_outside_is_zero` | sig_forall_dec, sig_not_dec, classic, functional_extensionality_dep |
| `C152_row_sums` | sig_forall_dec, sig_not_dec, classic, functional_extensionality_dep |
| `C152_single_precision` | sig_forall_dec, sig_not_dec, classic, functional_extensionality_dep |
| `C153_coincident_positive` | sig_forall_dec, sig_not_dec, classic, functional_extensionality_dep |
| `C153_nearest_neighbours` | sig_forall_dec, sig_not_dec, classic, functional_extensionality_dep |
| `C153_several_dimensions_refuted` | sig_forall_dec, sig_not_dec, classic, functional_extensionality_dep |
| `C153_support_is_exact` | sig_forall_dec, sig_not_dec, classic, functional_extensionality_dep |
| `C154_same_outcome` | sig_forall_dec, sig_not_dec, functional_extensionality_dep |
| `C154_same_program` | sig_forall_dec, sig_not_dec, functional_extensionality_dep |
| `C155_reads_keep_the_model` | sig_forall_dec, functional_extensionality_dep |
| `C155_refit_is_fit` | sig_forall_dec, functional_extensionality_dep |
| `C155_same_answers` | sig_forall_dec, functional_extensionality_dep |
| `C156_failed_refit_mixes_models` | sig_forall_dec, functional_extensionality_dep |
| `C156_failed_refit_refuted` | sig_forall_dec, sig_not_dec, classic, functional_extensionality_dep |
| `C156_predictions_after_failed_refit` | sig_forall_dec, functional_extensionality_dep |
| `C157_fit_reads_the_arrays_once` | sig_forall_dec, functional_extensionality_dep |
| `C157_left_out_weights_kept` | sig_forall_dec, functional_extensionality_dep |
| `C157_predict_by_fit_reads_the_callers_arrays` | sig_forall_dec, functional_extensionality_dep |
| `C157_predict_by_fit_refuted` | sig_forall_dec, sig_not_dec, classic, functional_extensionality_dep |
| `C157_predict_by_weight_kept` | sig_forall_dec, functional_extensionality_dep |
| `C157_results_belong_to_the_model` | sig_forall_dec, functional_extensionality_dep |
| `C157_weights_kept` | sig_forall_dec, functional_extensionality_dep |
| `C157_weights_refuted` | sig_forall_dec, sig_not_dec, classic, functional_extensionality_dep |
| `C158_compound_per_feature` | sig_forall_dec, functional_extensionality_dep |
| `C158_embedding_plot` | sig_forall_dec, functional_extensionality_dep |
| `C158_embedding_plot_succeeds` | sig_forall_dec, functional_extensionality_dep |
| `C158_labels_per_feature` | sig_forall_dec, functional_extensionality_dep |
| `C158_scatter_plot` | sig_forall_dec, functional_extensionality_dep |
| `C159_scatter_of_values` | sig_forall_dec, functional_extensionality_dep |
| `C160_exact_data` | sig_forall_dec, functional_extensionality_dep |
| `C160_few_neighbours_refuted` | sig_forall_dec, functional_extensionality_dep |
| `C160_predict_by_fit` | sig_forall_dec, sig_not_dec, classic, functional_extensionality_dep |
| `C160_predict_by_weight` | sig_forall_dec, sig_not_dec, classic, functional_extensionality_dep |
| `C160_relation_of_the_neighbourhood` | sig_forall_dec, functional_extensionality_dep |
| `C161_attributes_of_the_fit_refuted` | sig_forall_dec, sig_not_dec, functional_extensionality_dep |
| `C161_failed_fit_sets_cache_estimator` | sig_forall_dec, sig_not_dec, functional_extensionality_dep |
| `C161_predict_forgets` | sig_forall_dec, functional_extensionality_dep |
| `C161_refit_is_fit` | sig_forall_dec, sig_not_dec, functional_extensionality_dep |
| `C162_constant_neighbourhood` | sig_forall_dec, sig_not_dec, functional_extensionality_dep |
| `C162_exact_learners_refuted` | sig_forall_dec, sig_not_dec, functional_extensionality_dep |
| `C162_new_points` | sig_forall_dec, sig_not_dec, functional_extensionality_dep |
| `C162_unanimous_learners` | sig_forall_dec, sig_not_dec, functional_extensionality_dep |
| `C163_far_observations` | sig_forall_dec, sig_not_dec, classic, functional_extensionality_dep |
| `C163_fraction_refuted` | sig_forall_dec, sig_not_dec, classic, functional_extensionality_dep |
| `C163_given_weights` | sig_forall_dec, functional_extensionality_dep |
| `C163_weights` | sig_forall_dec, sig_not_dec, functional_extensionality_dep |
| `C164_leave_out_is_omission` | sig_forall_dec, functional_extensionality_dep |
| `C164_prediction_with_given_weights` | sig_forall_dec, functional_extensionality_dep |
| `C165_every_fit_thins` | sig_forall_dec, sig_not_dec, functional_extensionality_dep |
| `C165_number_of_fits` | sig_forall_dec, sig_not_dec, functional_extensionality_dep |
| `C165_rate_one` | sig_forall_dec, functional_extensionality_dep |
| `C165_repeatable_refuted` | sig_forall_dec, sig_not_dec, functional_extensionality_dep |
| `C166_kernel_error` | sig_forall_dec, sig_not_dec, classic, functional_extensionality_dep |
| `C166_new_location_refuted` | sig_forall_dec, sig_not_dec, classic, functional_extensionality_dep |
| `C166_number_formats` | sig_forall_dec, sig_not_dec, classic, functional_extensionality_dep |
| `C166_weight_error` | sig_forall_dec, sig_not_dec, classic, functional_extensionality_dep |
| `C167_array_keeps_its_values_refuted` | sig_forall_dec |
| `C167_computed_distances_are_fixed` | sig_forall_dec |
| `C167_deleted_file_reads_as_zero` | sig_forall_dec |
| `C167_evaluated_at_once` | sig_forall_dec |
| `C167_lazy_reads_of_a_file_being_overwritten` | sig_forall_dec |
| `C168_global_ALE_increasing` | sig_forall_dec, functional_extensionality_dep |
| `C168_increasing` | sig_forall_dec, functional_extensionality_dep |
| `C168_interaction` | sig_forall_dec, functional_extensionality_dep |
| `C168_interaction_line` | sig_forall_dec, functional_extensionality_dep |
| `C168_interaction_line_refuted` | sig_forall_dec, functional_extensionality_dep |
| `C168_linear_in_the_model` | sig_forall_dec, functional_extensionality_dep |
| `C168_local_ALE_increasing` | sig_forall_dec, functional_extensionality_dep |
| `C168_order_of_the_observations` | sig_forall_dec, functional_extensionality_dep |
| `C168_scale_of_the_weights` | sig_forall_dec, functional_extensionality_dep |
| `C168_steepness` | sig_forall_dec, functional_extensionality_dep |
| `C169_one_small_neighbourhood` | sig_forall_dec, functional_extensionality_dep |
| `C169_readme_model_can_be_inspected_refuted` | sig_forall_dec, functional_extensionality_dep |
| `C169_snippet_is_local_ALE` | sig_forall_dec, functional_extensionality_dep |
| `C169_snippet_returns` | sig_forall_dec, functional_extensionality_dep |
| `C170_bars_are_a_density_refuted` | sig_forall_dec, functional_extensionality_dep |
| `C170_close_to_true_value` | sig_forall_dec, functional_extensionality_dep |
| `C170_figure` | sig_forall_dec, functional_extensionality_dep |
| `C170_figure_drawn` | sig_forall_dec, functional_extensionality_dep |
| `C170_perfect_model_on_true_line_refuted` | sig_forall_dec, functional_extensionality_dep |
| `C170_shifted` | sig_forall_dec, functional_extensionality_dep |
| `C170_true_value` | sig_forall_dec, sig_not_dec, classic, functional_extensionality_dep |
| `C171_curve_of_a_linear_stack` | sig_forall_dec, functional_extensionality_dep |
| `C171_given_weights_cannot_be_inspected_locally` | sig_forall_dec, sig_not_dec, functional_extensionality_dep |
| `C171_importance_is_shifted` | sig_forall_dec, sig_not_dec, functional_extensionality_dep |
| `C171_unused_feature` | sig_forall_dec, sig_not_dec, functional_extensionality_dep |
| `C171_unused_feature_is_unimportant_refuted` | sig_forall_dec, sig_not_dec, functional_extensionality_dep |
| `C171_what_is_inspected` | sig_forall_dec, sig_not_dec, functional_extensionality_dep |
| `C172_constant_feature` | sig_forall_dec, functional_extensionality_dep |
| `C172_exact_estimator` | sig_forall_dec, functional_extensionality_dep |
| `C172_exact_linear_estimator` | sig_forall_dec, functional_extensionality_dep |
| `C172_mean_drops` | sig_forall_dec, functional_extensionality_dep |
| `C172_not_negative_refuted` | sig_forall_dec, functional_extensionality_dep |
| `C172_one_neighbour` | sig_forall_dec, functional_extensionality_dep |
| `C172_scale_of_weights` | sig_forall_dec, functional_extensionality_dep |
| `C172_succeeds` | sig_forall_dec, functional_extensionality_dep |
| `C172_units_of_response` | sig_forall_dec, functional_extensionality_dep |
| `C172_unused_by_stacking` | sig_forall_dec, sig_not_dec, functional_extensionality_dep |
| `C172_unused_feature` | sig_forall_dec, functional_extensionality_dep |
| `C173_additive` | sig_forall_dec, functional_extensionality_dep |
| `C173_grid` | sig_forall_dec, functional_extensionality_dep |
| `C173_grid_shape` | sig_forall_dec, functional_extensionality_dep |
| `C173_interaction` | sig_forall_dec, functional_extensionality_dep |
| `C173_large_raises` | sig_forall_dec, functional_extensionality_dep |
| `C173_own_prediction` | sig_forall_dec, functional_extensionality_dep |
| `C173_partial_dependence` | sig_forall_dec, functional_extensionality_dep |
| `C173_rises` | sig_forall_dec, functional_extensionality_dep |
| `C173_same_grid` | sig_forall_dec, functional_extensionality_dep |
| `C173_skewed_raises` | sig_forall_dec, functional_extensionality_dep |
| `C173_span_refuted` | sig_forall_dec, functional_extensionality_dep |
| `C173_steepness` | sig_forall_dec, functional_extensionality_dep |
| `C174_curves` | sig_forall_dec, functional_extensionality_dep |
| `C174_curves_refuted` | sig_forall_dec, functional_extensionality_dep |
| `C174_fit` | sig_forall_dec, functional_extensionality_dep |
| `C174_grid` | sig_forall_dec, functional_extensionality_dep |
| `C174_linear` | sig_forall_dec, functional_extensionality_dep |
| `C174_linear_refuted` | sig_forall_dec, functional_extensionality_dep |
| `C174_predict_by_fit` | sig_forall_dec, functional_extensionality_dep |
| `C174_predict_by_weight` | sig_forall_dec, functional_extensionality_dep |
| `C175_in_sample` | sig_forall_dec, functional_extensionality_dep |
| `C175_residuals` | sig_forall_dec, functional_extensionality_dep |
| `C175_saturated` | sig_forall_dec, functional_extensionality_dep |
| `C175_score` | sig_forall_dec, functional_extensionality_dep |
| `C175_score_refuted` | sig_forall_dec, functional_extensionality_dep |
| `C176_everything` | sig_forall_dec, sig_not_dec, functional_extensionality_dep |
| `C176_flat` | sig_forall_dec, sig_not_dec, classic, functional_extensionality_dep |
| `C176_keeps_working` | sig_forall_dec, sig_not_dec, classic, functional_extensionality_dep |
| `C176_kernel` | sig_forall_dec, sig_not_dec, classic, functional_extensionality_dep |
| `C176_neighbours` | sig_forall_dec, sig_not_dec, classic, functional_extensionality_dep |
| `C176_training_sets` | sig_forall_dec, sig_not_dec, classic, functional_extensionality_dep |
| `C177_at_least` | sig_forall_dec, sig_not_dec, functional_extensionality_dep |
| `C177_enough` | sig_forall_dec, sig_not_dec, functional_extensionality_dep |
| `C177_isolated_refuted` | sig_forall_dec, sig_not_dec, classic, functional_extensionality_dep |
| `C178_leak` | sig_forall_dec, functional_extensionality_dep |
| `C178_same_place` | sig_forall_dec, sig_not_dec, classic, functional_extensionality_dep |
| `C179_objective_refuted` | sig_forall_dec |
| `C179_residuals_refuted` | none |
| `C179_tuning_refuted` | sig_forall_dec |
| `C180_colours` | sig_forall_dec, sig_not_dec, classic, functional_extensionality_dep |
| `C180_one_line_per_cluster` | sig_forall_dec, sig_not_dec, classic, functional_extensionality_dep |
| `C180_only_clusters_refuted` | sig_forall_dec, sig_not_dec, classic, functional_extensionality_dep |
| `C180_same_style_in_all_features` | sig_forall_dec, sig_not_dec, classic, functional_extensionality_dep |
| `C181_between_one` | sig_forall_dec, sig_not_dec, functional_extensionality_dep |
| `C181_bound` | sig_forall_dec, sig_not_dec, functional_extensionality_dep |
| `C181_expectation_refuted` | sig_forall_dec, sig_not_dec, functional_extensionality_dep |
| `C181_mean_with_own_weights` | sig_forall_dec, sig_not_dec, functional_extensionality_dep |
| `C181_range_refuted` | sig_forall_dec, sig_not_dec, functional_extensionality_dep |
| `C182_all_equal` | sig_forall_dec, functional_extensionality_dep |
| `C182_maps_of_the_example` | sig_forall_dec, functional_extensionality_dep |
| `C182_one_feature` | sig_forall_dec, functional_extensionality_dep |
| `C182_one_location_blanks_the_map_refuted` | sig_forall_dec, functional_extensionality_dep |
| `C182_scaling_by_location_refuted` | sig_forall_dec, functional_extensionality_dep |
| `C182_scaling_together` | sig_forall_dec, functional_extensionality_dep |
| `C182_square` | sig_forall_dec, functional_extensionality_dep |
| `C182_square_range_refuted` | sig_forall_dec, functional_extensionality_dep |
| `C183_failure_refuted` | sig_forall_dec, functional_extensionality_dep |
| `C183_label_refuted` | sig_forall_dec, functional_extensionality_dep |
| `C183_label_scores` | none |
| `C183_leaving_out_a_model_refuted` | sig_forall_dec, functional_extensionality_dep |
| `C183_lines` | sig_forall_dec, functional_extensionality_dep |
| `C184_ALE` | sig_forall_dec, functional_extensionality_dep |
| `C184_global_importance_refuted` | sig_forall_dec, functional_extensionality_dep |
| `C184_local_ICE` | sig_forall_dec, functional_extensionality_dep |
| `C184_local_importance` | sig_forall_dec, functional_extensionality_dep |
| `C184_partial_dependence` | sig_forall_dec, functional_extensionality_dep |
| `C185_exponential` | sig_forall_dec, sig_not_dec, classic, functional_extensionality_dep |
| `C185_flat_kernels` | sig_forall_dec, sig_not_dec, classic, functional_extensionality_dep |
| `C185_gaussian` | sig_forall_dec, sig_not_dec, classic, functional_extensionality_dep |
| `C185_powers` | sig_forall_dec, sig_not_dec, classic, functional_extensionality_dep |
| `C185_sharper` | sig_forall_dec, functional_extensionality_dep |
| `C185_success` | sig_forall_dec, sig_not_dec, functional_extensionality_dep |
| `C185_unchanged_refuted` | sig_forall_dec, sig_not_dec, classic, functional_extensionality_dep |
| `C186_failure_refuted` | sig_forall_dec, sig_not_dec, functional_extensionality_dep |
| `C186_line` | sig_forall_dec, sig_not_dec, functional_extensionality_dep |
| `C186_sampling_refuted` | sig_forall_dec, sig_not_dec, functional_extensionality_dep |
| `C186_spread` | sig_forall_dec, functional_extensionality_dep |
| `C186_time_refuted` | sig_forall_dec, sig_not_dec, functional_extensionality_dep |
| `C187_local_mean_refuted` | sig_forall_dec, functional_extensionality_dep |
| `C187_mean_refuted` | sig_forall_dec, functional_extensionality_dep |
| `C187_same_as_local_models` | sig_forall_dec, functional_extensionality_dep |
| `C187_score` | sig_forall_dec, functional_extensionality_dep |
| `C188_calls` | none |
| `C188_calls_refuted` | none |
| `C188_failure_refuted` | sig_forall_dec, functional_extensionality_dep |
| `C188_line` | sig_forall_dec, functional_extensionality_dep |
| `C188_no_partial_line` | sig_forall_dec, functional_extensionality_dep |
| `C188_test_data_refuted` | sig_forall_dec, functional_extensionality_dep |
| `C189_fit` | sig_forall_dec, functional_extensionality_dep |
| `C189_predict_by_fit` | sig_forall_dec, sig_not_dec, classic, functional_extensionality_dep |
| `C189_predict_by_weight_refuted` | sig_forall_dec, sig_not_dec, classic, functional_extensionality_dep |
| `C189_stacking_refuted` | sig_forall_dec, sig_not_dec, functional_extensionality_dep |
| `C190_fit` | sig_forall_dec, functional_extensionality_dep |
| `C190_predict_by_weight_refuted` | sig_forall_dec, functional_extensionality_dep |
| `C190_same_penalty_refuted` | sig_forall_dec, sig_not_dec, functional_extensionality_dep |
| `C190_stacking` | sig_forall_dec, sig_not_dec, functional_extensionality_dep |
| `C191_batch_refuted` | sig_forall_dec, sig_not_dec, classic, functional_extensionality_dep |
| `C191_far_point_refuted` | sig_forall_dec, sig_not_dec, classic, functional_extensionality_dep |
| `C191_fixed_bandwidths_iff` | sig_forall_dec, sig_not_dec, classic, functional_extensionality_dep |
| `C191_one_point_refuted` | sig_forall_dec, sig_not_dec, classic, functional_extensionality_dep |
| `C191_unlimited_kernels` | sig_forall_dec, sig_not_dec, classic, functional_extensionality_dep |
| `C192_adaptive_refuted` | sig_forall_dec, sig_not_dec, functional_extensionality_dep |
| `C192_bandwidths` | sig_forall_dec, functional_extensionality_dep |
| `C192_boxcar_refuted` | sig_forall_dec, sig_not_dec, functional_extensionality_dep |
| `C192_coordinates` | sig_forall_dec, sig_not_dec, classic, functional_extensionality_dep |
| `C192_kernels` | sig_forall_dec, sig_not_dec, classic, functional_extensionality_dep |
| `C192_weight_matrix` | sig_forall_dec, sig_not_dec, classic, functional_extensionality_dep |
| `C193_mean` | sig_forall_dec, functional_extensionality_dep |
| `C193_mean_equal_rows` | sig_forall_dec, functional_extensionality_dep |
| `C193_mean_refuted` | sig_forall_dec, functional_extensionality_dep |
| `C193_quadrants` | sig_forall_dec, functional_extensionality_dep |
| `C193_quadrants_refuted` | sig_forall_dec, functional_extensionality_dep |
| `C193_size` | sig_forall_dec, functional_extensionality_dep |
| `C193_size_attained_refuted` | sig_forall_dec, functional_extensionality_dep |
| `C194_exponential` | sig_forall_dec, sig_not_dec, classic, functional_extensionality_dep |
| `C194_gaussian` | sig_forall_dec, sig_not_dec, classic, functional_extensionality_dep |
| `C194_gaussian_coordinates` | sig_forall_dec, sig_not_dec, classic, functional_extensionality_dep |
| `C194_neighbours_kept` | sig_forall_dec, sig_not_dec, classic, functional_extensionality_dep |
| `C194_same_neighbours_refuted` | sig_forall_dec, sig_not_dec, classic, functional_extensionality_dep |
| `C195_balance` | sig_forall_dec, sig_not_dec, classic, functional_extensionality_dep |
| `C195_coordinates` | sig_forall_dec, sig_not_dec, classic, functional_extensionality_dep |
| `C195_count_refuted` | sig_forall_dec, sig_not_dec, classic, functional_extensionality_dep |
| `C195_cycle` | sig_forall_dec, sig_not_dec, classic, functional_extensionality_dep |
| `C195_mean_kept` | sig_forall_dec, sig_not_dec, classic, functional_extensionality_dep |
| `C195_mutual` | sig_forall_dec, sig_not_dec, classic, functional_extensionality_dep |
| `C195_symmetric_refuted` | sig_forall_dec, sig_not_dec, classic, functional_extensionality_dep |
| `C196_by_weight_refuted` | sig_forall_dec, sig_not_dec, classic, functional_extensionality_dep |
| `C196_same_predictions_refuted` | sig_forall_dec, sig_not_dec, classic, functional_extensionality_dep |
| `C196_symmetric_weights` | sig_forall_dec, sig_not_dec, classic, functional_extensionality_dep |
| `C196_unweighted_learner` | sig_forall_dec, sig_not_dec, classic, functional_extensionality_dep |
