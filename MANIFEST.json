{
 "claims": [
  {
   "property": "C01",
   "status": "proved",
   "theorems": [
    "C01_kernel_weights_bounded"
   ],
   "note": "Kernel weights are finite and lie in [0,1]"
  },
  {
   "property": "C02",
   "status": "proved",
   "theorems": [
    "C02_coincident_weight_one"
   ],
   "note": "A coincident point gets weight exactly 1"
  },
  {
   "property": "C03",
   "status": "proved",
   "theorems": [
    "C03_nearer_weighs_no_less",
    "C03_strictly_decreasing"
   ],
   "note": "Nearer points never weigh less"
  },
  {
   "property": "C04",
   "status": "proved",
   "theorems": [
    "C04_support"
   ],
   "note": "Compact kernels vanish exactly outside the bandwidth"
  },
  {
   "property": "C05",
   "status": "proved",
   "theorems": [
    "C05_zero_bandwidth"
   ],
   "note": "Zero bandwidth keeps only coincident points"
  },
  {
   "property": "C06",
   "status": "proved",
   "theorems": [
    "C06_ratio_only"
   ],
   "note": "Kernel weight depends only on the ratio distance/bandwidth"
  },
  {
   "property": "C07",
   "status": "proved",
   "theorems": [
    "C07_unknown_kernel_rejected"
   ],
   "note": "Unknown kernel names are rejected, known ones never"
  },
  {
   "property": "C08",
   "status": "proved",
   "theorems": [
    "C08_dask_kernel_agrees"
   ],
   "note": "The dask bisquare shortcut equals the numpy bisquare"
  },
  {
   "property": "C09",
   "status": "proved",
   "theorems": [
    "C09_integer_count_is_kth_nearest",
    "C09_integer_count_rejected"
   ],
   "note": "Integer neighbour_count gives the k-th nearest distance of each row"
  },
  {
   "property": "C10",
   "status": "proved",
   "theorems": [
    "C10_boxcar_covers_k_neighbours",
    "C10_vanishing_kernels_drop_kth",
    "C10_k_neighbours_refuted"
   ],
   "note": "How many neighbours an integer neighbour_count really yields"
  },
  {
   "property": "C11",
   "status": "proved",
   "theorems": [
    "C11_fraction_is_type8_quantile",
    "C11_fraction_monotone",
    "C11_fraction_one_is_max",
    "C11_fraction_rejected",
    "C11_rowwise"
   ],
   "note": "Fractional neighbour_count is a bounded, monotone quantile"
  },
  {
   "property": "C12",
   "status": "proved",
   "theorems": [
    "C12_dask_integer_agrees",
    "C12_dask_zero_count_accepted",
    "C12_dask_limit_is_row_count",
    "C12_dask_float_is_ceiling_count",
    "C12_dask_agreement_refuted"
   ],
   "note": "The dask adaptive path and the numpy adaptive path"
  },
  {
   "property": "C13",
   "status": "proved",
   "theorems": [
    "C13_rows_stochastic_or_zero"
   ],
   "note": "Weight matrices are row-stochastic or zero"
  },
  {
   "property": "C14",
   "status": "proved",
   "theorems": [
    "C14_product_of_dimensions"
   ],
   "note": "Several dimensions combine by product: support is the intersection"
  },
  {
   "property": "C15",
   "status": "proved",
   "theorems": [
    "C15_self_is_heaviest"
   ],
   "note": "A point is its own heaviest neighbour"
  },
  {
   "property": "C16",
   "status": "proved",
   "theorems": [
    "C16_order_of_targets",
    "C16_order_of_sources"
   ],
   "note": "Weights do not depend on the order of points"
  },
  {
   "property": "C17",
   "status": "proved",
   "theorems": [
    "C17_distance_ratio_refuted",
    "C17_distance_ratio_dask_refuted"
   ],
   "note": "distance_ratio"
  },
  {
   "property": "C18",
   "status": "proved",
   "theorems": [
    "C18_exactly_one_rule",
    "C18_when_it_succeeds"
   ],
   "note": "Choosing between bandwidth and neighbour_count"
  },
  {
   "property": "C19",
   "status": "proved",
   "theorems": [
    "C19_targets_required"
   ],
   "note": "Omitting the target coordinates"
  },
  {
   "property": "C20",
   "status": "proved",
   "theorems": [
    "C20_distance_args_only_truthiness",
    "C20_metric_keywords_never_used",
    "C20_truthy_switches_to_dask",
    "C20_falsy_touches_no_file"
   ],
   "note": "distance_args"
  },
  {
   "property": "C21",
   "status": "proved",
   "theorems": [
    "C21_unit_free",
    "C21_unit_free_adaptive"
   ],
   "note": "Unit-free weights"
  },
  {
   "property": "C22",
   "status": "proved",
   "theorems": [
    "C22_euclidean_metric",
    "C22_translation_invariant",
    "C22_euclidean_rounded",
    "C22_condensed_is_upper_triangle"
   ],
   "note": "Euclidean distance matrices are metric"
  },
  {
   "property": "C23",
   "status": "proved",
   "theorems": [
    "C23_great_circle_metric",
    "C23_great_circle_is_angle",
    "C23_longitude_period",
    "C23_great_circle_matrix"
   ],
   "note": "Great-circle distance is a metric on the sphere"
  },
  {
   "property": "C24",
   "status": "proved",
   "theorems": [
    "C24_different_number_of_vectors_raises",
    "C24_different_dimension_raises",
    "C24_great_circle_not_2d_raises",
    "C24_matching_coordinates_succeed",
    "C24_shapes"
   ],
   "note": "Mismatched coordinates are rejected"
  },
  {
   "property": "C25",
   "status": "proved",
   "theorems": [
    "C25_stale_distances",
    "C25_existing_file_is_returned",
    "C25_overwrite_is_fresh"
   ],
   "note": "The zarr distance cache can serve stale distances"
  },
  {
   "property": "C26",
   "status": "proved",
   "theorems": [
    "C26_boolean_product",
    "C26_default_two_steps"
   ],
   "note": "Second-order neighbours are the boolean product"
  },
  {
   "property": "C27",
   "status": "proved",
   "theorems": [
    "C27_sparse_agrees",
    "C27_sparse_raises_when_empty"
   ],
   "note": "Sparse and dense second-order neighbours agree"
  },
  {
   "property": "C28",
   "status": "proved",
   "theorems": [
    "C28_second_order_schedules",
    "C28_second_order_csr_schedules",
    "C28_shrink_schedules",
    "C28_shrink_csr_schedules",
    "C28_shrink_interleavings"
   ],
   "note": "Row-parallel loops give the same result under every schedule"
  },
  {
   "property": "C29",
   "status": "proved",
   "theorems": [
    "C29_square_when_reflexive",
    "C29_shape_exact",
    "C29_square_refuted"
   ],
   "note": "Shape of the sparse second-order matrix"
  },
  {
   "property": "C30",
   "status": "proved",
   "theorems": [
    "C30_shrink_rows",
    "C30_shrink_threshold",
    "C30_shrink_mask",
    "C30_bad_rate_raises"
   ],
   "note": "neighbour_shrink keeps exactly the heaviest neighbours"
  },
  {
   "property": "C31",
   "status": "proved",
   "theorems": [
    "C31_sparse_agrees"
   ],
   "note": "Sparse and dense shrinking agree"
  },
  {
   "property": "C32",
   "status": "proved",
   "theorems": [
    "C32_callers_matrix",
    "C32_callers_csr"
   ],
   "note": "neighbour_shrink and the caller's matrix"
  },
  {
   "property": "C33",
   "status": "proved",
   "theorems": [
    "C33_sampled_rows",
    "C33_negative_rate_raises"
   ],
   "note": "sample_neighbour samples the right number of real neighbours and itself"
  },
  {
   "property": "C34",
   "status": "proved",
   "theorems": [
    "C34_reproducible_and_reseeds",
    "C34_reproducible_csr"
   ],
   "note": "sample_neighbour is reproducible and resets the global generator"
  },
  {
   "property": "C35",
   "status": "proved",
   "theorems": [
    "C35_sparse_agrees"
   ],
   "note": "Sparse and dense sampling agree"
  },
  {
   "property": "C36",
   "status": "proved",
   "theorems": [
    "C36_own_target_unused"
   ],
   "note": "Leave-local-out: a local model never sees its own target value"
  },
  {
   "property": "C37",
   "status": "proved",
   "theorems": [
    "C37_locality"
   ],
   "note": "Locality: a local prediction depends only on its neighbours"
  },
  {
   "property": "C38",
   "status": "proved",
   "theorems": [
    "C38_patches_and_schedule",
    "C38_sequential_loop"
   ],
   "note": "Results do not depend on the number of patches or the schedule"
  },
  {
   "property": "C39",
   "status": "proved",
   "theorems": [
    "C39_jobs_agree_without_sampling",
    "C39_sampled_jobs_misaligned",
    "C39_jobs_agree_with_sampling_refuted"
   ],
   "note": "n_jobs and n_patches agree without location sampling, and diverge with it"
  },
  {
   "property": "C40",
   "status": "proved",
   "theorems": [
    "C40_attributes_aligned"
   ],
   "note": "Attributes of a fitted model are aligned"
  },
  {
   "property": "C41",
   "status": "proved",
   "theorems": [
    "C41_dense_and_sparse_agree",
    "C41_stored_zero_lengths",
    "C41_stored_zero_raises"
   ],
   "note": "Dense and sparse weight matrices give the same fit"
  },
  {
   "property": "C42",
   "status": "proved",
   "theorems": [
    "C42_callers_matrix",
    "C42_later_fit_still_leaves_out"
   ],
   "note": "fit and the caller's weight matrix"
  },
  {
   "property": "C43",
   "status": "proved",
   "theorems": [
    "C43_fit_without_weights",
    "C43_invalid_data_leaves_object",
    "C43_weights_fail"
   ],
   "note": "Failed fits and the is_fitted_ flag"
  },
  {
   "property": "C44",
   "status": "proved",
   "theorems": [
    "C44_convex_combination"
   ],
   "note": "predict_by_weight is a convex combination"
  },
  {
   "property": "C45",
   "status": "proved",
   "theorems": [
    "C45_weight_matrix_only_refuted"
   ],
   "note": "Predicting with only a weight matrix"
  },
  {
   "property": "C46",
   "status": "proved",
   "theorems": [
    "C46_batch_independence_refuted",
    "C46_single_point_has_no_neighbours"
   ],
   "note": "predict_by_fit: predictions depend on the rest of the batch"
  },
  {
   "property": "C47",
   "status": "proved",
   "theorems": [
    "C47_training_set_and_weights"
   ],
   "note": "predict_by_fit trains each new point on exactly the training points whose kernel covers it"
  },
  {
   "property": "C48",
   "status": "proved",
   "theorems": [
    "C48_inspection_needs_caches",
    "C48_predict_by_weight_needs_caches",
    "C48_predict_by_fit_needs_cache"
   ],
   "note": "Inspection methods need the caches"
  },
  {
   "property": "C49",
   "status": "proved",
   "theorems": [
    "C49_no_leak",
    "C49_estimator_rate_refuted"
   ],
   "note": "Stacking never leaks the target value"
  },
  {
   "property": "C50",
   "status": "proved",
   "theorems": [
    "C50_design_entries",
    "C50_leave_out_matrix",
    "C50_everything_computed",
    "C50_missing_is_zero"
   ],
   "note": "Every base prediction used by a meta model was computed"
  },
  {
   "property": "C51",
   "status": "proved",
   "theorems": [
    "C51_leave_out_rate_required",
    "C51_attribute_error"
   ],
   "note": "Stacking requires neighbour_leave_out_rate"
  },
  {
   "property": "C52",
   "status": "proved",
   "theorems": [
    "C52_leave_local_out_irrelevant"
   ],
   "note": "leave_local_out has no effect on stacking"
  },
  {
   "property": "C53",
   "status": "proved",
   "theorems": [
    "C53_dense_sparse_identical",
    "C53_numba_same_problems"
   ],
   "note": "Dense, sparse and numba stacking build the same meta problems"
  },
  {
   "property": "C54",
   "status": "proved",
   "theorems": [
    "C54_replay"
   ],
   "note": "StackingEstimator replays the stored stacking prediction"
  },
  {
   "property": "C55",
   "status": "proved",
   "theorems": [
    "C55_sample_rate_must_keep_all",
    "C55_n_jobs_needs_n_patches"
   ],
   "note": "sample_local_rate and n_jobs are unusable with stacking"
  },
  {
   "property": "C56",
   "status": "proved",
   "theorems": [
    "C56_residual_is_a_matrix"
   ],
   "note": "local_residual_ of a stacking model is an N x N matrix"
  },
  {
   "property": "C57",
   "status": "proved",
   "theorems": [
    "C57_success_restores",
    "C57_flag_after_any_fit"
   ],
   "note": "Stacking fit and the cache_estimator flag"
  },
  {
   "property": "C58",
   "status": "proved",
   "theorems": [
    "C58_new_predictions",
    "C58_batch_independent",
    "C58_numba_and_sparse_raise",
    "C58_any_schedule"
   ],
   "note": "Stacking prediction on new points uses only computed base predictions"
  },
  {
   "property": "C59",
   "status": "proved",
   "theorems": [
    "C59_only_base_zero",
    "C59_ignored_for_sparse"
   ],
   "note": "estimator_sample_rate always selects base estimator 0"
  },
  {
   "property": "C60",
   "status": "proved",
   "theorems": [
    "C60_minimiser",
    "C60_total"
   ],
   "note": "ridge_cholesky minimises the weighted ridge objective"
  },
  {
   "property": "C61",
   "status": "proved",
   "theorems": [
    "C61_at_most_one",
    "C61_one_iff_exact",
    "C61_constant_targets",
    "C61_shift_scale"
   ],
   "note": "r2_score (numba)"
  },
  {
   "property": "C62",
   "status": "proved",
   "theorems": [
    "C62_one_feature_permuted",
    "C62_returns",
    "C62_zero_repeats_raise",
    "C62_fit_gives_such_a_model"
   ],
   "note": "Global importance perturbs one feature at a time, by a permutation"
  },
  {
   "property": "C63",
   "status": "proved",
   "theorems": [
    "C63_accumulates",
    "C63_fit_does_not_reset",
    "C63_other_number_of_features_raises"
   ],
   "note": "Importance accumulates over calls and survives refitting"
  },
  {
   "property": "C64",
   "status": "proved",
   "theorems": [
    "C64_raises",
    "C64_returns_otherwise",
    "C64_depends_on_uninitialised_memory",
    "C64_values"
   ],
   "note": "interaction_score_global"
  },
  {
   "property": "C65",
   "status": "proved",
   "theorems": [
    "C65_weighted_mean",
    "C65_between_minimum_and_maximum",
    "C65_zero_weight_rows_have_no_influence",
    "C65_zero_total_weight_raises",
    "C65_local_pd_module"
   ],
   "note": "Weighted partial dependence is a weighted mean of the individual curves"
  },
  {
   "property": "C66",
   "status": "proved",
   "theorems": [
    "C66_terminates",
    "C66_contract",
    "C66_evaluates_inside_only",
    "C66_exact_threshold"
   ],
   "note": "bisect_fun terminates and meets its contract"
  },
  {
   "property": "C67",
   "status": "proved",
   "theorems": [
    "C67_raises",
    "C67_every_bin_is_filled",
    "C67_quantiles",
    "C67_degenerate"
   ],
   "note": "adaptive_grid: every bin has more than min_bin_points points"
  },
  {
   "property": "C68",
   "status": "proved",
   "theorems": [
    "C68_meaning",
    "C68_returns",
    "C68_additive_effects",
    "C68_ignored_feature_is_flat"
   ],
   "note": "Accumulated local effects recover additive effects exactly"
  },
  {
   "property": "C69",
   "status": "proved",
   "theorems": [
    "C69_centred",
    "C69_differ_by_a_constant"
   ],
   "note": "Normalised ALE is centred"
  },
  {
   "property": "C70",
   "status": "proved",
   "theorems": [
    "C70_no_weights",
    "C70_too_few_or_constant"
   ],
   "note": "When weighted_ale fails"
  },
  {
   "property": "C71",
   "status": "proved",
   "theorems": [
    "C71_same_I_and_expectation",
    "C71_affine_I",
    "C71_affine_everything"
   ],
   "note": "The two global Moran statistics agree and are shift/scale invariant"
  },
  {
   "property": "C72",
   "status": "proved",
   "theorems": [
    "C72_local_values_sum_to_global"
   ],
   "note": "Local Moran values sum to the global one"
  },
  {
   "property": "C73",
   "status": "proved",
   "theorems": [
    "C73_column_scaling",
    "C73_row_standardised_when_rows_have_equal_sums",
    "C73_symmetric_weights_global",
    "C73_row_standardisation_refuted"
   ],
   "note": "Weight standardisation inside the Moran functions"
  },
  {
   "property": "C74",
   "status": "proved",
   "theorems": [
    "C74_the_two_variances",
    "C74_equal_variances_refuted"
   ],
   "note": "The two Moran variances disagree"
  },
  {
   "property": "C75",
   "status": "proved",
   "theorems": [
    "C75_cluster_sampling"
   ],
   "note": "Cluster-aware sampling represents every cluster"
  },
  {
   "property": "C76",
   "status": "proved",
   "theorems": [
    "C76_line_distances",
    "C76_when_it_succeeds",
    "C76_distance_determined"
   ],
   "note": "Partial-line distance matrices are symmetric"
  },
  {
   "property": "C77",
   "status": "proved",
   "theorems": [
    "C77_typical_is_medoid"
   ],
   "note": "choose_cluster_typical returns the medoid of every cluster"
  },
  {
   "property": "C78",
   "status": "proved",
   "theorems": [
    "C78_range_margin",
    "C78_range_margin_of_bounds",
    "C78_colour_normalisation",
    "C78_colour_components"
   ],
   "note": "range_margin and vector_to_color normalisation"
  },
  {
   "property": "C79",
   "status": "proved",
   "theorems": [
    "C79_gaussian",
    "C79_radial",
    "C79_directional",
    "C79_directional_nan",
    "C79_sine",
    "C79_uniform_in_bounds"
   ],
   "note": "Simulation coefficients are bounded as documented"
  },
  {
   "property": "C80",
   "status": "proved",
   "theorems": [
    "C80_kernel_textbook",
    "C80_kernel_entrywise"
   ],
   "note": "Kernel weights equal the textbook formulas, entry by entry"
  },
  {
   "property": "C81",
   "status": "proved",
   "theorems": [
    "C81_dask_agrees_fixed_bandwidth",
    "C81_dask_fraction_refuted"
   ],
   "note": "dask and numpy weight matrices"
  },
  {
   "property": "C82",
   "status": "proved",
   "theorems": [
    "C82_when_fit_succeeds",
    "C82_single_location_raises"
   ],
   "note": "Exactly when WeightModel.fit succeeds"
  },
  {
   "property": "C83",
   "status": "proved",
   "theorems": [
    "C83_sampled_model_cannot_predict_by_weight",
    "C83_sampled_model_cannot_predict_by_sparse_weight"
   ],
   "note": "A model fitted on a sample of locations cannot predict by weight"
  },
  {
   "property": "C84",
   "status": "proved",
   "theorems": [
    "C84_score"
   ],
   "note": "The reported leave-local-out score is the R2 of the stored predictions"
  },
  {
   "property": "C85",
   "status": "proved",
   "theorems": [
    "C85_callers_weights_shrunk"
   ],
   "note": "meta_fitting_shrink_rate overwrites the caller's weight matrix"
  },
  {
   "property": "C86",
   "status": "proved",
   "theorems": [
    "C86_matrices_of_the_model"
   ],
   "note": "weight_matrix_ and neighbour_matrix_ of a stacking model"
  },
  {
   "property": "C87",
   "status": "proved",
   "theorems": [
    "C87_any_schedule_and_batches"
   ],
   "note": "Stacking does not depend on batches or parallel schedules"
  },
  {
   "property": "C88",
   "status": "proved",
   "theorems": [
    "C88_predict_replaces_the_model"
   ],
   "note": "predict_by_fit of a stacking model replaces the fitted model"
  },
  {
   "property": "C89",
   "status": "proved",
   "theorems": [
    "C89_unused_feature"
   ],
   "note": "A feature no local model uses has importance exactly zero"
  },
  {
   "property": "C90",
   "status": "proved",
   "theorems": [
    "C90_partial_dependence",
    "C90_local_ICE"
   ],
   "note": "partial_dependence and local_ICE"
  },
  {
   "property": "C91",
   "status": "proved",
   "theorems": [
    "C91_sampled_models_raise",
    "C91_sampled_importance_raises"
   ],
   "note": "Inspecting a model fitted on a sample of locations raises"
  },
  {
   "property": "C92",
   "status": "proved",
   "theorems": [
    "C92_local_importance"
   ],
   "note": "Local importance uses exactly the positively weighted observations"
  },
  {
   "property": "C93",
   "status": "proved",
   "theorems": [
    "C93_weight_attributes"
   ],
   "note": "weight_matrix_ and neighbour_matrix_ of a fitted model"
  },
  {
   "property": "C94",
   "status": "proved",
   "theorems": [
    "C94_global_curve",
    "C94_returns",
    "C94_mean_of_own_effects"
   ],
   "note": "global_ALE averages every observation's own effect"
  },
  {
   "property": "C95",
   "status": "proved",
   "theorems": [
    "C95_global_raises",
    "C95_local_curve_k",
    "C95_five_neighbours_raise",
    "C95_returns_otherwise"
   ],
   "note": "ALE of a model fitted on a sample of locations"
  },
  {
   "property": "C96",
   "status": "proved",
   "theorems": [
    "C96_integer_features",
    "C96_additive_effect_refuted"
   ],
   "note": "ALE of integer-valued features"
  },
  {
   "property": "C97",
   "status": "proved",
   "theorems": [
    "C97_p_is_the_lower_tail"
   ],
   "note": "STMI's p-value is a lower tail"
  },
  {
   "property": "C98",
   "status": "proved",
   "theorems": [
    "C98_relabelling"
   ],
   "note": "Moran statistics do not depend on the order of the observations"
  },
  {
   "property": "C99",
   "status": "proved",
   "theorems": [
    "C99_exact_randomisation_moments",
    "C99_diagonal_refuted"
   ],
   "note": "STMI reports the exact randomisation mean and variance of I"
  },
  {
   "property": "C100",
   "status": "proved",
   "theorems": [
    "C100_single_observation",
    "C100_constant_values",
    "C100_location_without_neighbours"
   ],
   "note": "Moran statistics of degenerate inputs"
  },
  {
   "property": "C101",
   "status": "proved",
   "theorems": [
    "C101_plain_sampling",
    "C101_seeded_sampling_is_reproducible",
    "C101_one_selection_method"
   ],
   "note": "Plain sampling of lines is exact and reproducible"
  },
  {
   "property": "C102",
   "status": "proved",
   "theorems": [
    "C102_quantile_selection"
   ],
   "note": "Quantile selection returns the nearest-rank line"
  },
  {
   "property": "C103",
   "status": "proved",
   "theorems": [
    "C103_vertical_shifts",
    "C103_zero_iff_parallel"
   ],
   "note": "Line distances ignore vertical position"
  },
  {
   "property": "C104",
   "status": "proved",
   "theorems": [
    "C104_minimal_distance_refuted",
    "C104_excess_over_the_minimum"
   ],
   "note": "Line distance is not the minimal shifted distance"
  },
  {
   "property": "C105",
   "status": "proved",
   "theorems": [
    "C105_disjoint_lines_far_apart_refuted"
   ],
   "note": "Two lines without common range"
  },
  {
   "property": "C106",
   "status": "proved",
   "theorems": [
    "C106_scatter_hover_refuted",
    "C106_scatter_hover_when_right",
    "C106_embedding_hover",
    "C106_every_point_in_one_trace",
    "C106_one_legend_entry_per_cluster"
   ],
   "note": "Hover index and legend of cluster plots"
  },
  {
   "property": "C107",
   "status": "proved",
   "theorems": [
    "C107_importance_plot"
   ],
   "note": "Importance plot keeps names and values together"
  },
  {
   "property": "C108",
   "status": "proved",
   "theorems": [
    "C108_aspect_ratio",
    "C108_degenerate_extent"
   ],
   "note": "scatter_3d keeps the geographic aspect ratio"
  },
  {
   "property": "C109",
   "status": "proved",
   "theorems": [
    "C109_line_style"
   ],
   "note": "Line style follows cluster size"
  },
  {
   "property": "C110",
   "status": "proved",
   "theorems": [
    "C110_wrapper_combines_per_point",
    "C110_wrapper_other_counts",
    "C110_sum_of_one_refuted"
   ],
   "note": "coefficient_wrapper combines coefficients point by point"
  },
  {
   "property": "C111",
   "status": "proved",
   "theorems": [
    "C111_sampled_points",
    "C111_sampling_succeeds",
    "C111_flat_list_raises"
   ],
   "note": "sample_points respects type and bounds of every dimension"
  },
  {
   "property": "C112",
   "status": "proved",
   "theorems": [
    "C112_normal",
    "C112_variance_refuted",
    "C112_exponential",
    "C112_unknown_distribution"
   ],
   "note": "Normal and exponential sample_x"
  },
  {
   "property": "C113",
   "status": "proved",
   "theorems": [
    "C113_bounds_overwritten",
    "C113_second_call_refuted",
    "C113_tuple_raises"
   ],
   "note": "sample_x overwrites functional bounds"
  },
  {
   "property": "C114",
   "status": "proved",
   "theorems": [
    "C114_generated_sample",
    "C114_same_coefficient_refuted",
    "C114_same_coefficient_deterministic",
    "C114_reproducible_and_unusable_arguments"
   ],
   "note": "generate_sample produces the model it describes"
  },
  {
   "property": "C115",
   "status": "proved",
   "theorems": [
    "C115_responses"
   ],
   "note": "Response functions have their documented shape"
  },
  {
   "property": "C116",
   "status": "proved",
   "theorems": [
    "C116_random_bumps",
    "C116_always_definite_refuted"
   ],
   "note": "Random bumps are well-formed"
  },
  {
   "property": "C117",
   "status": "proved",
   "theorems": [
    "C117_shared_file_returns_first_dimension",
    "C117_overwrite_keeps_last_dimension",
    "C117_separate_files_are_right"
   ],
   "note": "Several dimensions sharing one cache file"
  },
  {
   "property": "C118",
   "status": "proved",
   "theorems": [
    "C118_interrupted_write_reads_as_zero",
    "C118_crash_before_metadata",
    "C118_unwritten_rows_weigh_all_alike",
    "C118_overwrite_repairs",
    "C118_uninterrupted_writes"
   ],
   "note": "Interrupted or concurrent writes of the cache"
  },
  {
   "property": "C119",
   "status": "proved",
   "theorems": [
    "C119_diagram_points_and_line",
    "C119_slope_is_row_sum_times_I"
   ],
   "note": "The Moran diagram shows Moran's I"
  },
  {
   "property": "C120",
   "status": "proved",
   "theorems": [
    "C120_bounded",
    "C120_coincident_weight_one",
    "C120_nearer_weighs_no_less"
   ],
   "note": "Kernel guarantees survive rounding"
  },
  {
   "property": "C121",
   "status": "proved",
   "theorems": [
    "C121_outside_is_zero",
    "C121_inside_is_positive",
    "C121_zero_bandwidth",
    "C121_smooth_kernels_positive_refuted"
   ],
   "note": "The support of the kernels in floating point"
  },
  {
   "property": "C122",
   "status": "proved",
   "theorems": [
    "C122_kernel_weights_representable",
    "C122_product_of_dimensions",
    "C122_normalised_row",
    "C122_row_sum_error",
    "C122_binary64_accuracy"
   ],
   "note": "Row normalisation in floating point"
  },
  {
   "property": "C123",
   "status": "proved",
   "theorems": [
    "C123_dask_kernel_agrees_with_rounding"
   ],
   "note": "dask and NumPy kernels agree bit for bit"
  },
  {
   "property": "C124",
   "status": "proved",
   "theorems": [
    "C124_weighted_sum_any_backend"
   ],
   "note": "predict_by_weight is the same weighted sum for NumPy and dask weights"
  },
  {
   "property": "C125",
   "status": "proved",
   "theorems": [
    "C125_fit_prediction_from_dask_weights",
    "C125_more_new_points_raise",
    "C125_backends_predict_alike_refuted"
   ],
   "note": "predict_by_fit with dask weights"
  },
  {
   "property": "C126",
   "status": "proved",
   "theorems": [
    "C126_fit_from_coordinates"
   ],
   "note": "What a fit from coordinates trains on"
  },
  {
   "property": "C127",
   "status": "proved",
   "theorems": [
    "C127_order_of_observations",
    "C127_order_of_observations_from_coordinates"
   ],
   "note": "The order of the observations does not matter"
  },
  {
   "property": "C128",
   "status": "proved",
   "theorems": [
    "C128_units_of_distance",
    "C128_scaled_and_translated_coordinates",
    "C128_weights_with_unit_per_dimension"
   ],
   "note": "Units and origin of the coordinates do not matter"
  },
  {
   "property": "C129",
   "status": "proved",
   "theorems": [
    "C129_weight_model_call_accepted",
    "C129_weight_model_stores_arguments",
    "C129_stacking_call_accepted",
    "C129_stacking_stores_arguments",
    "C129_unknown_keyword_reported_refuted",
    "C129_midpoint_has_effect_refuted"
   ],
   "note": "What the constructors accept and store"
  },
  {
   "property": "C130",
   "status": "proved",
   "theorems": [
    "C130_sklearn_workflow_refuted",
    "C130_stacking_estimator"
   ],
   "note": "The models in scikit-learn workflows"
  },
  {
   "property": "C131",
   "status": "proved",
   "theorems": [
    "C131_fit_takes_array_likes_refuted",
    "C131_nested_models_refuted",
    "C131_arrays_accepted",
    "C131_lists_accepted"
   ],
   "note": "fit reads X.shape and prints the estimator before checking anything"
  },
  {
   "property": "C132",
   "status": "proved",
   "theorems": [
    "C132_strong_surface",
    "C132_readme_sample",
    "C132_responses",
    "C132_two_features_raise",
    "C132_same_seed_same_surface_refuted"
   ],
   "note": "The README's sample data"
  },
  {
   "property": "C133",
   "status": "proved",
   "theorems": [
    "C133_manual_surface",
    "C133_random_surface",
    "C133_two_features",
    "C133_interaction",
    "C133_too_few_coefficients_raise"
   ],
   "note": "The coefficient surfaces of the experiments"
  },
  {
   "property": "C134",
   "status": "proved",
   "theorems": [
    "C134_fit_succeeds_iff",
    "C134_learners_that_need_data",
    "C134_numba_ridge"
   ],
   "note": "Exactly when fitting the stacking model succeeds"
  },
  {
   "property": "C135",
   "status": "proved",
   "theorems": [
    "C135_sparse_iff_dense",
    "C135_sparse_needs_last",
    "C135_storage_matters_refuted"
   ],
   "note": "Dense and sparse weights in the stacking model"
  },
  {
   "property": "C136",
   "status": "proved",
   "theorems": [
    "C136_leaving_everything_out_fails"
   ],
   "note": "Leaving all neighbours out"
  },
  {
   "property": "C137",
   "status": "proved",
   "theorems": [
    "C137_weights_from_coordinates",
    "C137_fit_from_coordinates",
    "C137_storage_does_not_matter",
    "C137_every_estimator_reproduces"
   ],
   "note": "Fitting the stacking model from coordinates"
  },
  {
   "property": "C138",
   "status": "proved",
   "theorems": [
    "C138_prediction_returns_iff",
    "C138_predictable_alone_refuted"
   ],
   "note": "Exactly when the stacking model predicts new points"
  },
  {
   "property": "C139",
   "status": "proved",
   "theorems": [
    "C139_float_data",
    "C139_integer_data_steps",
    "C139_integer_data_refuted"
   ],
   "note": "ICE curves of integer data"
  },
  {
   "property": "C140",
   "status": "proved",
   "theorems": [
    "C140_local_ICE_raises_on_large_data",
    "C140_partial_dependence_raises_on_large_data",
    "C140_local_ICE_returns"
   ],
   "note": "local_ICE and partial_dependence on large data"
  },
  {
   "property": "C141",
   "status": "proved",
   "theorems": [
    "C141_order_is_irrelevant",
    "C141_zero_weight_is_ignored",
    "C141_weights_count_repetitions",
    "C141_scaled_weights_and_alpha",
    "C141_affine_targets",
    "C141_moved_features",
    "C141_other_units_refuted"
   ],
   "note": "The ridge solver under changes of its data"
  },
  {
   "property": "C142",
   "status": "proved",
   "theorems": [
    "C142_stronger_penalty_shrinks",
    "C142_weighted_errors_cancel"
   ],
   "note": "The ridge penalty shrinks"
  },
  {
   "property": "C143",
   "status": "proved",
   "theorems": [
    "C143_figure_shows_the_sample",
    "C143_every_cluster_is_shown",
    "C143_same_observations_in_all_features",
    "C143_generator_is_reset"
   ],
   "note": "What the three-dimensional partial-dependence plot shows"
  },
  {
   "property": "C144",
   "status": "proved",
   "theorems": [
    "C144_one_colour_per_cluster",
    "C144_one_colour_with_quantiles_refuted",
    "C144_single_cluster_is_invisible"
   ],
   "note": "Colours of clusters across plots"
  },
  {
   "property": "C145",
   "status": "proved",
   "theorems": [
    "C145_flat_times_rejected",
    "C145_column_times_need_labels",
    "C145_compound_plot"
   ],
   "note": "The shape of the time vector"
  },
  {
   "property": "C146",
   "status": "proved",
   "theorems": [
    "C146_camera_on_a_cylinder",
    "C146_pitch_is_elevation_refuted",
    "C146_aspect_scaling"
   ],
   "note": "Camera and aspect ratio"
  },
  {
   "property": "C147",
   "status": "proved",
   "theorems": [
    "C147_surfaces_below_their_slice",
    "C147_surfaces_between_slices",
    "C147_surfaces_between_uneven_slices_refuted"
   ],
   "note": "The time surfaces of the scatter plot"
  },
  {
   "property": "C148",
   "status": "proved",
   "theorems": [
    "C148_distances_are_used",
    "C148_embedding_and_labels",
    "C148_features_are_independent"
   ],
   "note": "Clustering of the lines"
  },
  {
   "property": "C149",
   "status": "proved",
   "theorems": [
    "C149_two_steps",
    "C149_one_step_refuted",
    "C149_new_points"
   ],
   "note": "Which observations a stacked prediction depends on"
  },
  {
   "property": "C150",
   "status": "proved",
   "theorems": [
    "C150_fit",
    "C150_predict_by_fit",
    "C150_predict_by_weight"
   ],
   "note": "The unit and the origin of the target"
  },
  {
   "property": "C151",
   "status": "proved",
   "theorems": [
    "C151_penalty_in_square_units",
    "C151_same_penalty_refuted"
   ],
   "note": "Stacking and the unit of the target"
  },
  {
   "property": "C152",
   "status": "proved",
   "theorems": [
    "C152_entries",
    "C152_outside_is_zero",
    "C152_nearer_weighs_no_less",
    "C152_row_sums",
    "C152_single_precision"
   ],
   "note": "Rounded weight matrices"
  },
  {
   "property": "C153",
   "status": "proved",
   "theorems": [
    "C153_support_is_exact",
    "C153_nearest_neighbours",
    "C153_coincident_positive",
    "C153_several_dimensions_refuted"
   ],
   "note": "Support of the weights in single precision"
  },
  {
   "property": "C154",
   "status": "proved",
   "theorems": [
    "C154_same_outcome",
    "C154_same_program"
   ],
   "note": "Rounding does not decide success"
  },
  {
   "property": "C155",
   "status": "proved",
   "theorems": [
    "C155_refit_is_fit",
    "C155_reads_keep_the_model",
    "C155_same_answers"
   ],
   "note": "Refitting"
  },
  {
   "property": "C156",
   "status": "proved",
   "theorems": [
    "C156_failed_refit_mixes_models",
    "C156_predictions_after_failed_refit",
    "C156_failed_refit_refuted"
   ],
   "note": "A refit that fails"
  },
  {
   "property": "C157",
   "status": "proved",
   "theorems": [
    "C157_fit_reads_the_arrays_once",
    "C157_results_belong_to_the_model",
    "C157_predict_by_weight_kept",
    "C157_predict_by_fit_reads_the_callers_arrays",
    "C157_predict_by_fit_refuted",
    "C157_left_out_weights_kept",
    "C157_weights_kept",
    "C157_weights_refuted"
   ],
   "note": "Arrays shared with the caller"
  },
  {
   "property": "C158",
   "status": "proved",
   "theorems": [
    "C158_embedding_plot",
    "C158_embedding_plot_succeeds",
    "C158_scatter_plot",
    "C158_labels_per_feature",
    "C158_compound_per_feature"
   ],
   "note": "What the embedding and scatter plots show"
  },
  {
   "property": "C159",
   "status": "proved",
   "theorems": [
    "C159_scatter_of_values"
   ],
   "note": "Scatter plot of a continuous value"
  },
  {
   "property": "C160",
   "status": "proved",
   "theorems": [
    "C160_relation_of_the_neighbourhood",
    "C160_exact_data",
    "C160_few_neighbours_refuted",
    "C160_predict_by_fit",
    "C160_predict_by_weight"
   ],
   "note": "Linear relations are recovered"
  },
  {
   "property": "C161",
   "status": "proved",
   "theorems": [
    "C161_refit_is_fit",
    "C161_predict_forgets",
    "C161_attributes_of_the_fit_refuted",
    "C161_failed_fit_sets_cache_estimator"
   ],
   "note": "Refitting a stacking model"
  },
  {
   "property": "C162",
   "status": "proved",
   "theorems": [
    "C162_constant_neighbourhood",
    "C162_unanimous_learners",
    "C162_exact_learners_refuted",
    "C162_new_points"
   ],
   "note": "Stacked predictions of simple neighbourhoods"
  },
  {
   "property": "C163",
   "status": "proved",
   "theorems": [
    "C163_weights",
    "C163_given_weights",
    "C163_far_observations",
    "C163_fraction_refuted"
   ],
   "note": "Observations out of reach"
  },
  {
   "property": "C164",
   "status": "proved",
   "theorems": [
    "C164_prediction_with_given_weights",
    "C164_leave_out_is_omission"
   ],
   "note": "Leaving out is omitting"
  },
  {
   "property": "C165",
   "status": "proved",
   "theorems": [
    "C165_every_fit_thins",
    "C165_number_of_fits",
    "C165_repeatable_refuted",
    "C165_rate_one"
   ],
   "note": "Repeated stacking fits on one weight matrix"
  },
  {
   "property": "C166",
   "status": "proved",
   "theorems": [
    "C166_kernel_error",
    "C166_weight_error",
    "C166_number_formats",
    "C166_new_location_refuted"
   ],
   "note": "Size of the rounding error of weights"
  },
  {
   "property": "C167",
   "status": "proved",
   "theorems": [
    "C167_evaluated_at_once",
    "C167_computed_distances_are_fixed",
    "C167_lazy_reads_of_a_file_being_overwritten",
    "C167_array_keeps_its_values_refuted",
    "C167_deleted_file_reads_as_zero"
   ],
   "note": "Distances read lazily from a cache file"
  },
  {
   "property": "C168",
   "status": "proved",
   "theorems": [
    "C168_interaction",
    "C168_interaction_line",
    "C168_interaction_line_refuted",
    "C168_increasing",
    "C168_local_ALE_increasing",
    "C168_global_ALE_increasing",
    "C168_steepness",
    "C168_linear_in_the_model",
    "C168_scale_of_the_weights",
    "C168_order_of_the_observations"
   ],
   "note": "Shapes of ALE curves"
  },
  {
   "property": "C169",
   "status": "proved",
   "theorems": [
    "C169_readme_model_can_be_inspected_refuted",
    "C169_snippet_is_local_ALE",
    "C169_snippet_returns",
    "C169_one_small_neighbourhood"
   ],
   "note": "Inspecting the README's models"
  },
  {
   "property": "C170",
   "status": "proved",
   "theorems": [
    "C170_figure",
    "C170_figure_drawn",
    "C170_bars_are_a_density_refuted",
    "C170_true_value",
    "C170_shifted",
    "C170_close_to_true_value",
    "C170_perfect_model_on_true_line_refuted"
   ],
   "note": "ALE figures"
  },
  {
   "property": "C171",
   "status": "proved",
   "theorems": [
    "C171_what_is_inspected",
    "C171_importance_is_shifted",
    "C171_unused_feature",
    "C171_unused_feature_is_unimportant_refuted",
    "C171_given_weights_cannot_be_inspected_locally",
    "C171_curve_of_a_linear_stack"
   ],
   "note": "Inspecting a stacking model"
  },
  {
   "property": "C172",
   "status": "proved",
   "theorems": [
    "C172_mean_drops",
    "C172_one_neighbour",
    "C172_succeeds",
    "C172_unused_feature",
    "C172_constant_feature",
    "C172_exact_estimator",
    "C172_exact_linear_estimator",
    "C172_scale_of_weights",
    "C172_units_of_response",
    "C172_not_negative_refuted",
    "C172_unused_by_stacking"
   ],
   "note": "Local permutation importance"
  },
  {
   "property": "C173",
   "status": "proved",
   "theorems": [
    "C173_grid",
    "C173_partial_dependence",
    "C173_same_grid",
    "C173_grid_shape",
    "C173_span_refuted",
    "C173_skewed_raises",
    "C173_large_raises",
    "C173_interaction",
    "C173_rises",
    "C173_steepness",
    "C173_additive",
    "C173_own_prediction"
   ],
   "note": "Partial dependence and ICE curves"
  },
  {
   "property": "C174",
   "status": "proved",
   "theorems": [
    "C174_fit",
    "C174_predict_by_fit",
    "C174_predict_by_weight",
    "C174_linear",
    "C174_linear_refuted",
    "C174_grid",
    "C174_curves",
    "C174_curves_refuted"
   ],
   "note": "Units of the features"
  },
  {
   "property": "C175",
   "status": "proved",
   "theorems": [
    "C175_residuals",
    "C175_score",
    "C175_score_refuted",
    "C175_in_sample",
    "C175_saturated"
   ],
   "note": "Scores with and without the location itself"
  },
  {
   "property": "C176",
   "status": "proved",
   "theorems": [
    "C176_kernel",
    "C176_neighbours",
    "C176_training_sets",
    "C176_keeps_working",
    "C176_flat",
    "C176_everything"
   ],
   "note": "Growing neighbourhoods"
  },
  {
   "property": "C177",
   "status": "proved",
   "theorems": [
    "C177_at_least",
    "C177_enough",
    "C177_isolated_refuted"
   ],
   "note": "Neighbours in several dimensions"
  },
  {
   "property": "C178",
   "status": "proved",
   "theorems": [
    "C178_leak",
    "C178_same_place"
   ],
   "note": "Repeated observations"
  },
  {
   "property": "C179",
   "status": "proved",
   "theorems": [
    "C179_objective_refuted",
    "C179_tuning_refuted",
    "C179_residuals_refuted"
   ],
   "note": "Scripts that cannot finish"
  },
  {
   "property": "C180",
   "status": "proved",
   "theorems": [
    "C180_one_line_per_cluster",
    "C180_colours",
    "C180_same_style_in_all_features",
    "C180_only_clusters_refuted"
   ],
   "note": "Typical curves of the clusters"
  },
  {
   "property": "C181",
   "status": "proved",
   "theorems": [
    "C181_bound",
    "C181_between_one",
    "C181_range_refuted",
    "C181_mean_with_own_weights",
    "C181_expectation_refuted"
   ],
   "note": "Range and mean of Moran's I"
  },
  {
   "property": "C182",
   "status": "proved",
   "theorems": [
    "C182_maps_of_the_example",
    "C182_scaling_by_location_refuted",
    "C182_square",
    "C182_square_range_refuted",
    "C182_one_feature",
    "C182_scaling_together",
    "C182_all_equal",
    "C182_one_location_blanks_the_map_refuted"
   ],
   "note": "Maps of local importances"
  },
  {
   "property": "C183",
   "status": "proved",
   "theorems": [
    "C183_lines",
    "C183_failure_refuted",
    "C183_leaving_out_a_model_refuted",
    "C183_label_refuted",
    "C183_label_scores"
   ],
   "note": "Parameter search of the experiments"
  },
  {
   "property": "C184",
   "status": "proved",
   "theorems": [
    "C184_local_importance",
    "C184_partial_dependence",
    "C184_local_ICE",
    "C184_ALE",
    "C184_global_importance_refuted"
   ],
   "note": "Order of the features"
  },
  {
   "property": "C185",
   "status": "proved",
   "theorems": [
    "C185_success",
    "C185_powers",
    "C185_sharper",
    "C185_flat_kernels",
    "C185_unchanged_refuted",
    "C185_gaussian",
    "C185_exponential"
   ],
   "note": "A dimension given several times"
  },
  {
   "property": "C186",
   "status": "proved",
   "theorems": [
    "C186_line",
    "C186_spread",
    "C186_failure_refuted",
    "C186_time_refuted",
    "C186_sampling_refuted"
   ],
   "note": "Variation of stacking scores over repeated fits"
  },
  {
   "property": "C187",
   "status": "proved",
   "theorems": [
    "C187_score",
    "C187_same_as_local_models",
    "C187_mean_refuted",
    "C187_local_mean_refuted"
   ],
   "note": "Leave-one-out scores"
  },
  {
   "property": "C188",
   "status": "proved",
   "theorems": [
    "C188_line",
    "C188_test_data_refuted",
    "C188_failure_refuted",
    "C188_no_partial_line",
    "C188_calls_refuted",
    "C188_calls"
   ],
   "note": "Simulation script for seven models"
  },
  {
   "property": "C189",
   "status": "proved",
   "theorems": [
    "C189_fit",
    "C189_predict_by_fit",
    "C189_predict_by_weight_refuted",
    "C189_stacking_refuted"
   ],
   "note": "Range of the predictions"
  },
  {
   "property": "C190",
   "status": "proved",
   "theorems": [
    "C190_fit",
    "C190_predict_by_weight_refuted",
    "C190_stacking",
    "C190_same_penalty_refuted"
   ],
   "note": "The unit of the weights"
  },
  {
   "property": "C191",
   "status": "proved",
   "theorems": [
    "C191_fixed_bandwidths_iff",
    "C191_unlimited_kernels",
    "C191_one_point_refuted",
    "C191_far_point_refuted",
    "C191_batch_refuted"
   ],
   "note": "Stacking predictions from coordinates"
  },
  {
   "property": "C192",
   "status": "proved",
   "theorems": [
    "C192_kernels",
    "C192_boxcar_refuted",
    "C192_bandwidths",
    "C192_adaptive_refuted",
    "C192_weight_matrix",
    "C192_coordinates"
   ],
   "note": "Small errors in the coordinates"
  },
  {
   "property": "C193",
   "status": "proved",
   "theorems": [
    "C193_quadrants",
    "C193_quadrants_refuted",
    "C193_size",
    "C193_size_attained_refuted",
    "C193_mean",
    "C193_mean_equal_rows",
    "C193_mean_refuted"
   ],
   "note": "Signs, size and mean of local Moran values"
  },
  {
   "property": "C194",
   "status": "proved",
   "theorems": [
    "C194_gaussian",
    "C194_gaussian_coordinates",
    "C194_exponential",
    "C194_neighbours_kept",
    "C194_same_neighbours_refuted"
   ],
   "note": "Several dimensions as one"
  },
  {
   "property": "C195",
   "status": "proved",
   "theorems": [
    "C195_mutual",
    "C195_balance",
    "C195_cycle",
    "C195_mean_kept",
    "C195_coordinates",
    "C195_symmetric_refuted",
    "C195_count_refuted"
   ],
   "note": "Mutual neighbours"
  },
  {
   "property": "C196",
   "status": "proved",
   "theorems": [
    "C196_symmetric_weights",
    "C196_unweighted_learner",
    "C196_same_predictions_refuted",
    "C196_by_weight_refuted"
   ],
   "note": "Predicting the training points"
  }
 ]
}