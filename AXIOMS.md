# Axioms per theorem

Written by `tools/axioms.py` from `Print Assumptions`.  All axioms are the Coq standard library's.

## No axioms (closed under the global context)

- `c01_array_text_refuted`
- `c01_rejected_setter_refuted`
- `c01_save_name_refuted`
- `c01_saving_transparent_partial`
- `c02_boot_samples_partial`
- `c02_every_dependent_metric_refuted`
- `c02_stale_axis_refuted`
- `c02_stale_truncation_refuted`
- `c02_unaffected_partial`
- `c03_names_identify`
- `c03_names_injective`
- `c04_blanks`
- `c04_literal`
- `c04_name`
- `c04_not_a_string`
- `c04_too_long`
- `c04_unnamed_is_not_saved`
- `c04_zero_dim`
- `c05_saved_result_stable`
- `c06_constructor_scope`
- `c06_setter_scope`
- `c07_base_rejection_partial`
- `c07_rejected_constructor_refuted`
- `c07_rejected_setter_refuted`
- `c07_rejected_setter_wipes_refuted`
- `c07_setter_rejection_partial`
- `c08_crash_never_wrong`
- `c09_crash_between_writes_partial`
- `c09_recovery_refuted`
- `c09_truncated_file_blocks_refuted`
- `c100_brier_partial`
- `c100_probabilities`
- `c100_refuted`
- `c100_roc_partial`
- `c101_brier_partial`
- `c101_ensemble`
- `c101_errors`
- `c101_iou`
- `c101_refuted`
- `c101_roc_partial`
- `c102_crps_spread`
- `c102_events`
- `c103_crps_spread`
- `c103_errors`
- `c103_events`
- `c104_brier`
- `c104_crps`
- `c104_errors`
- `c104_nonvacuous`
- `c104_roc`
- `c105_brier`
- `c105_ensemble`
- `c105_ensemble_nonvacuous`
- `c105_errors`
- `c105_missing`
- `c105_missing_differs`
- `c105_nonvacuous`
- `c106_nonvacuous`
- `c106_one_member`
- `c106_repeated_crps_spread`
- `c106_repeated_events`
- `c106_repeated_nonvacuous`
- `c107_arrays`
- `c107_averages`
- `c107_brier`
- `c107_program`
- `c107_program_nonvacuous`
- `c107_reliability`
- `c108_brier`
- `c108_crps`
- `c108_crps_nonvacuous`
- `c108_errors`
- `c108_nonvacuous`
- `c108_roc`
- `c109_ends`
- `c109_nonvacuous`
- `c109_order`
- `c10_constructor_partial`
- `c10_disable_saving_partial`
- `c10_no_disk_effect_partial`
- `c10_scratch_file_refuted`
- `c110_no_ties`
- `c110_program`
- `c110_ranks`
- `c110_reversed`
- `c112_probabilities`
- `c112_roc`
- `c112_thresholds`
- `c112_units`
- `c112_units_pit`
- `c113_correlation`
- `c113_spread_skill_ensemble`
- `c113_spread_skill_parametric`
- `c113_variance`
- `c114_any_way`
- `c114_correlation`
- `c114_crps`
- `c114_errors`
- `c114_integrals`
- `c114_sound`
- `c114_spread_skill`
- `c115_exception`
- `c115_resamples`
- `c115_saved_or_not`
- `c115_within`
- `c116_decomposition_ensemble`
- `c116_decomposition_parametric`
- `c116_ragged_ensemble`
- `c116_ragged_parametric`
- `c116_reliability_ensemble`
- `c116_reliability_parametric`
- `c117_members`
- `c117_variance_laws`
- `c117_variance_range`
- `c118_correlation`
- `c118_spread_skill_ensemble`
- `c118_spread_skill_parametric`
- `c119_crps_spread`
- `c119_errors`
- `c119_events_partial`
- `c119_iou`
- `c119_refuted`
- `c11_average_over_exact_axes`
- `c11_error_metrics`
- `c120_appended`
- `c120_brier`
- `c120_crps_spread`
- `c120_errors`
- `c121_brier`
- `c121_crps`
- `c121_errors`
- `c121_spread`
- `c121_without`
- `c122_bootstrap`
- `c122_errors`
- `c123_crps_spread`
- `c123_errors`
- `c123_events`
- `c125_brier`
- `c125_failure`
- `c125_probability`
- `c125_roc`
- `c12_missing_values`
- `c14_bootstrap_groups_partial`
- `c14_every_resample_possible`
- `c14_mixed_signs_refuted`
- `c15_bootstrap_with_nan`
- `c15_bootstrap_within_data_partial`
- `c15_mixed_signs_refuted`
- `c16_bracket_partial`
- `c16_refuted`
- `c17_averages_partial`
- `c17_brier_partial`
- `c17_levels_refuted`
- `c17_order_refuted`
- `c17_reliability_partial`
- `c18_rank_range`
- `c19_fewest_ties_never_randomised_refuted`
- `c19_randomised_partial`
- `c19_ties_refuted`
- `c20_accepts`
- `c20_parallel_rank`
- `c21_missing_data`
- `c22_bad_threshold_rejected`
- `c22_extremes`
- `c22_fraction`
- `c22_function`
- `c22_monotone`
- `c22_reorder`
- `c22_scalar_is_constant_array`
- `c23_parallel_equals_serial`
- `c24_accepts`
- `c24_functions_accept`
- `c24_functions_reject`
- `c24_iou_determ_rejects`
- `c24_iou_functions_accept`
- `c24_iou_functions_reject`
- `c24_iou_prob_accepts`
- `c24_iou_prob_rejects`
- `c24_rejects`
- `c25_event_partial`
- `c25_event_refuted`
- `c26_brier_averages`
- `c26_brier_cells`
- `c26_brier_missing`
- `c26_ensemble_brier`
- `c27_brier_decomposition`
- `c27_terms`
- `c28_bootstrap_bounds`
- `c28_order_independent`
- `c28_term_bounds`
- `c29_monotone`
- `c29_one_in_last_bin`
- `c29_samples`
- `c29_unique_bin`
- `c30_reliability_points`
- `c30_values`
- `c31_ragged_refuted`
- `c31_same_bin_partial`
- `c31_same_bin_refuted`
- `c32_mixed_signs_refuted`
- `c32_pairs_in_ordered_bins`
- `c32_refuses`
- `c34_inputs_unchanged_partial`
- `c34_inputs_unchanged_refuted`
- `c35_iou_determ_partial`
- `c35_iou_prob_partial`
- `c35_no_axis_partial`
- `c35_no_axis_refuted`
- `c36_explicit_pair_partial`
- `c36_single_pair_refuted`
- `c37_accepts`
- `c37_complement`
- `c37_range`
- `c37_rejects`
- `c37_scalar_is_constant_array`
- `c38_parallel_partial`
- `c38_truncgamma_refuted`
- `c38_truncgamma_witness_refuted`
- `c39_hurdle_partial`
- `c39_negative_refuted`
- `c40_member_axis_refuted`
- `c40_rank_hist_partial`
- `c40_spread_partial`
- `c40_spread_refuted`
- `c41_accepts`
- `c41_clipping`
- `c42_schedule`
- `c43_memory`
- `c44_raised_refuted`
- `c44_returned_partial`
- `c45_crps`
- `c45_mean_range`
- `c45_variance`
- `c46_constant_refuted`
- `c46_nan_refuted`
- `c46_spread_partial`
- `c47_distinct_partial`
- `c47_shared_refuted`
- `c49_factor`
- `c49_variance_one_step`
- `c51_brier_per_slice_partial`
- `c54_empty_refuted`
- `c54_scalar_refuted`
- `c54_split_partial`
- `c54_whole`
- `c55_accepts`
- `c55_kept`
- `c55_raised`
- `c55_round_trip`
- `c56_coords`
- `c56_ordered`
- `c56_refused`
- `c57_general`
- `c57_names`
- `c58_again`
- `c58_flag`
- `c58_import`
- `c58_lookups`
- `c58_values`
- `c59_accepts`
- `c59_constructed`
- `c59_exception`
- `c59_raises`
- `c59_set_axis`
- `c60_collapse_refuted`
- `c60_constructed_partial`
- `c60_ignored_refuted`
- `c61_flat_refuted`
- `c61_normalisation_partial`
- `c62_duplicate_members_refuted`
- `c62_same_worker_partial`
- `c62_second_call_partial`
- `c62_second_call_refuted`
- `c63_accepts`
- `c63_parallel_truncgamma_refuted`
- `c63_pit_partial`
- `c63_rank_hist_partial`
- `c63_rejects`
- `c65_after_returns_partial`
- `c65_ray_left_refuted`
- `c65_ray_running_refuted`
- `c66_lower_end_refuted`
- `c67_joined_refuted`
- `c67_same_widths_partial`
- `c73_gamma`
- `c73_gaussian`
- `c73_hurdle`
- `c75_area`
- `c75_area_range`
- `c75_complement`
- `c75_curve`
- `c75_metric`
- `c75_order_only`
- `c75_undefined`
- `c76_missing_forecast_partial`
- `c76_missing_is_nonevent`
- `c76_missing_observation_refuted`
- `c77_implementations`
- `c77_integral`
- `c77_range`
- `c78_cdf_partial`
- `c78_crps_partial`
- `c78_missing_refuted`
- `c79_ragged`
- `c79_values`
- `c80_early_return`
- `c80_name_taken`
- `c80_opened`
- `c81_search_labels_refuted`
- `c81_times_partial`
- `c81_undecodable_refuted`
- `c82_coordinates`
- `c83_history`
- `c83_rmse`
- `c83_saving_off`
- `c84_constructor`
- `c84_setters`
- `c85_bootstrap`
- `c85_brier`
- `c85_crps`
- `c85_encoding`
- `c85_ensemble_mean`
- `c85_errors`
- `c85_iou`
- `c85_iou_prob`
- `c85_probability`
- `c85_roc`
- `c85_spread`
- `c86_any_order`
- `c86_places`
- `c86_same_rank_refuted`
- `c86_sources`
- `c86_stations_partial`
- `c87_completed_partial`
- `c87_decoded`
- `c87_strict_refuted`
- `c88_history`
- `c88_metric_footprint`
- `c88_scratch_left_refuted`
- `c88_scratch_removed`
- `c90_hidden_refuted`
- `c90_nameless_refuted`
- `c90_report`
- `c90_same_text`
- `c91_ranks`
- `c91_reliability`
- `c93_brier`
- `c93_errors`
- `c93_iou_prob`
- `c93_members`
- `c93_pit`
- `c93_pit_randomized`
- `c93_probability`
- `c93_ranks`
- `c93_reliability`
- `c93_roc`
- `c93_spread`
- `c93_variance`
- `c99_nested_refuted`
- `c99_separate_partial`
- `c99_shared_refuted`

## `ClassicalDedekindReals.sig_forall_dec`, `FunctionalExtensionality.functional_extensionality_dep`

- `c45_half_bin`
- `c66_inside_partial`
- `c71_positive_shift_refuted`
- `c71_shape_of_cdf`
- `c71_top_refuted`
- `c71_truncated_partial`
- `c72_members_partial`
- `c72_positive_shift_refuted`
- `c89_logpdf_refuted`

## `ClassicalDedekindReals.sig_forall_dec`, `ClassicalDedekindReals.sig_not_dec`, `FunctionalExtensionality.functional_extensionality_dep`

- `c107_correlation`
- `c111_opposite_off_edges_partial`
- `c111_opposite_partial`
- `c111_opposite_refuted`
- `c111_terms`
- `c112_opposite`
- `c124_names`
- `c13_error_relations`
- `c17_correlation_partial`
- `c17_spread_skill_partial`
- `c33_bootstrap`
- `c33_curve`
- `c45_crps_error`
- `c48_scale`
- `c48_shift`
- `c48_swap`
- `c49_constant`
- `c49_rejects`
- `c50_correlation_affine`
- `c50_correlation_extremes`
- `c50_correlation_range`
- `c50_correlation_symmetric`
- `c51_accepts_partial`
- `c51_correlation_per_slice_partial`
- `c51_negative_axes_refuted`
- `c51_no_axis_refuted`
- `c52_shape`
- `c52_unique`
- `c64_value`
- `c74_above_one_refuted`
- `c74_negative_refuted`
- `c74_rejects`
- `c91_decomposition`
- `c91_sum`
- `c91_sum_refuted`
- `c93_decomposition`

## `ClassicalDedekindReals.sig_forall_dec`, `ClassicalDedekindReals.sig_not_dec`, `Classical_Prop.classic`, `FunctionalExtensionality.functional_extensionality_dep`

- `c124_agreeing_members`
- `c124_bounded`
- `c124_integral`
- `c124_kernels`
- `c52_gaussian`
- `c52_limit`
- `c52_median`
- `c52_normal`
- `c52_slopes`
- `c52_truncated`
- `c52_truncated_at`
- `c53_censored`
- `c53_median`
- `c53_reduced`
- `c53_slope`
- `c68_large_collide`
- `c68_ordered`
- `c69_exists`
- `c69_own_partial`
- `c69_own_refuted`
- `c69_verifier_partial`
- `c70_exists`
- `c70_moments_partial`
- `c70_truncated_refuted`
- `c74_agreeing_members_refuted`
- `c74_integral_partial`
- `c74_limit_partial`
- `c89_density`
- `c89_lower_end`
- `c89_total`
- `c92_crps_partial`
- `c92_nan_refuted`
- `c92_same_partial`
- `c94_bias`
- `c94_brier_range`
- `c94_mean_error`
- `c94_probability`
- `c94_sign`
- `c95_integers_partial`
- `c95_mean_bounds_partial`
- `c95_mean_bounds_refuted`
- `c95_rmse_partial`
- `c95_rmse_refuted`
- `c95_variance_refuted`
- `c96_reliability_bins`
- `c97_decomposition_bins_partial`
- `c97_decomposition_bins_refuted`
- `c98_bias`
- `c98_brier`
- `c98_errors`
- `c98_variance`
