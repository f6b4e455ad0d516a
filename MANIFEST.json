{
 "claims": [
  {
   "property": "C01",
   "status": "partial",
   "theorems": [
    "c01_saving_transparent_partial",
    "c01_save_name_refuted",
    "c01_rejected_setter_refuted",
    "c01_array_text_refuted"
   ],
   "note": "REFUTED as stated: a save name chosen by the caller can alias another metric, a rejected set_avg_axis leaves stale files readable, and short array thresholds with equal printed text share a file. The partial theorem proves the claim for every class, disk and history of default-named (or unsaved) metric calls and well-typed setters."
  },
  {
   "property": "C02",
   "status": "partial",
   "theorems": [
    "c02_unaffected_partial",
    "c02_every_dependent_metric_refuted",
    "c02_boot_samples_partial",
    "c02_stale_axis_refuted",
    "c02_stale_truncation_refuted"
   ],
   "note": "REFUTED: iou_determ after set_avg_axis and crps after set_truncated return the old saved result; c02_every_dependent_metric_refuted shows the same for every (class, metric, setting) where the saved result depends on the setting (66 combinations). The positive theorems cover histories of metric calls and changes of boot_samples, and (c02_unaffected_partial) every history of metric calls and setters, accepted or rejected, in which no saved result depends on a changed setting."
  },
  {
   "property": "C03",
   "status": "proved",
   "theorems": [
    "c03_names_identify",
    "c03_names_injective"
   ],
   "note": "For all pairs of default-named calls whose arguments print with the characters of numbers/None/bools/tuples."
  },
  {
   "property": "C04",
   "status": "proved",
   "theorems": [
    "c04_not_a_string",
    "c04_blanks",
    "c04_literal",
    "c04_too_long",
    "c04_name",
    "c04_zero_dim",
    "c04_unnamed_is_not_saved"
   ],
   "note": "Six theorems, one per clause; zero-dimensional arrays raise TypeError."
  },
  {
   "property": "C05",
   "status": "proved",
   "theorems": [
    "c05_saved_result_stable"
   ],
   "note": "For every saved metric that is not averaged afterwards (includes rank_hist, prob_to_ens, pit); metric calls in between are arbitrary, including other save names."
  },
  {
   "property": "C06",
   "status": "proved",
   "theorems": [
    "c06_constructor_scope",
    "c06_setter_scope"
   ],
   "note": "Constructors and every re-validating setter, accepted or rejected; the emptied-directory part for accepted calls."
  },
  {
   "property": "C07",
   "status": "partial",
   "theorems": [
    "c07_base_rejection_partial",
    "c07_setter_rejection_partial",
    "c07_rejected_constructor_refuted",
    "c07_rejected_setter_refuted",
    "c07_rejected_setter_wipes_refuted"
   ],
   "note": "REFUTED: class checks run after the directory has been emptied, and a rejected setter keeps the invalid attribute. The partial theorems prove that values the base class rejects leave the disk untouched."
  },
  {
   "property": "C08",
   "status": "proved",
   "theorems": [
    "c08_crash_never_wrong"
   ],
   "note": "Any number of interrupted runs, every byte prefix of every write; pickle is assumed to raise on a proper prefix of a dump."
  },
  {
   "property": "C09",
   "status": "partial",
   "theorems": [
    "c09_truncated_file_blocks_refuted",
    "c09_crash_between_writes_partial",
    "c09_recovery_refuted"
   ],
   "note": "REFUTED: a truncated file makes the metric raise in every later run. The partial theorem covers crashes between two writes."
  },
  {
   "property": "C10",
   "status": "partial",
   "theorems": [
    "c10_no_disk_effect_partial",
    "c10_constructor_partial",
    "c10_disable_saving_partial",
    "c10_scratch_file_refuted"
   ],
   "note": "REFUTED for the hurdle class with pyanen_integrate_with_less_memory: its scratch file is created in (and removed from) the current directory. Everything else is proved."
  },
  {
   "property": "C11",
   "status": "proved",
   "theorems": [
    "c11_average_over_exact_axes",
    "c11_error_metrics"
   ],
   "note": "Any rank, any axes; values compared in exact arithmetic (no rounding)."
  },
  {
   "property": "C12",
   "status": "proved",
   "theorems": [
    "c12_missing_values"
   ],
   "note": "Cells are finite or NaN."
  },
  {
   "property": "C13",
   "status": "proved",
   "theorems": [
    "c13_error_relations"
   ],
   "note": "rmse and its bound in R (sqrt); everything else in exact rationals."
  },
  {
   "property": "C14",
   "status": "partial",
   "theorems": [
    "c14_bootstrap_groups_partial",
    "c14_every_resample_possible",
    "c14_mixed_signs_refuted"
   ],
   "note": "REFUTED as stated: mixed-sign axis lists such as (1,-1) on rank 3 resample the wrong axes (c14_mixed_signs_refuted). Proved (_partial) for avg_axis None, all-non-negative and all-negative axis lists of any rank; c14_every_resample_possible is the converse for one group."
  },
  {
   "property": "C15",
   "status": "partial",
   "theorems": [
    "c15_bootstrap_within_data_partial",
    "c15_mixed_signs_refuted",
    "c15_bootstrap_with_nan"
   ],
   "note": "REFUTED as stated (c15_mixed_signs_refuted: axes spelled with mixed signs such as (1,-1) repeat one dimension and leave another, so the bootstrap mean of an all-zero group is 1). Proved for one-signed axis spellings (c15_bootstrap_within_data_partial); c15_bootstrap_with_nan covers NaN cells per group."
  },
  {
   "property": "C16",
   "status": "partial",
   "theorems": [
    "c16_refuted",
    "c16_bracket_partial"
   ],
   "note": "REFUTED: 50 resamples with one non-zero resample mean put the mean above the upper quantile. c16_bracket_partial characterises exactly when it can happen: for 0 <= confidence <= 1 the claim holds for all data and draws if and only if repeats * (1 - confidence) <= 2 (50 with the default settings)."
  },
  {
   "property": "C17",
   "status": "partial",
   "theorems": [
    "c17_averages_partial",
    "c17_reliability_partial",
    "c17_brier_partial",
    "c17_correlation_partial",
    "c17_spread_skill_partial",
    "c17_levels_refuted",
    "c17_order_refuted"
   ],
   "note": "REFUTED: averages use levels (1-c)/2 and (1+c)/2, the other four products 1-c and c (c17_levels_refuted), and below c = 1/2 the latter return lower > upper (c17_order_refuted). c17_*_partial: in order for averages at every c, and for the other four products exactly described: in order from c = 1/2 on, reversed below."
  },
  {
   "property": "C18",
   "status": "proved",
   "theorems": [
    "c18_rank_range"
   ],
   "note": "Any rank, any worker count and map axis, every random tie break; cells with finite values."
  },
  {
   "property": "C19",
   "status": "partial",
   "theorems": [
    "c19_ties_refuted",
    "c19_fewest_ties_never_randomised_refuted",
    "c19_randomised_partial"
   ],
   "note": "REFUTED: the tie loop skips the smallest tie count present in the array (utils_verify.py 41-45 starts at index 1), so cells with the fewest ties always get the lowest admissible rank. c19_randomised_partial: every admissible rank is possible for the cells with more ties than the minimum."
  },
  {
   "property": "C20",
   "status": "proved",
   "theorems": [
    "c20_parallel_rank",
    "c20_accepts"
   ],
   "note": "Cells without ties; c20_accepts shows which worker counts and axes run at all."
  },
  {
   "property": "C21",
   "status": "proved",
   "theorems": [
    "c21_missing_data"
   ],
   "note": "Finite or missing values (a member sum of +inf and -inf is also masked, see c21_opposite_infinities)."
  },
  {
   "property": "C22",
   "status": "proved",
   "theorems": [
    "c22_fraction",
    "c22_function",
    "c22_monotone",
    "c22_extremes",
    "c22_reorder",
    "c22_scalar_is_constant_array",
    "c22_bad_threshold_rejected"
   ],
   "note": "pyanen_ens_to_prob_method = Moments; NaN members count as above the threshold (stated)."
  },
  {
   "property": "C23",
   "status": "proved",
   "theorems": [
    "c23_parallel_equals_serial"
   ],
   "note": "All methods (kernel density as an arbitrary function of a column); arrays with at least one cell (c23_no_cells shows the other case)."
  },
  {
   "property": "C24",
   "status": "proved",
   "theorems": [
    "c24_rejects",
    "c24_iou_determ_rejects",
    "c24_iou_prob_rejects",
    "c24_accepts",
    "c24_iou_prob_accepts",
    "c24_functions_reject",
    "c24_iou_functions_reject",
    "c24_functions_accept",
    "c24_iou_functions_accept"
   ],
   "note": "Proved on the object machine for every threshold metric (c24_rejects, c24_iou_determ_rejects, c24_iou_prob_rejects; c24_accepts, c24_iou_prob_accepts) and for the modelled library functions (c24_functions_*, c24_iou_functions_*). A result already stored under the name is returned without the check; acceptance is stated for a library whose only assertions are the threshold checks."
  },
  {
   "property": "C25",
   "status": "partial",
   "theorems": [
    "c25_event_refuted",
    "c25_event_partial"
   ],
   "note": "REFUTED for below-thresholds equal to the observation: ens_to_prob_moments uses <=, binarize_obs uses <. Proved (_partial) for over-thresholds and for below-thresholds different from the observation."
  },
  {
   "property": "C26",
   "status": "proved",
   "theorems": [
    "c26_brier_cells",
    "c26_brier_averages",
    "c26_brier_missing",
    "c26_ensemble_brier"
   ],
   "note": "Cells, averages and bootstrap bounds, any axis spelling; NaN probabilities covered by c26_brier_missing."
  },
  {
   "property": "C27",
   "status": "proved",
   "theorems": [
    "c27_brier_decomposition",
    "c27_terms"
   ],
   "note": "Through brier_decomp for all shapes, axes without negative entries, groups and data."
  },
  {
   "property": "C28",
   "status": "proved",
   "theorems": [
    "c28_term_bounds",
    "c28_bootstrap_bounds",
    "c28_order_independent"
   ],
   "note": "Point estimates, every bootstrap entry for all draws, and independence of sample order."
  },
  {
   "property": "C29",
   "status": "proved",
   "theorems": [
    "c29_unique_bin",
    "c29_monotone",
    "c29_one_in_last_bin",
    "c29_samples"
   ],
   "note": "Proved for every number of bins and every probability in [0,1]: exactly one bin, monotone in the probability, 1.0 in the last bin exactly when nbins <= 10^8+1, and the sample counts are those of the bins."
  },
  {
   "property": "C30",
   "status": "proved",
   "theorems": [
    "c30_values",
    "c30_reliability_points"
   ],
   "note": "c30_values gives every returned entry; c30_reliability_points the curve properties. For every shape and every axis list written with one sign (mixed signs regroup the data wrongly, see C14); the loop that moves the axes is the one of boot_arr. With one slice the counts carry the bin numbers and outcomes as labels."
  },
  {
   "property": "C31",
   "status": "partial",
   "theorems": [
    "c31_same_bin_refuted",
    "c31_ragged_refuted",
    "c31_same_bin_partial"
   ],
   "note": "REFUTED: empty bins are dropped per slice, so entry j of two slices may refer to different bins (c31_same_bin_refuted) and slices may have different lengths, giving a ragged object array (c31_ragged_refuted). c31_same_bin_partial: it holds for slices that occupy the same set of bins."
  },
  {
   "property": "C32",
   "status": "proved",
   "theorems": [
    "c32_pairs_in_ordered_bins",
    "c32_refuses",
    "c32_mixed_signs_refuted"
   ],
   "note": "Proved for every shape, every axis list written with one sign, every correct argsort and data including NaN and infinities. Axis lists mixing signs regroup the data (c32_mixed_signs_refuted), which is why the quantifier excludes them."
  },
  {
   "property": "C33",
   "status": "proved",
   "theorems": [
    "c33_curve",
    "c33_bootstrap"
   ],
   "note": "c33_curve: all finite non-negative data, with or without skipping NaN. c33_bootstrap: every bootstrap entry for all draws and data including NaN."
  },
  {
   "property": "C34",
   "status": "partial",
   "theorems": [
    "c34_inputs_unchanged_refuted",
    "c34_inputs_unchanged_partial"
   ],
   "note": "REFUTED: sorting in place through views reorders the caller's arrays (c34_inputs_unchanged_refuted). c34_inputs_unchanged_partial: unchanged when sample and kept axes interleave, so that NumPy must copy. Caller's arrays assumed C-contiguous and distinct."
  },
  {
   "property": "C35",
   "status": "partial",
   "theorems": [
    "c35_iou_determ_partial",
    "c35_iou_prob_partial",
    "c35_no_axis_partial",
    "c35_no_axis_refuted"
   ],
   "note": "REFUTED with axis None (the default) when no event occurs: ZeroDivisionError instead of NaN (c35_no_axis_refuted). c35_iou_determ_partial, c35_iou_prob_partial: everything claimed holds for every explicit axis set; c35_no_axis_partial: and for axis None when an event occurs."
  },
  {
   "property": "C36",
   "status": "partial",
   "theorems": [
    "c36_single_pair_refuted",
    "c36_explicit_pair_partial"
   ],
   "note": "REFUTED: with the default None for the other pair every ensemble/parametric verifier raises AssertionError (c36_single_pair_refuted). c36_explicit_pair_partial: with the other pair written out as (None, None) the IOU is returned."
  },
  {
   "property": "C37",
   "status": "proved",
   "theorems": [
    "c37_range",
    "c37_complement",
    "c37_scalar_is_constant_array",
    "c37_rejects",
    "c37_accepts"
   ],
   "note": "For every behaviour of scipy's elementwise distribution functions, serial and parallel."
  },
  {
   "property": "C38",
   "status": "partial",
   "theorems": [
    "c38_parallel_partial",
    "c38_truncgamma_refuted",
    "c38_truncgamma_witness_refuted"
   ],
   "note": "REFUTED for the truncated Gamma distribution: with two or more workers every threshold gives the CDF at 3 (utils_dist.py 55 passes x=[3]); c38_truncgamma_*refuted. c38_parallel_partial: all other distributions."
  },
  {
   "property": "C39",
   "status": "partial",
   "theorems": [
    "c39_hurdle_partial",
    "c39_negative_refuted"
   ],
   "note": "REFUTED at negative thresholds, where the value is 1 - pop (c39_negative_refuted). c39_hurdle_partial: range, monotonicity, value at 0, limit 1."
  },
  {
   "property": "C40",
   "status": "partial",
   "theorems": [
    "c40_spread_partial",
    "c40_rank_hist_partial",
    "c40_spread_refuted",
    "c40_member_axis_refuted"
   ],
   "note": "REFUTED: both reduce over axis -1 whatever move_sampled_ens_axis is (c40_spread_refuted for every other position, c40_member_axis_refuted wrong values and a failing rank histogram). c40_*_partial: member axis last."
  },
  {
   "property": "C41",
   "status": "proved",
   "theorems": [
    "c41_clipping",
    "c41_accepts"
   ],
   "note": "Gaussian and Gamma verifiers, serial and parallel, any sampler; c41_accepts shows the runs exist."
  },
  {
   "property": "C42",
   "status": "proved",
   "theorems": [
    "c42_schedule"
   ],
   "note": "Any two worker counts and completion orders: equal arrays or both raise. Ray must not be running beforehand (see C65); worker counts at least 1."
  },
  {
   "property": "C43",
   "status": "proved",
   "theorems": [
    "c43_memory"
   ],
   "note": "Any completion orders and worker counts on both sides; values equal cell by cell, scratch file not live and all other files unchanged. File contents are exact (float32/float64 rounding of the map not modelled)."
  },
  {
   "property": "C44",
   "status": "partial",
   "theorems": [
    "c44_returned_partial",
    "c44_raised_refuted"
   ],
   "note": "REFUTED for calls that raise: the restoring code is not in a finally clause, so every call that raises after construction leaves pyanen_tqdm_disable='True' and, with several workers, pyanen_tqdm_workers='1' (c44_raised_refuted, for all inputs). c44_returned_partial: calls that return. int(str(z)) = z is a hypothesis on Python's int."
  },
  {
   "property": "C45",
   "status": "proved",
   "theorems": [
    "c45_mean_range",
    "c45_variance",
    "c45_crps",
    "c45_half_bin",
    "c45_crps_error"
   ],
   "note": "The true mean is that of an arbitrary positive linear functional (any probability distribution on ( lo, hi ]), c45_half_bin. Explicit finite range, at least two points. c45_crps_error: the integrated CRPS is within 3/2 bin widths of the integral that defines it (integrability of the extension to the reals is a hypothesis)."
  },
  {
   "property": "C46",
   "status": "partial",
   "theorems": [
    "c46_constant_refuted",
    "c46_nan_refuted",
    "c46_spread_partial"
   ],
   "note": "REFUTED: with equal observations every integrated quantity is 0 whatever the forecast (c46_constant_refuted); with one NaN observation every cell is NaN (c46_nan_refuted). c46_spread_partial: with finite, not all equal observations the range is finite and reaches beyond every observation."
  },
  {
   "property": "C47",
   "status": "partial",
   "theorems": [
    "c47_distinct_partial",
    "c47_shared_refuted"
   ],
   "note": "REFUTED: the scratch file name is fixed, and a concrete interleaving of two integrations in one directory makes one return 0 and the other raise FileNotFoundError (c47_shared_refuted). c47_distinct_partial: with different scratch files every interleaving gives each its own result."
  },
  {
   "property": "C48",
   "status": "proved",
   "theorems": [
    "c48_swap",
    "c48_shift",
    "c48_scale"
   ],
   "note": "Shift, scale and swap laws as equalities of whole results, including NaN and infinite entries; x ** power is an arbitrary function and scipy's t.cdf an arbitrary function."
  },
  {
   "property": "C49",
   "status": "proved",
   "theorems": [
    "c49_factor",
    "c49_variance_one_step",
    "c49_rejects",
    "c49_constant"
   ],
   "note": "Sign of the small-sample factor for every accepted h, non-negative one-step variance, exact rejection condition, and the value of the statistic for a constant differential (NaN, +inf or -inf by sign)."
  },
  {
   "property": "C50",
   "status": "proved",
   "theorems": [
    "c50_correlation_range",
    "c50_correlation_symmetric",
    "c50_correlation_affine",
    "c50_correlation_extremes"
   ],
   "note": "Range and invariances hold for all axes, draws and data including the bootstrap; equality cases per averaging group."
  },
  {
   "property": "C51",
   "status": "partial",
   "theorems": [
    "c51_correlation_per_slice_partial",
    "c51_brier_per_slice_partial",
    "c51_accepts_partial",
    "c51_negative_axes_refuted",
    "c51_no_axis_refuted"
   ],
   "note": "REFUTED for axis lists with negative entries and for the empty list (both rejected although plain averaging accepts them); the per-slice statement is proved for all other axis lists."
  },
  {
   "property": "C52",
   "status": "proved",
   "theorems": [
    "c52_normal",
    "c52_truncated",
    "c52_truncated_at",
    "c52_gaussian",
    "c52_unique",
    "c52_shape",
    "c52_slopes",
    "c52_median",
    "c52_limit"
   ],
   "note": "Proved over the reals with the normal distribution function constructed and shown to be the integral of its density (c52_normal); no library behaviour is assumed beyond stats.norm being it. Rounding is not modelled: for a truncation point far above the mean the code divides by 1 - F(l), which underflows in floating point."
  },
  {
   "property": "C53",
   "status": "proved",
   "theorems": [
    "c53_censored",
    "c53_reduced",
    "c53_slope",
    "c53_median"
   ],
   "note": "Proved over the reals for any gamma function and gamma CDF with the textbook properties listed in gamma_lib (Spec_crps.v); c53_lib shows they hold for the exponential distribution. c53_reduced: with the default reduce_sum=True the result is the mean of these scores. The TensorFlow branch and overflow of special.gamma for large shapes are not modelled."
  },
  {
   "property": "C54",
   "status": "partial",
   "theorems": [
    "c54_whole",
    "c54_split_partial",
    "c54_empty_refuted",
    "c54_scalar_refuted"
   ],
   "note": "REFUTED for empty first axes (the split raises ValueError, the whole returns an empty array) and for a single observation (IndexError). Proved for non-empty first axes, with the cell values of both settings."
  },
  {
   "property": "C55",
   "status": "proved",
   "theorems": [
    "c55_round_trip",
    "c55_raised",
    "c55_kept",
    "c55_accepts"
   ],
   "note": "Round trip through a reader written separately, for renderings without commas, parentheses and newlines; calls that raise change no file."
  },
  {
   "property": "C56",
   "status": "proved",
   "theorems": [
    "c56_coords",
    "c56_ordered",
    "c56_refused"
   ],
   "note": "Exact arithmetic, ASCII names with one rank number."
  },
  {
   "property": "C57",
   "status": "proved",
   "theorems": [
    "c57_general",
    "c57_names"
   ],
   "note": "NUL-padded ASCII names; the general theorem gives the decoding of every matrix (blanks are kept, other bytes raise)."
  },
  {
   "property": "C58",
   "status": "proved",
   "theorems": [
    "c58_import",
    "c58_again",
    "c58_lookups",
    "c58_flag",
    "c58_values"
   ],
   "note": "Import, second import, print_settings, the value of every default as it is read (c58_values), all os.environ lookups of the package, and which texts are flags (c58_flag)."
  },
  {
   "property": "C59",
   "status": "proved",
   "theorems": [
    "c59_constructed",
    "c59_raises",
    "c59_exception",
    "c59_accepts",
    "c59_set_axis"
   ],
   "note": "Successful construction and set_ensemble_axis for all shapes; raises when neither axis fits; accepts when one does and the other checks pass."
  },
  {
   "property": "C60",
   "status": "partial",
   "theorems": [
    "c60_ignored_refuted",
    "c60_constructed_partial",
    "c60_collapse_refuted"
   ],
   "note": "REFUTED: set_collapse_func only stores the function; the collapsed forecasts are not recomputed, so every deterministic metric keeps its value. The partial theorem says the metrics are those of the constructor's function right after construction."
  },
  {
   "property": "C61",
   "status": "partial",
   "theorems": [
    "c61_normalisation_partial",
    "c61_flat_refuted"
   ],
   "note": "REFUTED: the k-th frequency is compared with 1/(k+2) instead of 1/n, so every flat histogram has a positive index (c61_flat_refuted, all lengths). Proved: independence of the normalisation."
  },
  {
   "property": "C62",
   "status": "partial",
   "theorems": [
    "c62_duplicate_members_refuted",
    "c62_same_worker_partial",
    "c62_second_call_refuted",
    "c62_second_call_partial"
   ],
   "note": "REFUTED: forked workers start from the same generator state, so the first slices of two workers hold identical members when the parameters are equal (any sampler, any schedule with two workers). c62_same_worker_partial: slices of one worker use disjoint parts of the stream. Model assumption: processes start by fork and the generator is NumPy's global one. A second call repeats the members of the first when several workers are used, because the generator of the calling process has not moved (c62_second_call_refuted); with one worker it continues the stream (c62_second_call_partial)."
  },
  {
   "property": "C63",
   "status": "partial",
   "theorems": [
    "c63_pit_partial",
    "c63_accepts",
    "c63_rejects",
    "c63_rank_hist_partial",
    "c63_parallel_truncgamma_refuted"
   ],
   "note": "REFUTED for truncated Gamma with two or more workers (consequence of C38). c63_pit_partial: everything else; c63_accepts: when the call succeeds."
  },
  {
   "property": "C64",
   "status": "proved",
   "theorems": [
    "c64_value"
   ],
   "note": "Statistic and p-value against an independent formula; t.cdf arbitrary; rounding not modelled."
  },
  {
   "property": "C65",
   "status": "partial",
   "theorems": [
    "c65_ray_running_refuted",
    "c65_ray_left_refuted",
    "c65_after_returns_partial"
   ],
   "note": "REFUTED: ray.init raises RuntimeError when Ray runs (c65_ray_running_refuted) and a failing task leaves it running (c65_ray_left_refuted), so one failure makes all later parallel integrations with explicit workers fail. c65_after_returns_partial: after any number of integrations that returned, an integration answers as it would have at the beginning."
  },
  {
   "property": "C66",
   "status": "partial",
   "theorems": [
    "c66_lower_end_refuted",
    "c66_inside_partial"
   ],
   "note": "REFUTED: only increments of the CDF inside the range are summed; with all mass at the lower end the integrated mean is 0 for every lower end. c66_inside_partial: for every distribution the result is the expectation of the part inside ( lo, hi ] up to half a bin."
  },
  {
   "property": "C67",
   "status": "partial",
   "theorems": [
    "c67_joined_refuted",
    "c67_same_widths_partial"
   ],
   "note": "REFUTED: the numbers found are joined, so Rank1-Rank23 and Rank12-Rank3 give the same coordinates. c67_same_widths_partial: numbers written with equal widths never share a coordinate."
  },
  {
   "property": "C68",
   "status": "proved",
   "theorems": [
    "c68_ordered",
    "c68_large_collide"
   ],
   "note": "Flocq's binary64 rounding; uses the axioms of the Reals."
  },
  {
   "property": "C69",
   "status": "partial",
   "theorems": [
    "c69_own_partial",
    "c69_verifier_partial",
    "c69_own_refuted",
    "c69_exists"
   ],
   "note": "REFUTED for negative shifts: the closed form is that of the distribution with the probability below zero put on zero, while cdf() reports the shifted distribution itself; the score is strictly smaller than the CRPS of the reported CDF for every observation (c69_own_refuted). Proved for shifts that are not negative (c69_own_partial). With truncated=True the verifier raises NotImplementedError (c69_verifier_partial)."
  },
  {
   "property": "C70",
   "status": "partial",
   "theorems": [
    "c70_moments_partial",
    "c70_truncated_refuted",
    "c70_exists"
   ],
   "note": "REFUTED with truncated=True: f_determ and variance return mu and sigma^2 of the untruncated distribution, the mean of the truncated one is strictly larger and its variance strictly smaller, for all parameters. Proved without truncation (c70_moments_partial)."
  },
  {
   "property": "C71",
   "status": "partial",
   "theorems": [
    "c71_truncated_partial",
    "c71_shape_of_cdf",
    "c71_top_refuted",
    "c71_positive_shift_refuted"
   ],
   "note": "REFUTED at the upper end (from shift + 10000 scale on the reported probability is 0) and for positive shifts (NaN although nothing has to be cut off). Proved for shifts that are not positive and thresholds below the upper end. Assumes scipy's regularised incomplete gamma function to be 0 at 0, strictly increasing and below 1, and gammaincinv to be its inverse."
  },
  {
   "property": "C72",
   "status": "partial",
   "theorems": [
    "c72_members_partial",
    "c72_positive_shift_refuted"
   ],
   "note": "REFUTED: a single positive shift makes the sampling of the whole array fail with ValueError. Proved for shifts that are not positive, for any uniform numbers in [0,1)."
  },
  {
   "property": "C73",
   "status": "proved",
   "theorems": [
    "c73_gaussian",
    "c73_gamma",
    "c73_hurdle"
   ],
   "note": "scipy's distributions are assumed to be location-scale families (record families, valid arguments only). The truncated gamma clause is for a single worker, because with several workers the truncation is lost (C38)."
  },
  {
   "property": "C74",
   "status": "partial",
   "theorems": [
    "c74_integral_partial",
    "c74_limit_partial",
    "c74_negative_refuted",
    "c74_above_one_refuted",
    "c74_agreeing_members_refuted",
    "c74_rejects"
   ],
   "note": "REFUTED: negative below the lower end of the integral, above 1 for large thresholds, and below 1/2 when the members agree. Proved: error bound and limit towards the mass between the lower end and the threshold, and which arguments are rejected. Gaussian kernel in real arithmetic."
  },
  {
   "property": "C75",
   "status": "proved",
   "theorems": [
    "c75_area",
    "c75_area_range",
    "c75_curve",
    "c75_order_only",
    "c75_complement",
    "c75_undefined",
    "c75_metric"
   ],
   "note": "sklearn's roc_curve (with dropping of intermediate points) and auc are part of the model. Exact arithmetic."
  },
  {
   "property": "C76",
   "status": "partial",
   "theorems": [
    "c76_missing_is_nonevent",
    "c76_missing_observation_refuted",
    "c76_missing_forecast_partial"
   ],
   "note": "REFUTED for missing observations: they are turned into non-events before anything is skipped, for every threshold and every metric that sees the observations through binarize_obs (witness for ROC, universal formula for Brier). Missing forecasts are skipped in the ROC curve (c76_missing_forecast_partial)."
  },
  {
   "property": "C77",
   "status": "proved",
   "theorems": [
    "c77_integral",
    "c77_range",
    "c77_implementations"
   ],
   "note": "Both implementations of properscoring's crps_ensemble (with and without numba) are part of the model. Exact arithmetic, finite members; c77_implementations also with missing members."
  },
  {
   "property": "C78",
   "status": "partial",
   "theorems": [
    "c78_crps_partial",
    "c78_cdf_partial",
    "c78_missing_refuted"
   ],
   "note": "REFUTED for probabilities and the Brier score, which count a missing member as lying above every threshold (exact scaling in c78_cdf_partial). Proved: the CRPS leaves missing members out."
  },
  {
   "property": "C79",
   "status": "proved",
   "theorems": [
    "c79_values",
    "c79_ragged"
   ],
   "note": "c79_values: every entry of the curve and the counts when the slices occupy equally many bins (always so without kept axes); c79_ragged: the error otherwise. np_quantile is the interpolated quantile of C17."
  },
  {
   "property": "C80",
   "status": "proved",
   "theorems": [
    "c80_opened",
    "c80_early_return",
    "c80_name_taken"
   ],
   "note": "The part of open_dataset after xr.open_dataset has returned; xarray's operations on data sets (assignment, coordinates, rename) are modelled on lists of named variables. Values and their conversions are arbitrary. Files that are not as the package writes them: c80_early_return and c80_name_taken."
  },
  {
   "property": "C81",
   "status": "partial",
   "theorems": [
    "c81_times_partial",
    "c81_search_labels_refuted",
    "c81_undecodable_refuted"
   ],
   "note": "REFUTED: num_search_times is missing from the list of time variables, so its labels stay plain numbers while search_times is decoded (c81_search_labels_refuted); a character variable that is not a matrix makes the function return before units are set (c81_undecodable_refuted). Proved for the other time variables and labels (c81_times_partial)."
  },
  {
   "property": "C82",
   "status": "proved",
   "theorems": [
    "c82_coordinates"
   ],
   "note": "c82_coordinates, on top of the model of open_dataset."
  },
  {
   "property": "C83",
   "status": "proved",
   "theorems": [
    "c83_saving_off",
    "c83_rmse",
    "c83_history"
   ],
   "note": "Any draws with saving off (c83_saving_off, c83_rmse); histories with saving on for calls without random numbers (c83_history). The hurdle class without the scratch file of the integration (C65 is about that file)."
  },
  {
   "property": "C84",
   "status": "proved",
   "theorems": [
    "c84_constructor",
    "c84_setters"
   ],
   "note": "Equivalence for all constructors (c84_constructor) and all validating setters (c84_setters), any values and any well-formed file system; permissions and full disks are not modelled."
  },
  {
   "property": "C85",
   "status": "proved",
   "theorems": [
    "c85_encoding",
    "c85_errors",
    "c85_probability",
    "c85_brier",
    "c85_roc",
    "c85_crps",
    "c85_spread",
    "c85_iou",
    "c85_ensemble_mean",
    "c85_iou_prob",
    "c85_bootstrap"
   ],
   "note": "The state machine with its library filled by the value models (M_whole). Ensemble probabilities with the default method; finite data where a mean is claimed; the square root of rmse is an oracle; IoU with given axes (without axes see C35); ensemble means right after construction (a collapse function set later has no effect, C60); bootstrapping with saving off and axes of one sign."
  },
  {
   "property": "C86",
   "status": "partial",
   "theorems": [
    "c86_any_order",
    "c86_stations_partial",
    "c86_places",
    "c86_same_rank_refuted",
    "c86_sources"
   ],
   "note": "REFUTED: of two files with the same rank number (say in two directories) only the last is kept, without an error (c86_same_rank_refuted). With different rank numbers (c86_stations_partial, c86_places) and for the order of the paths (c86_any_order) it holds; which paths a list or a pattern stands for is c86_sources. Nothing is claimed for files whose variables differ: the model refuses them, xarray would try to merge them. xarray's joining is part of the model (M_mfnc)."
  },
  {
   "property": "C87",
   "status": "partial",
   "theorems": [
    "c87_completed_partial",
    "c87_decoded",
    "c87_strict_refuted"
   ],
   "note": "REFUTED for xarray versions that refuse concat_dim with combine='by_coords': no group without places can be opened (c87_strict_refuted). Otherwise proved (c87_completed_partial, c87_decoded)."
  },
  {
   "property": "C88",
   "status": "partial",
   "theorems": [
    "c88_metric_footprint",
    "c88_scratch_removed",
    "c88_history",
    "c88_scratch_left_refuted"
   ],
   "note": "REFUTED in one point: a call that fails while it integrates leaves the scratch file (c88_scratch_left_refuted). The rest is proved for every metric call (c88_metric_footprint), for calls that return (c88_scratch_removed) and for whole histories (c88_history, where expanding ~ twice is expanding it once)."
  },
  {
   "property": "C89",
   "status": "partial",
   "theorems": [
    "c89_density",
    "c89_total",
    "c89_logpdf_refuted",
    "c89_lower_end"
   ],
   "note": "REFUTED for logpdf: _logpdf(self, x, a) cannot take the three shape parameters scipy hands it, so logpdf raises TypeError at every point of the support (c89_logpdf_refuted). The density is proved (c89_density, c89_total; c89_lower_end: infinite at the lower end for shapes below 1 without truncation from below). Assumes of gammainc and gammaln that gammainc is strictly increasing and has the gamma density as derivative (Spec_density.v)."
  },
  {
   "property": "C90",
   "status": "partial",
   "theorems": [
    "c90_report",
    "c90_same_text",
    "c90_hidden_refuted",
    "c90_nameless_refuted"
   ],
   "note": "REFUTED: clip_member_to_zero, n_approx_bins and integration_range are not shown (c90_hidden_refuted), and repr raises AttributeError for an ensemble whose collapse function has no __name__ (c90_nameless_refuted). The lines shown are proved exactly (c90_report), and to determine the settings listed (c90_same_text)."
  },
  {
   "property": "C91",
   "status": "partial",
   "theorems": [
    "c91_decomposition",
    "c91_sum",
    "c91_reliability",
    "c91_ranks",
    "c91_sum_refuted"
   ],
   "note": "REFUTED for twenty members: the shares 19/20 and 20/20 fall into the same bin, and the three terms do not add up to the Brier score (c91_sum_refuted). For at most nineteen members they do (c91_sum). Terms, diagram and ranks are proved as stated (c91_decomposition: axes counted from the front; c91_reliability: axes of one sign; c91_ranks: saving off, no missing values)."
  },
  {
   "property": "C92",
   "status": "partial",
   "theorems": [
    "c92_same_partial",
    "c92_nan_refuted",
    "c92_crps_partial"
   ],
   "note": "REFUTED: tf.math.igamma is NaN for negative arguments where the CDF of SciPy is 0, so with the setting on a score is NaN exactly when the shift is positive or the observation is below the shift (c92_nan_refuted); otherwise both settings agree (c92_same_partial), and for amounts both give the CRPS of the censored distribution (c92_crps_partial). Assumed of the two libraries: tf_lib in Props_crpstf.v. Element types are not modelled (TensorFlow refuses to mix them)."
  },
  {
   "property": "C93",
   "status": "proved",
   "theorems": [
    "c93_probability",
    "c93_brier",
    "c93_roc",
    "c93_decomposition",
    "c93_reliability",
    "c93_iou_prob",
    "c93_errors",
    "c93_variance",
    "c93_pit",
    "c93_pit_randomized",
    "c93_members",
    "c93_spread",
    "c93_ranks"
   ],
   "note": "One public metric each, from the constructor to the number: c93_probability (per cell, also for missing values), c93_brier, c93_roc, c93_decomposition (terms and sum), c93_reliability, c93_iou_prob, c93_errors, c93_variance, c93_pit, c93_pit_randomized, c93_members, c93_spread, c93_ranks. SciPy's distribution functions and samplers are arbitrary functions. Sampled members: one worker, saving off (several workers are C62, saved files C83). The truncated gamma distribution with several workers: see C38."
  },
  {
   "property": "C94",
   "status": "proved",
   "theorems": [
    "c94_brier_range",
    "c94_bias",
    "c94_sign",
    "c94_mean_error",
    "c94_probability"
   ],
   "note": "Binary64 as in Flocq (round to nearest even, no overflow); sums along an arbitrary tree. c94_mean_error bounds the distance to the exact averages of the other properties."
  },
  {
   "property": "C95",
   "status": "partial",
   "theorems": [
    "c95_rmse_partial",
    "c95_mean_bounds_refuted",
    "c95_rmse_refuted",
    "c95_variance_refuted",
    "c95_integers_partial",
    "c95_mean_bounds_partial"
   ],
   "note": "REFUTED: three times 0.1 have a mean above 0.1 (c95_mean_bounds_refuted), a mean absolute error above the root mean square error (c95_rmse_refuted) and a positive variance (c95_variance_refuted). c95_mean_bounds_partial: the bounds hold up to the error of c94_mean_error; c95_rmse_partial: the mean absolute error exceeds the root mean square error by roundings only; c95_integers_partial: for integers whose absolute values add up to at most 2^53 the mean is the rounded exact mean, lies within the bounds, and identical members have variance zero."
  },
  {
   "property": "C96",
   "status": "proved",
   "theorems": [
    "c96_reliability_bins"
   ],
   "note": "The 1e-8 added to the last edge keeps rounding from moving a probability over an edge; it also makes the bins closed on the right. The bound on n * nbins is needed for the distance between different fractions."
  },
  {
   "property": "C97",
   "status": "partial",
   "theorems": [
    "c97_decomposition_bins_partial",
    "c97_decomposition_bins_refuted"
   ],
   "note": "REFUTED: 3 of 20 members below the threshold fall into bin 2 instead of 3, the same share over a threshold into bin 3 (c97_decomposition_bins_refuted). c97_decomposition_bins_partial describes the bin of every probability: right except for probabilities of exactly j/20 with j = 3, 6, 7, 12, 14, 17, 19 (below) and j = 2, 4, 7, 9, 12, 14, 17, 19 (over), which fall into the bin below."
  },
  {
   "property": "C98",
   "status": "proved",
   "theorems": [
    "c98_bias",
    "c98_errors",
    "c98_variance",
    "c98_brier"
   ],
   "note": "u = 2^-53; near k a b says (1-u)^k b <= a <= (1+u)^k b. Overflow is not modelled. c98_brier needs no condition on the size of the numbers."
  },
  {
   "property": "C99",
   "status": "partial",
   "theorems": [
    "c99_separate_partial",
    "c99_shared_refuted",
    "c99_nested_refuted"
   ],
   "note": "REFUTED when directories are shared (c99_shared_refuted: numbers of another verifier) or nested (c99_nested_refuted: FileNotFoundError). c99_separate_partial proves it for a verifier whose directories are apart from all others, for programs with no scratch file (less-memory setting off, or no hurdle verifier; C47 and C88 are about the scratch file), where expanding ~ twice is expanding it once."
  },
  {
   "property": "C100",
   "status": "partial",
   "theorems": [
    "c100_probabilities",
    "c100_brier_partial",
    "c100_roc_partial",
    "c100_refuted"
   ],
   "note": "REFUTED for the scores when an observation is equal to the threshold (c100_refuted: Brier scores 1/3 and 0, areas 3/4 and 1). c100_probabilities is unconditional; c100_brier_partial and c100_roc_partial assume that no observation is equal to the threshold or missing, and for the area that both kinds of cases occur. From C85; ensemble verifiers with the default method."
  },
  {
   "property": "C101",
   "status": "partial",
   "theorems": [
    "c101_errors",
    "c101_ensemble",
    "c101_brier_partial",
    "c101_roc_partial",
    "c101_iou",
    "c101_refuted"
   ],
   "note": "REFUTED for below=t when an observation is equal to the threshold (c101_refuted: Brier score 1/3, area 3/4). c101_errors, c101_ensemble and c101_iou hold for all finite data; c101_brier_partial and c101_roc_partial for over=t, and for below=t without such observations. rmse is the root (oracle) of an array that is 0. From C85."
  },
  {
   "property": "C102",
   "status": "proved",
   "theorems": [
    "c102_events",
    "c102_crps_spread"
   ],
   "note": "From C85: values after any history of either verifier; default method; finite data for CRPS and spread. Probabilities, Brier score and area also with infinite or missing members."
  },
  {
   "property": "C103",
   "status": "proved",
   "theorems": [
    "c103_errors",
    "c103_crps_spread",
    "c103_events"
   ],
   "note": "From C85: values after any history of either verifier; default method; exact arithmetic, finite data for errors, CRPS and spread; thresholds may be arrays."
  },
  {
   "property": "C104",
   "status": "proved",
   "theorems": [
    "c104_errors",
    "c104_crps",
    "c104_brier",
    "c104_roc",
    "c104_nonvacuous"
   ],
   "note": "From C85; default method; exact arithmetic; finite data."
  },
  {
   "property": "C105",
   "status": "proved",
   "theorems": [
    "c105_errors",
    "c105_ensemble",
    "c105_brier",
    "c105_missing",
    "c105_missing_differs",
    "c105_nonvacuous",
    "c105_ensemble_nonvacuous"
   ],
   "note": "From C85; c105_missing gives the averages with missing values for error, squared and absolute error; c105_missing_differs shows data where the mean of the means is another number."
  },
  {
   "property": "C106",
   "status": "proved",
   "theorems": [
    "c106_one_member",
    "c106_repeated_events",
    "c106_repeated_crps_spread",
    "c106_nonvacuous",
    "c106_repeated_nonvacuous"
   ],
   "note": "From C85; default method; exact arithmetic; finite data for CRPS and spread."
  },
  {
   "property": "C107",
   "status": "proved",
   "theorems": [
    "c107_averages",
    "c107_arrays",
    "c107_reliability",
    "c107_brier",
    "c107_correlation",
    "c107_program",
    "c107_program_nonvacuous"
   ],
   "note": "Same generator under both levels. c107_program: error metrics of a verifier that saves nothing (a saved result does not change with the level); the other theorems are about the functions that make the intervals. In exact arithmetic; correlation in real numbers."
  },
  {
   "property": "C108",
   "status": "proved",
   "theorems": [
    "c108_errors",
    "c108_brier",
    "c108_roc",
    "c108_crps",
    "c108_nonvacuous",
    "c108_crps_nonvacuous"
   ],
   "note": "From C85; default method; exact arithmetic; finite data. The excess of the CRPS is shown to be the integral of the squared difference of the two distribution functions (P_laws3.v)."
  },
  {
   "property": "C109",
   "status": "proved",
   "theorems": [
    "c109_order",
    "c109_ends",
    "c109_nonvacuous"
   ],
   "note": "From C85; default method. A missing member counts as above every threshold (see C78), an observation does not matter."
  },
  {
   "property": "C110",
   "status": "proved",
   "theorems": [
    "c110_ranks",
    "c110_no_ties",
    "c110_reversed",
    "c110_program"
   ],
   "note": "c110_program: two verifiers that save nothing, one process (several processes with ties draw per slice: C20). Exact arithmetic; finite data in the program version."
  },
  {
   "property": "C111",
   "status": "partial",
   "theorems": [
    "c111_terms",
    "c111_opposite_off_edges_partial",
    "c111_opposite_partial",
    "c111_opposite_refuted"
   ],
   "note": "REFUTED for the opposite event with 20 members or more (c111_opposite_refuted: with 20 members 19/20 and 20/20 share the last bin, 1/20 and 0 do not); proved for at most 19 members (c111_opposite_partial) and for any number if no probability given is on an inner edge of the bins (c111_opposite_off_edges_partial). The equivalences are proved for all (c111_terms). Averaging without bootstrap."
  },
  {
   "property": "C112",
   "status": "proved",
   "theorems": [
    "c112_probabilities",
    "c112_opposite",
    "c112_roc",
    "c112_thresholds",
    "c112_units",
    "c112_units_pit"
   ],
   "note": "The thresholds theorem takes scipy's distribution functions to be nondecreasing where they are numbers, the units theorems to be location-scale families; the rest assumes only that the probabilities are numbers between 0 and 1. For the truncated and hurdle distributions zero must stay zero in the other units. Averaging without bootstrap."
  },
  {
   "property": "C113",
   "status": "proved",
   "theorems": [
    "c113_variance",
    "c113_spread_skill_ensemble",
    "c113_spread_skill_parametric",
    "c113_correlation"
   ],
   "note": "np.argsort is any function that sorts, np.sqrt and np.corrcoef are arbitrary functions (C33 and C50 treat the real-number versions). Without bootstrap; finite data for the diagram; axes of one sign for the diagram and non-negative axes for the correlation (C32, C51 treat the others)."
  },
  {
   "property": "C114",
   "status": "proved",
   "theorems": [
    "c114_integrals",
    "c114_sound",
    "c114_errors",
    "c114_spread_skill",
    "c114_correlation",
    "c114_crps",
    "c114_any_way"
   ],
   "note": "scipy's distribution functions and the CRPS formula of one cell are arbitrary functions (C34, C37, C46 treat the formulas); the distribution functions take finite values in [0, 1] and, for the bounds, do not decrease. Without bootstrap; finite integration range and, unless it is given, finite observations."
  },
  {
   "property": "C115",
   "status": "proved",
   "theorems": [
    "c115_saved_or_not",
    "c115_resamples",
    "c115_within",
    "c115_exception"
   ],
   "note": "Axes counted all from the front or all from the back (mixed lists: C14 refutes them). The verifier without saving may be in any state; with saving it was constructed with start_from_scratch=True and enable_saving is not called again. How the library turns the random number into draws is arbitrary."
  },
  {
   "property": "C116",
   "status": "proved",
   "theorems": [
    "c116_reliability_ensemble",
    "c116_ragged_ensemble",
    "c116_decomposition_ensemble",
    "c116_reliability_parametric",
    "c116_ragged_parametric",
    "c116_decomposition_parametric"
   ],
   "note": "Probabilities must lie in a bin as digitized by the code (edges up to 1+1e-8). For the decomposition the axes are None or non-empty and not negative (C51 refutes negative ones). How the library turns the random number into draws is arbitrary."
  },
  {
   "property": "C117",
   "status": "proved",
   "theorems": [
    "c117_members",
    "c117_variance_range",
    "c117_variance_laws"
   ],
   "note": "That the collapsed forecast is the mean of the members is a hypothesis here (C85 proves it of the constructor with np.mean). The order and units laws of crps() and spread() are C102 and C103."
  },
  {
   "property": "C118",
   "status": "proved",
   "theorems": [
    "c118_spread_skill_ensemble",
    "c118_spread_skill_parametric",
    "c118_correlation"
   ],
   "note": "np.argsort, np.sqrt and np.corrcoef are the functions of the record stats (any functions; argsort sorts; keeps_order, for the intervals only, says the root is monotone)."
  },
  {
   "property": "C119",
   "status": "partial",
   "theorems": [
    "c119_errors",
    "c119_crps_spread",
    "c119_iou",
    "c119_events_partial",
    "c119_refuted"
   ],
   "note": "REFUTED for cdf(), brier() and roc(): a member equal to the threshold counts as below it but not as over it, so its mirror image counts on the other side; Brier scores and ROC areas differ (c119_refuted). Proved as stated for error(), sq_error(), ab_error(), crps(), spread() and iou_determ(), and for the event scores when no member is equal to the threshold (c119_events_partial)."
  },
  {
   "property": "C120",
   "status": "proved",
   "theorems": [
    "c120_errors",
    "c120_crps_spread",
    "c120_brier",
    "c120_appended"
   ],
   "note": "Proved as stated for verifiers reached by any history of calls, without bootstrapping and with finite data; NaN observations and bootstrapped scores are not covered."
  },
  {
   "property": "C121",
   "status": "proved",
   "theorems": [
    "c121_errors",
    "c121_crps",
    "c121_spread",
    "c121_brier",
    "c121_without"
   ],
   "note": "Proved as stated for verifiers reached by any history of calls, without bootstrapping, for both implementations of properscoring. Infinite values are not covered. See C76 and C78 for the functions themselves."
  },
  {
   "property": "C122",
   "status": "proved",
   "theorems": [
    "c122_bootstrap",
    "c122_errors"
   ],
   "note": "Proved as stated for verifiers reached by any history of calls and metrics averaged over cells (error, sq_error, ab_error, crps, brier, spread of an ensemble). Averaged axes are all non-negative or all negative (see C14), dimensions are not empty, values are finite, confidence lies in [0, 1], and at least one sample and one repeat are drawn."
  },
  {
   "property": "C123",
   "status": "proved",
   "theorems": [
    "c123_errors",
    "c123_crps_spread",
    "c123_events"
   ],
   "note": "Proved as stated for verifiers reached by any history of calls; the CRPS of a cell may be any function of observation and members. With bootstrapping the averaged axes are all non-negative or all negative, no dimension is empty, and at least one sample and one repeat are drawn. Probabilities are computed by counting members (Moments) and with one worker or a non-empty shape."
  },
  {
   "property": "C124",
   "status": "proved",
   "theorems": [
    "c124_kernels",
    "c124_integral",
    "c124_bounded",
    "c124_agreeing_members",
    "c124_names"
   ],
   "note": "Proved as stated over the reals (no rounding or underflow; the tolerance rtol=1E-8 of score_samples is neglected). That the distribution functions of the specification belong to the kernels is c124_kernels. C74 says what goes wrong with the default kernel."
  },
  {
   "property": "C125",
   "status": "proved",
   "theorems": [
    "c125_probability",
    "c125_brier",
    "c125_roc",
    "c125_failure"
   ],
   "note": "Proved as stated, for finite values of the method, at least one cell, and thresholds that are numbers or arrays of the shape of the observations. C85 is the method of the shares of members, C124 the kernel density estimate of one cell."
  }
 ]
}