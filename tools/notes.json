{
 "C11": {
  "note": "Any rank, any axes; values compared in exact arithmetic (no rounding)."
 },
 "C12": {
  "note": "Cells are finite or NaN."
 },
 "C13": {
  "note": "rmse and its bound in R (sqrt); everything else in exact rationals."
 },
 "C14": {
  "note": "REFUTED as stated: mixed-sign axis lists such as (1,-1) on rank 3 resample the wrong axes (c14_mixed_signs_refuted). Proved (_partial) for avg_axis None, all-non-negative and all-negative axis lists of any rank; c14_every_resample_possible is the converse for one group."
 },
 "C15": {
  "note": "REFUTED as stated (c15_mixed_signs_refuted: axes spelled with mixed signs such as (1,-1) repeat one dimension and leave another, so the bootstrap mean of an all-zero group is 1). Proved for one-signed axis spellings (c15_bootstrap_within_data_partial); c15_bootstrap_with_nan covers NaN cells per group."
 },
 "C16": {
  "note": "REFUTED: 50 resamples with one non-zero resample mean put the mean above the upper quantile. c16_bracket_partial characterises exactly when it can happen: for 0 <= confidence <= 1 the claim holds for all data and draws if and only if repeats * (1 - confidence) <= 2 (50 with the default settings)."
 },
 "C18": {
  "note": "Any rank, any worker count and map axis, every random tie break; cells with finite values."
 },
 "C19": {
  "note": "REFUTED: the tie loop skips the smallest tie count present in the array (utils_verify.py 41-45 starts at index 1), so cells with the fewest ties always get the lowest admissible rank. c19_randomised_partial: every admissible rank is possible for the cells with more ties than the minimum."
 },
 "C20": {
  "note": "Cells without ties; c20_accepts shows which worker counts and axes run at all."
 },
 "C21": {
  "note": "Finite or missing values (a member sum of +inf and -inf is also masked, see c21_opposite_infinities)."
 },
 "C22": {
  "note": "pyanen_ens_to_prob_method = Moments; NaN members count as above the threshold (stated)."
 },
 "C23": {
  "note": "All methods (kernel density as an arbitrary function of a column); arrays with at least one cell (c23_no_cells shows the other case)."
 },
 "C25": {
  "note": "REFUTED for below-thresholds equal to the observation: ens_to_prob_moments uses <=, binarize_obs uses <. Proved (_partial) for over-thresholds and for below-thresholds different from the observation."
 },
 "C26": {
  "note": "Cells, averages and bootstrap bounds, any axis spelling; NaN probabilities covered by c26_brier_missing."
 },
 "C27": {
  "note": "Through brier_decomp for all shapes, axes without negative entries, groups and data."
 },
 "C28": {
  "note": "Point estimates, every bootstrap entry for all draws, and independence of sample order."
 },
 "C50": {
  "note": "Range and invariances hold for all axes, draws and data including the bootstrap; equality cases per averaging group."
 },
 "C51": {
  "note": "REFUTED for axis lists with negative entries and for the empty list (both rejected although plain averaging accepts them); the per-slice statement is proved for all other axis lists."
 },
 "C01": {
  "note": "REFUTED as stated: a save name chosen by the caller can alias another metric, a rejected set_avg_axis leaves stale files readable, and short array thresholds with equal printed text share a file. The partial theorem proves the claim for every class, disk and history of default-named (or unsaved) metric calls and well-typed setters."
 },
 "C02": {
  "note": "REFUTED: iou_determ after set_avg_axis and crps after set_truncated return the old saved result; c02_every_dependent_metric_refuted shows the same for every (class, metric, setting) where the saved result depends on the setting (66 combinations). The positive theorems cover histories of metric calls and changes of boot_samples, and (c02_unaffected_partial) every history of metric calls and setters, accepted or rejected, in which no saved result depends on a changed setting."
 },
 "C03": {
  "note": "For all pairs of default-named calls whose arguments print with the characters of numbers/None/bools/tuples."
 },
 "C04": {
  "note": "Six theorems, one per clause; zero-dimensional arrays raise TypeError."
 },
 "C05": {
  "note": "For every saved metric that is not averaged afterwards (includes rank_hist, prob_to_ens, pit); metric calls in between are arbitrary, including other save names."
 },
 "C06": {
  "note": "Constructors and every re-validating setter, accepted or rejected; the emptied-directory part for accepted calls."
 },
 "C07": {
  "note": "REFUTED: class checks run after the directory has been emptied, and a rejected setter keeps the invalid attribute. The partial theorems prove that values the base class rejects leave the disk untouched."
 },
 "C08": {
  "note": "Any number of interrupted runs, every byte prefix of every write; pickle is assumed to raise on a proper prefix of a dump."
 },
 "C09": {
  "note": "REFUTED: a truncated file makes the metric raise in every later run. The partial theorem covers crashes between two writes."
 },
 "C10": {
  "note": "REFUTED for the hurdle class with pyanen_integrate_with_less_memory: its scratch file is created in (and removed from) the current directory. Everything else is proved."
 },
 "C29": {
  "note": "Proved for every number of bins and every probability in [0,1]: exactly one bin, monotone in the probability, 1.0 in the last bin exactly when nbins <= 10^8+1, and the sample counts are those of the bins."
 },
 "C30": {
  "note": "c30_values gives every returned entry; c30_reliability_points the curve properties. For every shape and every axis list written with one sign (mixed signs regroup the data wrongly, see C14); the loop that moves the axes is the one of boot_arr. With one slice the counts carry the bin numbers and outcomes as labels."
 },
 "C31": {
  "note": "REFUTED: empty bins are dropped per slice, so entry j of two slices may refer to different bins (c31_same_bin_refuted) and slices may have different lengths, giving a ragged object array (c31_ragged_refuted). c31_same_bin_partial: it holds for slices that occupy the same set of bins."
 },
 "C32": {
  "note": "Proved for every shape, every axis list written with one sign, every correct argsort and data including NaN and infinities. Axis lists mixing signs regroup the data (c32_mixed_signs_refuted), which is why the quantifier excludes them.",
  "status": "proved"
 },
 "C33": {
  "note": "c33_curve: all finite non-negative data, with or without skipping NaN. c33_bootstrap: every bootstrap entry for all draws and data including NaN."
 },
 "C34": {
  "note": "REFUTED: sorting in place through views reorders the caller's arrays (c34_inputs_unchanged_refuted). c34_inputs_unchanged_partial: unchanged when sample and kept axes interleave, so that NumPy must copy. Caller's arrays assumed C-contiguous and distinct."
 },
 "C35": {
  "note": "REFUTED with axis None (the default) when no event occurs: ZeroDivisionError instead of NaN (c35_no_axis_refuted). c35_iou_determ_partial, c35_iou_prob_partial: everything claimed holds for every explicit axis set; c35_no_axis_partial: and for axis None when an event occurs."
 },
 "C24": {
  "note": "Proved on the object machine for every threshold metric (c24_rejects, c24_iou_determ_rejects, c24_iou_prob_rejects; c24_accepts, c24_iou_prob_accepts) and for the modelled library functions (c24_functions_*, c24_iou_functions_*). A result already stored under the name is returned without the check; acceptance is stated for a library whose only assertions are the threshold checks."
 },
 "C36": {
  "note": "REFUTED: with the default None for the other pair every ensemble/parametric verifier raises AssertionError (c36_single_pair_refuted). c36_explicit_pair_partial: with the other pair written out as (None, None) the IOU is returned."
 },
 "C17": {
  "note": "REFUTED: averages use levels (1-c)/2 and (1+c)/2, the other four products 1-c and c (c17_levels_refuted), and below c = 1/2 the latter return lower > upper (c17_order_refuted). c17_*_partial: in order for averages at every c, and for the other four products exactly described: in order from c = 1/2 on, reversed below."
 },
 "C37": {
  "note": "For every behaviour of scipy's elementwise distribution functions, serial and parallel."
 },
 "C38": {
  "note": "REFUTED for the truncated Gamma distribution: with two or more workers every threshold gives the CDF at 3 (utils_dist.py 55 passes x=[3]); c38_truncgamma_*refuted. c38_parallel_partial: all other distributions."
 },
 "C39": {
  "note": "REFUTED at negative thresholds, where the value is 1 - pop (c39_negative_refuted). c39_hurdle_partial: range, monotonicity, value at 0, limit 1."
 },
 "C40": {
  "note": "REFUTED: both reduce over axis -1 whatever move_sampled_ens_axis is (c40_spread_refuted for every other position, c40_member_axis_refuted wrong values and a failing rank histogram). c40_*_partial: member axis last."
 },
 "C41": {
  "note": "Gaussian and Gamma verifiers, serial and parallel, any sampler; c41_accepts shows the runs exist."
 },
 "C62": {
  "note": "REFUTED: forked workers start from the same generator state, so the first slices of two workers hold identical members when the parameters are equal (any sampler, any schedule with two workers). c62_same_worker_partial: slices of one worker use disjoint parts of the stream. Model assumption: processes start by fork and the generator is NumPy's global one. A second call repeats the members of the first when several workers are used, because the generator of the calling process has not moved (c62_second_call_refuted); with one worker it continues the stream (c62_second_call_partial)."
 },
 "C63": {
  "note": "REFUTED for truncated Gamma with two or more workers (consequence of C38). c63_pit_partial: everything else; c63_accepts: when the call succeeds."
 },
 "C48": {
  "note": "Shift, scale and swap laws as equalities of whole results, including NaN and infinite entries; x ** power is an arbitrary function and scipy's t.cdf an arbitrary function."
 },
 "C49": {
  "note": "Sign of the small-sample factor for every accepted h, non-negative one-step variance, exact rejection condition, and the value of the statistic for a constant differential (NaN, +inf or -inf by sign)."
 },
 "C61": {
  "status": "partial",
  "note": "REFUTED: the k-th frequency is compared with 1/(k+2) instead of 1/n, so every flat histogram has a positive index (c61_flat_refuted, all lengths). Proved: independence of the normalisation."
 },
 "C64": {
  "note": "Statistic and p-value against an independent formula; t.cdf arbitrary; rounding not modelled."
 },
 "C42": {
  "note": "Any two worker counts and completion orders: equal arrays or both raise. Ray must not be running beforehand (see C65); worker counts at least 1."
 },
 "C43": {
  "note": "Any completion orders and worker counts on both sides; values equal cell by cell, scratch file not live and all other files unchanged. File contents are exact (float32/float64 rounding of the map not modelled)."
 },
 "C44": {
  "note": "REFUTED for calls that raise: the restoring code is not in a finally clause, so every call that raises after construction leaves pyanen_tqdm_disable='True' and, with several workers, pyanen_tqdm_workers='1' (c44_raised_refuted, for all inputs). c44_returned_partial: calls that return. int(str(z)) = z is a hypothesis on Python's int."
 },
 "C45": {
  "note": "The true mean is that of an arbitrary positive linear functional (any probability distribution on ( lo, hi ]), c45_half_bin. Explicit finite range, at least two points. c45_crps_error: the integrated CRPS is within 3/2 bin widths of the integral that defines it (integrability of the extension to the reals is a hypothesis)."
 },
 "C46": {
  "note": "REFUTED: with equal observations every integrated quantity is 0 whatever the forecast (c46_constant_refuted); with one NaN observation every cell is NaN (c46_nan_refuted). c46_spread_partial: with finite, not all equal observations the range is finite and reaches beyond every observation."
 },
 "C47": {
  "note": "REFUTED: the scratch file name is fixed, and a concrete interleaving of two integrations in one directory makes one return 0 and the other raise FileNotFoundError (c47_shared_refuted). c47_distinct_partial: with different scratch files every interleaving gives each its own result."
 },
 "C65": {
  "note": "REFUTED: ray.init raises RuntimeError when Ray runs (c65_ray_running_refuted) and a failing task leaves it running (c65_ray_left_refuted), so one failure makes all later parallel integrations with explicit workers fail. c65_after_returns_partial: after any number of integrations that returned, an integration answers as it would have at the beginning."
 },
 "C66": {
  "note": "REFUTED: only increments of the CDF inside the range are summed; with all mass at the lower end the integrated mean is 0 for every lower end. c66_inside_partial: for every distribution the result is the expectation of the part inside ( lo, hi ] up to half a bin."
 },
 "C59": {
  "note": "Successful construction and set_ensemble_axis for all shapes; raises when neither axis fits; accepts when one does and the other checks pass."
 },
 "C60": {
  "note": "REFUTED: set_collapse_func only stores the function; the collapsed forecasts are not recomputed, so every deterministic metric keeps its value. The partial theorem says the metrics are those of the constructor's function right after construction.",
  "status": "partial"
 },
 "C54": {
  "note": "REFUTED for empty first axes (the split raises ValueError, the whole returns an empty array) and for a single observation (IndexError). Proved for non-empty first axes, with the cell values of both settings.",
  "status": "partial"
 },
 "C55": {
  "note": "Round trip through a reader written separately, for renderings without commas, parentheses and newlines; calls that raise change no file."
 },
 "C56": {
  "note": "Exact arithmetic, ASCII names with one rank number."
 },
 "C57": {
  "note": "NUL-padded ASCII names; the general theorem gives the decoding of every matrix (blanks are kept, other bytes raise)."
 },
 "C58": {
  "note": "Import, second import, print_settings, the value of every default as it is read (c58_values), all os.environ lookups of the package, and which texts are flags (c58_flag)."
 },
 "C67": {
  "note": "REFUTED: the numbers found are joined, so Rank1-Rank23 and Rank12-Rank3 give the same coordinates. c67_same_widths_partial: numbers written with equal widths never share a coordinate.",
  "status": "partial"
 },
 "C68": {
  "note": "Flocq's binary64 rounding; uses the axioms of the Reals."
 },
 "C52": {
  "note": "Proved over the reals with the normal distribution function constructed and shown to be the integral of its density (c52_normal); no library behaviour is assumed beyond stats.norm being it. Rounding is not modelled: for a truncation point far above the mean the code divides by 1 - F(l), which underflows in floating point."
 },
 "C53": {
  "note": "Proved over the reals for any gamma function and gamma CDF with the textbook properties listed in gamma_lib (Spec_crps.v); c53_lib shows they hold for the exponential distribution. c53_reduced: with the default reduce_sum=True the result is the mean of these scores. The TensorFlow branch and overflow of special.gamma for large shapes are not modelled."
 },
 "C69": {
  "note": "REFUTED for negative shifts: the closed form is that of the distribution with the probability below zero put on zero, while cdf() reports the shifted distribution itself; the score is strictly smaller than the CRPS of the reported CDF for every observation (c69_own_refuted). Proved for shifts that are not negative (c69_own_partial). With truncated=True the verifier raises NotImplementedError (c69_verifier_partial)."
 },
 "C70": {
  "note": "REFUTED with truncated=True: f_determ and variance return mu and sigma^2 of the untruncated distribution, the mean of the truncated one is strictly larger and its variance strictly smaller, for all parameters. Proved without truncation (c70_moments_partial)."
 },
 "C71": {
  "note": "REFUTED at the upper end (from shift + 10000 scale on the reported probability is 0) and for positive shifts (NaN although nothing has to be cut off). Proved for shifts that are not positive and thresholds below the upper end. Assumes scipy's regularised incomplete gamma function to be 0 at 0, strictly increasing and below 1, and gammaincinv to be its inverse."
 },
 "C72": {
  "note": "REFUTED: a single positive shift makes the sampling of the whole array fail with ValueError. Proved for shifts that are not positive, for any uniform numbers in [0,1)."
 },
 "C73": {
  "note": "scipy's distributions are assumed to be location-scale families (record families, valid arguments only). The truncated gamma clause is for a single worker, because with several workers the truncation is lost (C38)."
 },
 "C74": {
  "note": "REFUTED: negative below the lower end of the integral, above 1 for large thresholds, and below 1/2 when the members agree. Proved: error bound and limit towards the mass between the lower end and the threshold, and which arguments are rejected. Gaussian kernel in real arithmetic."
 },
 "C75": {
  "note": "sklearn's roc_curve (with dropping of intermediate points) and auc are part of the model. Exact arithmetic."
 },
 "C76": {
  "note": "REFUTED for missing observations: they are turned into non-events before anything is skipped, for every threshold and every metric that sees the observations through binarize_obs (witness for ROC, universal formula for Brier). Missing forecasts are skipped in the ROC curve (c76_missing_forecast_partial)."
 },
 "C77": {
  "note": "Both implementations of properscoring's crps_ensemble (with and without numba) are part of the model. Exact arithmetic, finite members; c77_implementations also with missing members."
 },
 "C78": {
  "note": "REFUTED for probabilities and the Brier score, which count a missing member as lying above every threshold (exact scaling in c78_cdf_partial). Proved: the CRPS leaves missing members out."
 },
 "C79": {
  "note": "c79_values: every entry of the curve and the counts when the slices occupy equally many bins (always so without kept axes); c79_ragged: the error otherwise. np_quantile is the interpolated quantile of C17."
 },
 "C80": {
  "note": "The part of open_dataset after xr.open_dataset has returned; xarray's operations on data sets (assignment, coordinates, rename) are modelled on lists of named variables. Values and their conversions are arbitrary. Files that are not as the package writes them: c80_early_return and c80_name_taken."
 },
 "C81": {
  "note": "REFUTED: num_search_times is missing from the list of time variables, so its labels stay plain numbers while search_times is decoded (c81_search_labels_refuted); a character variable that is not a matrix makes the function return before units are set (c81_undecodable_refuted). Proved for the other time variables and labels (c81_times_partial)."
 },
 "C82": {
  "note": "c82_coordinates, on top of the model of open_dataset."
 },
 "C83": {
  "note": "Any draws with saving off (c83_saving_off, c83_rmse); histories with saving on for calls without random numbers (c83_history). The hurdle class without the scratch file of the integration (C65 is about that file)."
 },
 "C84": {
  "note": "Equivalence for all constructors (c84_constructor) and all validating setters (c84_setters), any values and any well-formed file system; permissions and full disks are not modelled."
 },
 "C85": {
  "note": "The state machine with its library filled by the value models (M_whole). Ensemble probabilities with the default method; finite data where a mean is claimed; the square root of rmse is an oracle; IoU with given axes (without axes see C35); ensemble means right after construction (a collapse function set later has no effect, C60); bootstrapping with saving off and axes of one sign."
 },
 "C86": {
  "note": "REFUTED: of two files with the same rank number (say in two directories) only the last is kept, without an error (c86_same_rank_refuted). With different rank numbers (c86_stations_partial, c86_places) and for the order of the paths (c86_any_order) it holds; which paths a list or a pattern stands for is c86_sources. Nothing is claimed for files whose variables differ: the model refuses them, xarray would try to merge them. xarray's joining is part of the model (M_mfnc)."
 },
 "C87": {
  "note": "REFUTED for xarray versions that refuse concat_dim with combine='by_coords': no group without places can be opened (c87_strict_refuted). Otherwise proved (c87_completed_partial, c87_decoded)."
 },
 "C88": {
  "note": "REFUTED in one point: a call that fails while it integrates leaves the scratch file (c88_scratch_left_refuted). The rest is proved for every metric call (c88_metric_footprint), for calls that return (c88_scratch_removed) and for whole histories (c88_history, where expanding ~ twice is expanding it once)."
 },
 "C89": {
  "note": "REFUTED for logpdf: _logpdf(self, x, a) cannot take the three shape parameters scipy hands it, so logpdf raises TypeError at every point of the support (c89_logpdf_refuted). The density is proved (c89_density, c89_total; c89_lower_end: infinite at the lower end for shapes below 1 without truncation from below). Assumes of gammainc and gammaln that gammainc is strictly increasing and has the gamma density as derivative (Spec_density.v)."
 },
 "C90": {
  "note": "REFUTED: clip_member_to_zero, n_approx_bins and integration_range are not shown (c90_hidden_refuted), and repr raises AttributeError for an ensemble whose collapse function has no __name__ (c90_nameless_refuted). The lines shown are proved exactly (c90_report), and to determine the settings listed (c90_same_text)."
 },
 "C91": {
  "note": "REFUTED for twenty members: the shares 19/20 and 20/20 fall into the same bin, and the three terms do not add up to the Brier score (c91_sum_refuted). For at most nineteen members they do (c91_sum). Terms, diagram and ranks are proved as stated (c91_decomposition: axes counted from the front; c91_reliability: axes of one sign; c91_ranks: saving off, no missing values)."
 },
 "C92": {
  "note": "REFUTED: tf.math.igamma is NaN for negative arguments where the CDF of SciPy is 0, so with the setting on a score is NaN exactly when the shift is positive or the observation is below the shift (c92_nan_refuted); otherwise both settings agree (c92_same_partial), and for amounts both give the CRPS of the censored distribution (c92_crps_partial). Assumed of the two libraries: tf_lib in Props_crpstf.v. Element types are not modelled (TensorFlow refuses to mix them)."
 },
 "C93": {
  "note": "One public metric each, from the constructor to the number: c93_probability (per cell, also for missing values), c93_brier, c93_roc, c93_decomposition (terms and sum), c93_reliability, c93_iou_prob, c93_errors, c93_variance, c93_pit, c93_pit_randomized, c93_members, c93_spread, c93_ranks. SciPy's distribution functions and samplers are arbitrary functions. Sampled members: one worker, saving off (several workers are C62, saved files C83). The truncated gamma distribution with several workers: see C38."
 },
 "C94": {
  "note": "Binary64 as in Flocq (round to nearest even, no overflow); sums along an arbitrary tree. c94_mean_error bounds the distance to the exact averages of the other properties."
 },
 "C95": {
  "note": "REFUTED: three times 0.1 have a mean above 0.1 (c95_mean_bounds_refuted), a mean absolute error above the root mean square error (c95_rmse_refuted) and a positive variance (c95_variance_refuted). c95_mean_bounds_partial: the bounds hold up to the error of c94_mean_error; c95_rmse_partial: the mean absolute error exceeds the root mean square error by roundings only; c95_integers_partial: for integers whose absolute values add up to at most 2^53 the mean is the rounded exact mean, lies within the bounds, and identical members have variance zero."
 },
 "C96": {
  "note": "The 1e-8 added to the last edge keeps rounding from moving a probability over an edge; it also makes the bins closed on the right. The bound on n * nbins is needed for the distance between different fractions."
 },
 "C97": {
  "note": "REFUTED: 3 of 20 members below the threshold fall into bin 2 instead of 3, the same share over a threshold into bin 3 (c97_decomposition_bins_refuted). c97_decomposition_bins_partial describes the bin of every probability: right except for probabilities of exactly j/20 with j = 3, 6, 7, 12, 14, 17, 19 (below) and j = 2, 4, 7, 9, 12, 14, 17, 19 (over), which fall into the bin below."
 },
 "C98": {
  "note": "u = 2^-53; near k a b says (1-u)^k b <= a <= (1+u)^k b. Overflow is not modelled. c98_brier needs no condition on the size of the numbers."
 },
 "C99": {
  "note": "REFUTED when directories are shared (c99_shared_refuted: numbers of another verifier) or nested (c99_nested_refuted: FileNotFoundError). c99_separate_partial proves it for a verifier whose directories are apart from all others, for programs with no scratch file (less-memory setting off, or no hurdle verifier; C47 and C88 are about the scratch file), where expanding ~ twice is expanding it once."
 },
 "C100": {
  "note": "REFUTED for the scores when an observation is equal to the threshold (c100_refuted: Brier scores 1/3 and 0, areas 3/4 and 1). c100_probabilities is unconditional; c100_brier_partial and c100_roc_partial assume that no observation is equal to the threshold or missing, and for the area that both kinds of cases occur. From C85; ensemble verifiers with the default method."
 },
 "C101": {
  "note": "REFUTED for below=t when an observation is equal to the threshold (c101_refuted: Brier score 1/3, area 3/4). c101_errors, c101_ensemble and c101_iou hold for all finite data; c101_brier_partial and c101_roc_partial for over=t, and for below=t without such observations. rmse is the root (oracle) of an array that is 0. From C85."
 },
 "C102": {
  "note": "From C85: values after any history of either verifier; default method; finite data for CRPS and spread. Probabilities, Brier score and area also with infinite or missing members."
 },
 "C103": {
  "note": "From C85: values after any history of either verifier; default method; exact arithmetic, finite data for errors, CRPS and spread; thresholds may be arrays."
 },
 "C104": {
  "note": "From C85; default method; exact arithmetic; finite data."
 },
 "C105": {
  "note": "From C85; c105_missing gives the averages with missing values for error, squared and absolute error; c105_missing_differs shows data where the mean of the means is another number."
 },
 "C106": {
  "note": "From C85; default method; exact arithmetic; finite data for CRPS and spread."
 },
 "C107": {
  "note": "Same generator under both levels. c107_program: error metrics of a verifier that saves nothing (a saved result does not change with the level); the other theorems are about the functions that make the intervals. In exact arithmetic; correlation in real numbers."
 },
 "C108": {
  "note": "From C85; default method; exact arithmetic; finite data. The excess of the CRPS is shown to be the integral of the squared difference of the two distribution functions (P_laws3.v)."
 },
 "C109": {
  "note": "From C85; default method. A missing member counts as above every threshold (see C78), an observation does not matter."
 },
 "C110": {
  "note": "c110_program: two verifiers that save nothing, one process (several processes with ties draw per slice: C20). Exact arithmetic; finite data in the program version."
 },
 "C111": {
  "note": "REFUTED for the opposite event with 20 members or more (c111_opposite_refuted: with 20 members 19/20 and 20/20 share the last bin, 1/20 and 0 do not); proved for at most 19 members (c111_opposite_partial) and for any number if no probability given is on an inner edge of the bins (c111_opposite_off_edges_partial). The equivalences are proved for all (c111_terms). Averaging without bootstrap."
 },
 "C112": {
  "note": "The thresholds theorem takes scipy's distribution functions to be nondecreasing where they are numbers, the units theorems to be location-scale families; the rest assumes only that the probabilities are numbers between 0 and 1. For the truncated and hurdle distributions zero must stay zero in the other units. Averaging without bootstrap."
 },
 "C113": {
  "note": "np.argsort is any function that sorts, np.sqrt and np.corrcoef are arbitrary functions (C33 and C50 treat the real-number versions). Without bootstrap; finite data for the diagram; axes of one sign for the diagram and non-negative axes for the correlation (C32, C51 treat the others)."
 },
 "C114": {
  "note": "scipy's distribution functions and the CRPS formula of one cell are arbitrary functions (C34, C37, C46 treat the formulas); the distribution functions take finite values in [0, 1] and, for the bounds, do not decrease. Without bootstrap; finite integration range and, unless it is given, finite observations."
 },
 "C115": {
  "note": "Axes counted all from the front or all from the back (mixed lists: C14 refutes them). The verifier without saving may be in any state; with saving it was constructed with start_from_scratch=True and enable_saving is not called again. How the library turns the random number into draws is arbitrary."
 },
 "C116": {
  "note": "Probabilities must lie in a bin as digitized by the code (edges up to 1+1e-8). For the decomposition the axes are None or non-empty and not negative (C51 refutes negative ones). How the library turns the random number into draws is arbitrary."
 },
 "C117": {
  "note": "That the collapsed forecast is the mean of the members is a hypothesis here (C85 proves it of the constructor with np.mean). The order and units laws of crps() and spread() are C102 and C103."
 },
 "C118": {
  "note": "np.argsort, np.sqrt and np.corrcoef are the functions of the record stats (any functions; argsort sorts; keeps_order, for the intervals only, says the root is monotone)."
 },
 "C119": {
  "note": "REFUTED for cdf(), brier() and roc(): a member equal to the threshold counts as below it but not as over it, so its mirror image counts on the other side; Brier scores and ROC areas differ (c119_refuted). Proved as stated for error(), sq_error(), ab_error(), crps(), spread() and iou_determ(), and for the event scores when no member is equal to the threshold (c119_events_partial)."
 },
 "C120": {
  "note": "Proved as stated for verifiers reached by any history of calls, without bootstrapping and with finite data; NaN observations and bootstrapped scores are not covered."
 },
 "C121": {
  "note": "Proved as stated for verifiers reached by any history of calls, without bootstrapping, for both implementations of properscoring. Infinite values are not covered. See C76 and C78 for the functions themselves."
 },
 "C122": {
  "note": "Proved as stated for verifiers reached by any history of calls and metrics averaged over cells (error, sq_error, ab_error, crps, brier, spread of an ensemble). Averaged axes are all non-negative or all negative (see C14), dimensions are not empty, values are finite, confidence lies in [0, 1], and at least one sample and one repeat are drawn."
 },
 "C123": {
  "note": "Proved as stated for verifiers reached by any history of calls; the CRPS of a cell may be any function of observation and members. With bootstrapping the averaged axes are all non-negative or all negative, no dimension is empty, and at least one sample and one repeat are drawn. Probabilities are computed by counting members (Moments) and with one worker or a non-empty shape."
 },
 "C124": {
  "note": "Proved as stated over the reals (no rounding or underflow; the tolerance rtol=1E-8 of score_samples is neglected). That the distribution functions of the specification belong to the kernels is c124_kernels. C74 says what goes wrong with the default kernel."
 },
 "C125": {
  "note": "Proved as stated, for finite values of the method, at least one cell, and thresholds that are numbers or arrays of the shape of the observations. C85 is the method of the shares of members, C124 the kernel density estimate of one cell."
 }
}