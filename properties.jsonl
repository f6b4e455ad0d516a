{"id": "C01", "title": "Saving intermediate results never changes an answer (start_from_scratch=True)", "statement": "For a verifier created with a working_directory and start_from_scratch=True, every deterministic metric call in any sequence of metric calls and setter calls returns what the same call on the same settings returns with saving disabled.", "quantifier": "all classes of verifier, all initial contents of the file system, all finite histories of metric calls and setters (set_avg_axis, set_boot_samples, disable_boot, class setters)", "why_tests_cant": "the number of histories is unbounded and staleness only shows for particular orders of calls and setters", "anchors": ["PyAnEn/Verify.py:Verify._metric_workflow_1", "PyAnEn/Verify.py:Verify._load", "PyAnEn/Verify.py:Verify._save", "PyAnEn/Verify.py:Verify._validate_saving"]}
{"id": "C02", "title": "Reused saved results stay valid when settings change (start_from_scratch=False)", "statement": "With start_from_scratch=False, after changing a setting (averaging axis, boot_samples, ensemble members, truncation, ...) a metric call reflects the new setting even if a result for the old setting has been saved.", "quantifier": "all histories of metric calls and setters with start_from_scratch=False", "why_tests_cant": "tests only exercise fixed short histories; staleness depends on which earlier calls left files behind", "anchors": ["PyAnEn/Verify.py:Verify._metric_workflow_1", "PyAnEn/Verify.py:Verify.to_name", "PyAnEn/Verify.py:Verify.set_avg_axis", "PyAnEn/Verify.py:Verify.set_boot_samples"]}
{"id": "C03", "title": "File names identify the computation", "statement": "Two metric calls with default save names share a saved file only if they are the same metric with the same over/below/nbins rendering; in particular results of different thresholds, bins or metrics never overwrite each other.", "quantifier": "all metrics, all pairs of argument renderings (numbers, None, short tuples)", "why_tests_cant": "injectivity over all argument strings cannot be sampled", "anchors": ["PyAnEn/Verify.py:Verify.to_name", "PyAnEn/Verify.py:Verify.brier", "PyAnEn/Verify.py:Verify.reliability", "PyAnEn/Verify.py:Verify.binned_spread_skill"]}
{"id": "C04", "title": "Rendering of a save name", "statement": "to_name replaces blanks by underscores, strips the LITERAL_ prefix (looked for after the replacement) and then ignores the arguments, appends every argument as _key_value in call order otherwise, and yields no name (nothing is saved or loaded) when the save name is not a string or an argument has more than five elements (or an array a first dimension above five); a zero-dimensional array argument raises TypeError.", "quantifier": "all save names and argument lists", "why_tests_cant": "quantifies over all strings", "anchors": ["PyAnEn/Verify.py:Verify.to_name", "PyAnEn/Verify.py:Verify._save", "PyAnEn/Verify.py:Verify._load"]}
{"id": "C05", "title": "A saved random result is stable", "statement": "When saving is enabled, repeating a metric call that draws random numbers (rank histogram with ties, sampled ensembles, PIT) returns the first result again, for any metric calls in between, until a setter wipes the directory.", "quantifier": "all random streams, all sequences of metric calls in between", "why_tests_cant": "depends on every random outcome and every interleaved call", "anchors": ["PyAnEn/Verify.py:Verify._metric_workflow_1", "PyAnEn/VerifyProb.py:VerifyProb.prob_to_ens", "PyAnEn/VerifyProb.py:VerifyProb.pit"]}
{"id": "C06", "title": "Scope of the start-from-scratch wipe", "statement": "Constructing or re-validating with start_from_scratch=True empties exactly the working directory tree (every file below it is removed, no file elsewhere is touched, the directory exists afterwards); with start_from_scratch=False no existing file is removed or changed.", "quantifier": "all file-system states and working directories", "why_tests_cant": "the claim is about every file that is not touched", "anchors": ["PyAnEn/Verify.py:Verify._validate_saving"]}
{"id": "C07", "title": "A rejected call has no side effects", "statement": "If a constructor or setter raises because an argument is invalid (shape mismatch, wrong type), saved results on disk and the settings of the object are as they were before the call.", "quantifier": "all invalid arguments, all prior states", "why_tests_cant": "needs all invalid inputs and the whole state before and after", "anchors": ["PyAnEn/Verify.py:Verify._validate", "PyAnEn/VerifyEnsemble.py:VerifyEnsemble._validate", "PyAnEn/VerifyDeterm.py:VerifyDeterm._validate"]}
{"id": "C08", "title": "A crash while saving never leads to a wrong answer", "statement": "If the process dies at any point while a result is being written, a later run that reuses the directory either returns the correct metric or raises; it never returns a value different from the recomputed one.", "quantifier": "every crash point (every byte prefix of the saved file), every later deterministic metric call", "why_tests_cant": "crash points cannot be enumerated by unit tests", "anchors": ["PyAnEn/Verify.py:Verify._save", "PyAnEn/Verify.py:Verify._load"]}
{"id": "C09", "title": "A crash while saving can be recovered from", "statement": "If the process dies while a result is being written, a later run that reuses the directory recomputes the missing result instead of failing.", "quantifier": "every crash point", "why_tests_cant": "crash points cannot be enumerated by unit tests", "anchors": ["PyAnEn/Verify.py:Verify._save", "PyAnEn/Verify.py:Verify._load"]}
{"id": "C10", "title": "Nothing is written when saving is off", "statement": "With working_directory None (or after disable_saving) no sequence of calls creates, changes or deletes a file, and files on disk never influence a result.", "quantifier": "all histories after saving is disabled, all disk contents", "why_tests_cant": "absence of effects over all histories", "anchors": ["PyAnEn/Verify.py:Verify.disable_saving", "PyAnEn/Verify.py:Verify._save", "PyAnEn/Verify.py:Verify._load"]}
{"id": "C11", "title": "Averages are over exactly the requested axes", "statement": "error, sq_error, ab_error (and every averaged metric) return an array whose shape is the observation shape without avg_axis, and whose entry at each kept index is the mean of the per-cell metric over exactly the cells that agree with this index on the kept axes; avg_axis None averages all cells.", "quantifier": "all array ranks and shapes, all sets of axes (positive or negative), all data", "why_tests_cant": "all ranks, shapes and axis sets", "anchors": ["PyAnEn/Verify.py:Verify.boot_or_avg", "PyAnEn/VerifyDeterm.py:VerifyDeterm", "PyAnEn/VerifyEnsemble.py:VerifyEnsemble._error"]}
{"id": "C12", "title": "Missing values in averages", "statement": "With pyanen_skip_nan true an averaged metric is the mean over the non-NaN cells of the group and NaN only if the group has none; with pyanen_skip_nan false it is NaN as soon as one cell of the group is NaN.", "quantifier": "all arrays with any pattern of NaN", "why_tests_cant": "exponentially many NaN patterns", "anchors": ["PyAnEn/Verify.py:Verify.boot_or_avg", "PyAnEn/utils_verify.py:boot_vec"]}
{"id": "C13", "title": "Relations between error metrics", "statement": "For every forecast, observation and averaging group: abs(error) <= ab_error, ab_error <= rmse, rmse >= 0, sq_error = error^2 + variance of the differences, and sq_error (and ab_error) is 0 exactly when forecast and observation agree in the group.", "quantifier": "all finite data, all group sizes", "why_tests_cant": "inequalities over all data", "anchors": ["PyAnEn/VerifyDeterm.py:VerifyDeterm._sq_error", "PyAnEn/Verify.py:Verify.rmse"]}
{"id": "C14", "title": "Bootstrapping resamples exactly the averaging group", "statement": "With boot_samples set the result has shape (3, kept shape) and the values resampled for a kept index are exactly the cells that plain averaging would average for this index, for every way of spelling the axes that plain averaging accepts.", "quantifier": "all ranks, shapes, and axis lists (positive, negative, mixed)", "why_tests_cant": "all ranks, shapes, axis lists", "anchors": ["PyAnEn/utils_verify.py:boot_arr", "PyAnEn/Verify.py:Verify.boot_or_avg"]}
{"id": "C15", "title": "Bootstrap intervals stay within the data", "statement": "Lower bound, mean and upper bound returned by the bootstrap lie between the smallest and the largest value of the group, lower <= upper, and a constant group gives that constant three times.", "quantifier": "all data, all random draws, all repeats >= 1, boot_samples >= 1, all confidence levels in [0,1]", "why_tests_cant": "all random outcomes", "anchors": ["PyAnEn/utils_verify.py:boot_vec"]}
{"id": "C16", "title": "The bootstrap error bar brackets its mean", "statement": "The three returned values are ordered: lower <= mean <= upper.", "quantifier": "all data and random draws", "why_tests_cant": "needs adversarial random draws", "anchors": ["PyAnEn/utils_verify.py:boot_vec"]}
{"id": "C17", "title": "Confidence level means the same everywhere", "statement": "For every confidence level accepted by pyanen_boot_confidence, all bootstrap products (averages, reliability, spread-skill, correlation, Brier decomposition) return lower <= upper and use the same quantile levels.", "quantifier": "all data, draws and confidence levels in [0,1]", "why_tests_cant": "all confidence levels", "anchors": ["PyAnEn/utils_verify.py:boot_vec", "PyAnEn/utils_verify.py:_reliability_agg_boot_slice", "PyAnEn/utils_ss.py:_binned_spread_skill_agg_boot", "PyAnEn/utils_special_boot.py:_func_corr", "PyAnEn/utils_special_boot.py:_func_brier_decomp"]}
{"id": "C18", "title": "Rank of the observation", "statement": "Each rank returned by rank_hist for an ensemble of M members is an integer between 1 and M+1, larger than the number of members below the observation and at most one more than the number of members not above it; without ties it is exactly 1 + the number of members below the observation.", "quantifier": "all shapes, members, observations, all random tie breaks", "why_tests_cant": "all data and random draws", "anchors": ["PyAnEn/utils_verify.py:rankdata", "PyAnEn/utils_verify.py:rank_histogram", "PyAnEn/VerifyEnsemble.py:VerifyEnsemble._rank_hist"]}
{"id": "C19", "title": "Ties are randomised over all admissible ranks", "statement": "When the observation ties with k members, each of the k+1 admissible ranks can be returned (the tie break is not systematically biased), independently of the other cells of the array.", "quantifier": "all shapes and data with ties", "why_tests_cant": "a property of the set of all random outcomes", "anchors": ["PyAnEn/utils_verify.py:rankdata"]}
{"id": "C20", "title": "Parallel rank histogram equals serial", "statement": "For data without ties rank_hist returns the same array for any number of workers and any parallelisation axis.", "quantifier": "all shapes, worker counts, map axes", "why_tests_cant": "all shapes and schedules", "anchors": ["PyAnEn/utils_verify.py:rank_histogram"]}
{"id": "C21", "title": "Missing data in rank histograms", "statement": "With pyanen_skip_nan a cell of rank_hist is NaN exactly when its observation or one of its members is NaN, and every other cell is an admissible rank; without it any NaN in the input is rejected.", "quantifier": "all NaN patterns in arrays of finite or missing values", "why_tests_cant": "exponentially many NaN patterns", "anchors": ["PyAnEn/utils_verify.py:rank_histogram"]}
{"id": "C22", "title": "Ensemble probability", "statement": "cdf(below=t) of an ensemble is the fraction of members <= t and cdf(over=t) the fraction > t: both in [0,1], summing to 1, monotone in t, 0 below the smallest and 1 from the largest member on, unaffected by reordering members; scalar and array thresholds agree.", "quantifier": "all ensembles of at least one member, all thresholds, both positions of the ensemble axis", "why_tests_cant": "all data and thresholds", "anchors": ["PyAnEn/utils_verify.py:ens_to_prob", "PyAnEn/utils_verify.py:ens_to_prob_moments", "PyAnEn/VerifyEnsemble.py:VerifyEnsemble._cdf"]}
{"id": "C23", "title": "Parallel ensemble probability equals serial", "statement": "ens_to_prob returns the same array for any number of workers.", "quantifier": "all shapes with at least one cell, data, worker counts, estimation methods", "why_tests_cant": "all shapes", "anchors": ["PyAnEn/utils_verify.py:ens_to_prob"]}
{"id": "C24", "title": "Exactly one of over/below", "statement": "Every threshold metric of every verifier that has it raises AssertionError when neither or both of over and below are given (unless a result is already stored under the requested name), and never does because of that check when exactly one is given.", "quantifier": "all verifiers, save names, disk states and argument combinations", "why_tests_cant": "all metrics and states", "anchors": ["PyAnEn/utils_verify.py:ens_to_prob", "PyAnEn/utils_verify.py:binarize_obs", "PyAnEn/utils_verify.py:iou_determ", "PyAnEn/utils_verify.py:iou_prob", "PyAnEn/VerifyEnsemble.py:VerifyEnsemble._cdf"]}
{"id": "C25", "title": "Forecast event and observed event agree", "statement": "The event whose probability is forecast is the event that is observed: an ensemble whose members all equal the observation gets Brier score 0, for over and for below thresholds.", "quantifier": "all data and thresholds", "why_tests_cant": "fails only when an observation equals the threshold", "anchors": ["PyAnEn/VerifyEnsemble.py:VerifyEnsemble._brier", "PyAnEn/utils_verify.py:binarize_obs", "PyAnEn/utils_verify.py:ens_to_prob_moments"]}
{"id": "C26", "title": "Range of the Brier score", "statement": "Every cell of the Brier score and every average or bootstrap bound of it lies in [0,1].", "quantifier": "all forecasts with probabilities in [0,1], all observations", "why_tests_cant": "all data", "anchors": ["PyAnEn/VerifyEnsemble.py:VerifyEnsemble._brier", "PyAnEn/VerifyProb.py:VerifyProb._brier"]}
{"id": "C27", "title": "Brier decomposition adds up", "statement": "reliability - resolution + uncertainty equals the mean Brier score when the forecasts inside each probability bin are equal; in general the difference is exactly the within-bin variance minus twice the within-bin covariance term.", "quantifier": "all sample sizes, probabilities and binary outcomes", "why_tests_cant": "algebraic identity over all data", "anchors": ["PyAnEn/utils_special_boot.py:_func_brier_decomp", "PyAnEn/utils_special_boot.py:brier_decomp"]}
{"id": "C28", "title": "Bounds of the Brier decomposition terms", "statement": "reliability >= 0, resolution >= 0, 0 <= uncertainty <= 1/4 and resolution <= uncertainty, independent of the order of the samples.", "quantifier": "all sample sizes, probabilities in [0,1], binary outcomes", "why_tests_cant": "inequalities over all data", "anchors": ["PyAnEn/utils_special_boot.py:_func_brier_decomp"]}
{"id": "C29", "title": "Probability binning of the reliability diagram", "statement": "Each forecast probability in [0,1] falls in exactly one of nbins bins, the one whose half-open interval (nbins equal intervals over [0, 1+1e-8)) contains it, 1.0 falls in the last bin exactly when nbins <= 10^8+1, and a larger probability never falls in a smaller bin; the binned samples are the given ones.", "quantifier": "all probabilities, all nbins >= 1", "why_tests_cant": "boundary values for every nbins", "anchors": ["PyAnEn/utils_verify.py:_reliability_create_split"]}
{"id": "C30", "title": "Reliability curve", "statement": "For each slice the returned points are in strictly increasing forecast probability, each forecast coordinate lies in its bin, each observed frequency lies in [0,1], the counts add up to the number of samples, and the count-weighted mean of the points is the overall mean forecast and the base rate.", "quantifier": "all shapes, axis lists written with one sign (C14), all sample sizes, all probabilities in [0,1], all outcomes, all nbins >= 1", "why_tests_cant": "all data", "anchors": ["PyAnEn/utils_verify.py:_reliability_agg_no_boot_slice"]}
{"id": "C31", "title": "Reliability slices line up", "statement": "When dimensions are kept, entry j along the last axis of the returned curve refers to the same probability bin in every slice.", "quantifier": "all multi-dimensional data", "why_tests_cant": "depends on which bins happen to be empty", "anchors": ["PyAnEn/utils_verify.py:_reliability_agg_no_boot", "PyAnEn/utils_verify.py:_reliability_agg_boot"]}
{"id": "C32", "title": "Spread-skill binning keeps pairs together", "statement": "For each kept index the binning puts every (variance, squared error) pair of the group into exactly one of nbins non-empty bins, keeps each variance with its own squared error, orders bins by variance, and bin sizes differ by at most one with the larger bins first.", "quantifier": "all shapes, axis lists written with one sign (mixed signs regroup the data, C14), nbins between 1 and the sample count, every valid (possibly unstable) argsort", "why_tests_cant": "all data and argsort tie orders", "anchors": ["PyAnEn/utils_ss.py:_binned_spread_skill_create_split"]}
{"id": "C33", "title": "Spread-skill curve", "statement": "The returned spread is non-decreasing along the bins, spread and rmse are the square roots of the bin means, and the size-weighted means of spread^2 and rmse^2 are the overall mean variance and mean squared error.", "quantifier": "all finite non-negative data, shapes, axis lists written with one sign, nbins between 1 and the sample count, every valid argsort; bootstrap entries for all draws", "why_tests_cant": "all data", "anchors": ["PyAnEn/utils_ss.py:_binned_spread_skill_agg_no_boot", "PyAnEn/utils_ss.py:_binned_spread_skill_create_split"]}
{"id": "C34", "title": "Spread-skill leaves its inputs alone", "statement": "binned_spread_skill does not modify the variance and sq_error arrays passed by the caller.", "quantifier": "all shapes and axis lists", "why_tests_cant": "depends on whether numpy returns a view for a given shape and axis list", "anchors": ["PyAnEn/utils_ss.py:_binned_spread_skill_create_split", "PyAnEn/utils_ss.py:binned_spread_skill"]}
{"id": "C35", "title": "Intersection over union", "statement": "iou_determ/iou_prob at each kept index is |A and B| / |A or B| of the forecast and observed event cells: in [0,1], symmetric, 1 exactly when the events coincide and occur, 0 exactly when disjoint and occurring, NaN exactly when neither event occurs in the group.", "quantifier": "all shapes, axis sets, thresholds, data including NaN", "why_tests_cant": "all data", "anchors": ["PyAnEn/utils_verify.py:_iou", "PyAnEn/utils_verify.py:iou_determ", "PyAnEn/utils_verify.py:iou_prob"]}
{"id": "C36", "title": "iou_prob accepts a single threshold pair", "statement": "iou_prob(over=(t,p)) or iou_prob(below=(t,p)), leaving the other argument at its default, returns the IOU.", "quantifier": "all verifiers and thresholds", "why_tests_cant": "default arguments are not covered by the tests", "anchors": ["PyAnEn/Verify.py:Verify.iou_prob", "PyAnEn/VerifyEnsemble.py:VerifyEnsemble._iou_prob", "PyAnEn/VerifyProb.py:VerifyProb._iou_prob"]}
{"id": "C37", "title": "Parametric CDFs are probabilities", "statement": "cdf(below=t) of every probabilistic verifier lies in [0,1] (or is NaN), cdf(over=t) = 1 - cdf(below=t), a scalar threshold equals the constant array threshold, an array of the wrong shape is rejected.", "quantifier": "all parameters, thresholds, all behaviours of the underlying distribution function", "why_tests_cant": "all inputs", "anchors": ["PyAnEn/utils_dist.py:cdf_gaussian", "PyAnEn/utils_dist.py:cdf_gamma", "PyAnEn/utils_dist.py:cdf_gamma_hurdle", "PyAnEn/VerifyProbGaussian.py:VerifyProbGaussian._cdf"]}
{"id": "C38", "title": "Parallel parametric CDFs equal serial", "statement": "cdf of Gaussian, Gamma (plain and truncated) and Gamma-hurdle verifiers does not depend on pyanen_tqdm_workers or on the map axis.", "quantifier": "all shapes, parameters, thresholds, worker counts, negative map axes", "why_tests_cant": "all shapes and parameter values", "anchors": ["PyAnEn/utils_dist.py:_parallel_process", "PyAnEn/utils_dist.py:wrapper_truncgamma_cdf", "PyAnEn/utils_dist.py:cdf_gamma", "PyAnEn/utils_dist.py:cdf_gaussian", "PyAnEn/utils_dist.py:cdf_gamma_hurdle"]}
{"id": "C39", "title": "Gamma-hurdle CDF", "statement": "The hurdle CDF is non-decreasing in the threshold, lies in [0,1], equals 1-pop at 0, tends to 1, and is 0 for negative thresholds (precipitation is never negative).", "quantifier": "all pop in [0,1], all gamma CDFs, all thresholds", "why_tests_cant": "all thresholds", "anchors": ["PyAnEn/utils_dist.py:wrapper_gamma_hurdle_cdf", "PyAnEn/utils_dist.py:cdf_gamma_hurdle"]}
{"id": "C40", "title": "Spread and ranks of sampled ensembles use the member axis", "statement": "spread() and rank_hist() of a probabilistic verifier reduce over the sampled members whatever move_sampled_ens_axis is.", "quantifier": "all shapes, member counts, axis positions, all samples", "why_tests_cant": "all shapes and axis positions", "anchors": ["PyAnEn/VerifyProb.py:VerifyProb._spread", "PyAnEn/VerifyProb.py:VerifyProb._rank_hist", "PyAnEn/utils_dist.py:sample_dist_gaussian"]}
{"id": "C41", "title": "Member clipping", "statement": "With clip_member_to_zero=v every sampled member is 0 or at least v, members at least v are unchanged, and the shape is (members inserted at the requested axis).", "quantifier": "all samples and clip values", "why_tests_cant": "all random outcomes", "anchors": ["PyAnEn/VerifyProbGaussian.py:VerifyProbGaussian._prob_to_ens", "PyAnEn/VerifyProbGamma.py:VerifyProbGamma._prob_to_ens"]}
{"id": "C42", "title": "Parallel integration is independent of the schedule", "statement": "crps, mean and variance by numerical integration return the same arrays for one worker and for any number of workers in any order of task completion.", "quantifier": "all completion orders, all numbers of bins", "why_tests_cant": "factorially many schedules", "anchors": ["PyAnEn/utils_approximation.py:_ray_to_iterator", "PyAnEn/utils_approximation.py:Integration._crps", "PyAnEn/utils_approximation.py:Integration._mean", "PyAnEn/utils_approximation.py:Integration._variance"]}
{"id": "C43", "title": "Memory-efficient integration equals in-memory integration", "statement": "less_memory=True returns the same values as less_memory=False (in exact arithmetic, no infinite CDF value or observation, existing directory, non-empty arrays), for any order in which workers fill the memory map; after a call that returns the scratch file is gone, and no other file is changed.", "quantifier": "all write orders, bins, data", "why_tests_cant": "all interleavings", "anchors": ["PyAnEn/utils_approximation.py:wrapper_brier", "PyAnEn/utils_approximation.py:wrapper_cdf", "PyAnEn/utils_approximation.py:Integration._memmap_sum_mul", "PyAnEn/utils_approximation.py:Integration._finalize_memmap"]}
{"id": "C44", "title": "Integration restores the environment", "statement": "After an integration call pyanen_tqdm_disable and pyanen_tqdm_workers have the meaning they had before, whether the call returned or raised, and no other variable changed.", "quantifier": "all environments, all outcomes of the inner computation", "why_tests_cant": "needs failures at every point", "anchors": ["PyAnEn/utils_approximation.py:Integration._workflow", "PyAnEn/utils_approximation.py:Integration._suppress_sublevel_tqdm", "PyAnEn/utils_approximation.py:Integration._resume_sublevel_tqdm"]}
{"id": "C45", "title": "Integrated statistics are sound", "statement": "For any non-decreasing CDF with values in [0,1], any finite range (lo, hi) and at least two points, the integrated mean lies in the range scaled by the covered mass and is within half a bin of the true mean of every distribution on the range with no mass at or below the lower end; the integrated variance and CRPS are non-negative and the CRPS is at most the range length.", "quantifier": "all CDFs, ranges, bin counts, observations", "why_tests_cant": "all distributions", "anchors": ["PyAnEn/utils_approximation.py:Integration._mean", "PyAnEn/utils_approximation.py:Integration._variance", "PyAnEn/utils_approximation.py:Integration._crps"]}
{"id": "C46", "title": "Default integration range is usable", "statement": "With no integration_range given, the integrated mean, variance and CRPS approximate the forecast whatever the observations are.", "quantifier": "all observation arrays, including constant ones and ones with NaN", "why_tests_cant": "fails only on degenerate data", "anchors": ["PyAnEn/utils_approximation.py:Integration._define_integration_range"]}
{"id": "C47", "title": "Concurrent integrations do not interfere", "statement": "Two memory-efficient integrations running at the same time with the same scratch directory each return their own result.", "quantifier": "all interleavings of two integrations", "why_tests_cant": "all interleavings", "anchors": ["PyAnEn/utils_approximation.py:Integration._initialize_memmap", "PyAnEn/utils_approximation.py:wrapper_cdf", "PyAnEn/utils_approximation.py:wrapper_brier"]}
{"id": "C48", "title": "Diebold-Mariano symmetry", "statement": "Swapping the two forecasts negates the statistic and keeps the p-value; adding a constant to all series keeps both (MSE, MAD, poly); scaling all series by a positive factor keeps both (MSE, MAD, MAPE).", "quantifier": "all series, horizons, criteria", "why_tests_cant": "algebraic over all series", "anchors": ["PyAnEn/utils_significance.py:diebold_mariano_test", "PyAnEn/utils_significance.py:autocovariance"]}
{"id": "C49", "title": "Diebold-Mariano definedness", "statement": "For every accepted horizon the small-sample factor is the square root of a positive number; h=1 always has a non-negative variance estimate; the call is rejected exactly when lengths differ, h < 1, h >= n or the criterion is unknown; the result is undefined (NaN or infinite) when the loss differential is constant.", "quantifier": "all series, horizons, criteria", "why_tests_cant": "all n and h", "anchors": ["PyAnEn/utils_significance.py:diebold_mariano_test"]}
{"id": "C50", "title": "Correlation is a correlation", "statement": "corr lies in [-1,1], is symmetric, is unchanged by increasing affine maps of either argument, is 1 for equal and -1 for opposite non-constant series.", "quantifier": "all series", "why_tests_cant": "all data", "anchors": ["PyAnEn/utils_special_boot.py:_func_corr", "PyAnEn/utils_special_boot.py:corr"]}
{"id": "C51", "title": "Correlation and decomposition per slice", "statement": "corr and brier_decomp return for each kept index the statistic of exactly the cells of that averaging group (forecast and observation cells paired), with the three bounds along the first axis when bootstrapping, for every axis list plain averaging accepts.", "quantifier": "all ranks, shapes, axis lists", "why_tests_cant": "all ranks and axis lists", "anchors": ["PyAnEn/utils_special_boot.py:_workflow", "PyAnEn/utils_special_boot.py:brier_decomp"]}
{"id": "C52", "title": "Truncated-Gaussian CRPS", "statement": "Every cell of a Gaussian verifier's CRPS is the integral of the squared difference between the forecast CDF (the Gaussian truncated at zero, or the Gaussian itself when not truncated) and the step at the observation; as a function of the observation the truncated score is continuous, has slope -1 below the truncation point and 2F(y)-1 above it (F the truncated CDF), is smallest exactly at the forecast median, and tends to the Gaussian closed form as the truncation point goes to minus infinity.", "quantifier": "all mu, sigma > 0 and observations", "why_tests_cant": "real-analytic identity", "anchors": ["PyAnEn/utils_crps.py:crps_truncated_gaussian"]}
{"id": "C53", "title": "Shifted-gamma CRPS", "statement": "As a function of the observation the CRPS of the shifted gamma has slope 2F(y)-1 with F the forecast CDF, so that it is smallest exactly at the forecast median; for observations that are not negative it is the CRPS of the distribution with the probability below zero put on zero.", "quantifier": "all mu, sigma > 0, shifts and observations", "why_tests_cant": "real-analytic identity", "anchors": ["PyAnEn/utils_crps.py:crps_gamma"]}
{"id": "C54", "title": "Split ensemble CRPS equals whole-array CRPS", "statement": "pyanen_split_crps_ensemble_along_0 does not change the crps array.", "quantifier": "all shapes and both ensemble-axis positions", "why_tests_cant": "all shapes", "anchors": ["PyAnEn/VerifyEnsemble.py:VerifyEnsemble._crps"]}
{"id": "C55", "title": "Matrix files round-trip", "statement": "A matrix written by write_matrix can be recovered from the text: the header gives the dimensions and the rows give the rendered entries in order (NaN as nan); an existing file is never changed when overwrite is False.", "quantifier": "all matrices and element renderings without commas, parentheses or newlines, all file-system states", "why_tests_cant": "all matrices", "anchors": ["PyAnEn/Grid.py:write_matrix"]}
{"id": "C56", "title": "Station coordinates are unique and ordered", "statement": "For files whose names contain one rank number: stations of files with different rank numbers get different coordinates, ordered by rank number and then by position in the file (exact arithmetic; C68 treats binary64, C67 names with several rank numbers).", "quantifier": "all file names and station counts", "why_tests_cant": "all names and sizes", "anchors": ["PyAnEn/IO.py:__add_coords__"]}
{"id": "C57", "title": "Character matrices decode to names", "statement": "Decoding the fixed-width, NUL-padded character matrix of a list of ASCII names without NULs returns the names.", "quantifier": "all lists of names and widths", "why_tests_cant": "all strings", "anchors": ["PyAnEn/IO.py:_decode_name_matrix"]}
{"id": "C58", "title": "Import respects user settings", "statement": "After importing the package every documented setting exists in the environment; settings the user had made keep their value, the others read as their documented default, and no other variable is touched.", "quantifier": "all environments", "why_tests_cant": "all environments", "anchors": ["PyAnEn/__init__.py:Defaults"]}
{"id": "C59", "title": "Ensemble axis detection", "statement": "When ensemble_axis is omitted it is -1 if dropping the last axis of f gives the observation shape, else 0 if dropping the first does, else construction raises; after successful construction dropping the ensemble axis from f's shape gives o's shape and the axis is the first or the last.", "quantifier": "all shapes", "why_tests_cant": "all shapes", "anchors": ["PyAnEn/VerifyEnsemble.py:VerifyEnsemble._guess_ensemble_axis", "PyAnEn/VerifyEnsemble.py:VerifyEnsemble._validate"]}
{"id": "C60", "title": "Changing the collapse function takes effect", "statement": "After set_collapse_func(g) the deterministic metrics are those of g applied to the ensemble.", "quantifier": "all ensembles and functions", "why_tests_cant": "all functions", "anchors": ["PyAnEn/VerifyEnsemble.py:VerifyEnsemble.set_collapse_func", "PyAnEn/VerifyEnsemble.py:VerifyEnsemble._collapse_ensembles"]}
{"id": "C61", "title": "A flat rank histogram is perfectly reliable", "statement": "reliability_index is 0 for a flat rank histogram and does not depend on the normalisation of the frequencies.", "quantifier": "all histograms", "why_tests_cant": "all lengths", "anchors": ["PyAnEn/Verify.py:Verify.reliability_index"]}
{"id": "C62", "title": "Parallel sampling uses fresh randomness", "statement": "Members sampled by different worker processes come from different parts of the random stream.", "quantifier": "all numbers of workers and chunks, all assignments of chunks to workers", "why_tests_cant": "all schedules", "anchors": ["PyAnEn/utils_dist.py:_parallel_process", "PyAnEn/utils_dist.py:wrapper_norm_rvs", "PyAnEn/utils_dist.py:sample_dist_gaussian"]}
{"id": "C63", "title": "Probability integral transform", "statement": "pit is the forecast CDF at the observation, in [0,1]; with pit_randomize_zero_ranks the cells with observation 0 (and only those) are replaced by a value between 0 and the CDF there.", "quantifier": "all data and random draws", "why_tests_cant": "all random outcomes", "anchors": ["PyAnEn/VerifyProb.py:VerifyProb._pit"]}
{"id": "C64", "title": "Diebold-Mariano value", "statement": "For finite series (MSE, MAD, or MAPE with non-zero actual values) the returned statistic is sqrt((n-h)(n-h+1))/n times the mean of the loss differential divided by the square root of the estimated variance (g(0) + 2 (g(1)+...+g(h-1)))/n, g(k) the mean product of deviations k steps apart; a negative estimate gives NaN; the p-value is twice the t distribution with n-1 degrees of freedom at minus the absolute statistic.", "quantifier": "all series, horizons, criteria with rational losses", "why_tests_cant": "all series and horizons; the estimate may be negative", "anchors": ["PyAnEn/utils_significance.py:diebold_mariano_test", "PyAnEn/utils_significance.py:autocovariance"]}
{"id": "C65", "title": "Integration calls are independent of earlier ones", "statement": "A parallel integration works also when Ray is running in the process, and an integration that fails does not change the outcome of later ones.", "quantifier": "all processes, verifiers, failing tasks", "why_tests_cant": "needs a failure in every task and any later call", "anchors": ["PyAnEn/utils_approximation.py:Integration._crps", "PyAnEn/utils_approximation.py:Integration._mean", "PyAnEn/utils_approximation.py:Integration._variance"]}
{"id": "C66", "title": "Mass at the lower end of the range", "statement": "The integrated mean accounts for probability mass at or below the lower end of the integration range (e.g. a point mass at 0 integrated from 0).", "quantifier": "all ranges, bin counts, distributions", "why_tests_cant": "all distributions and ranges", "anchors": ["PyAnEn/utils_approximation.py:Integration._mean"]}
{"id": "C67", "title": "Station coordinates for names with several rank numbers", "statement": "Files whose names contain several rank numbers, in different combinations, get different station coordinates.", "quantifier": "all file names", "why_tests_cant": "all names", "anchors": ["PyAnEn/IO.py:__add_coords__"]}
{"id": "C68", "title": "Station coordinates in double precision", "statement": "With binary64 rounding the station coordinates of files with rank numbers s and n stations are still distinct and ordered by rank number and position whenever 2(s+1)n <= 2^50; some bound is needed, since for s = 2^53 two stations of one file coincide.", "quantifier": "all rank numbers, station counts and positions within the bound", "why_tests_cant": "all numbers", "anchors": ["PyAnEn/IO.py:__add_coords__"]}
{"id": "C69", "title": "Gamma CRPS scores the reported CDF", "statement": "The CRPS of a gamma verifier is the CRPS of the CDF which the same verifier reports.", "quantifier": "all mu, sigma > 0, shifts and observations", "why_tests_cant": "needs the exact value of an improper integral for all parameters", "anchors": ["PyAnEn/utils_crps.py:crps_gamma", "PyAnEn/VerifyProbGamma.py:VerifyProbGamma._crps", "PyAnEn/utils_dist.py:cdf_gamma"]}
{"id": "C70", "title": "Deterministic forecast and variance of a Gaussian", "statement": "The deterministic forecast and the variance of a Gaussian verifier are the mean and the variance of its forecast distribution, truncated or not.", "quantifier": "all mu, sigma > 0, both settings of truncated", "why_tests_cant": "moments of a distribution over all parameters", "anchors": ["PyAnEn/VerifyProbGaussian.py:VerifyProbGaussian._f_determ", "PyAnEn/VerifyProbGaussian.py:VerifyProbGaussian._variance"]}
{"id": "C71", "title": "Truncated gamma CDF", "statement": "With truncated=True the probability reported by a gamma verifier is the probability of the shifted gamma distribution conditioned on values from zero to shift + 10000 scale: it grows strictly from 0 to 1 on that interval and is constant outside.", "quantifier": "all mu, sigma > 0, shifts and thresholds", "why_tests_cant": "real-valued functions over all parameters; the wrong values lie at positive shifts and at the upper end", "anchors": ["PyAnEn/dist_truncgamma.py:truncgamma_gen", "PyAnEn/utils_dist.py:cdf_gamma"]}
{"id": "C72", "title": "Members of a truncated gamma forecast", "statement": "Members sampled from a truncated gamma forecast are never negative and follow the reported CDF: with the uniform random number u behind a member, the member is at most t exactly if u is at most the CDF at t.", "quantifier": "all parameters, all uniform random numbers, all thresholds", "why_tests_cant": "all random draws", "anchors": ["PyAnEn/dist_truncgamma.py:truncgamma_gen", "PyAnEn/utils_dist.py:sample_dist_gamma"]}
{"id": "C73", "title": "Parametric CDFs have the forecast's mean and standard deviation", "statement": "cdf() of the Gaussian, gamma and hurdle verifiers is the distribution function of the family member whose mean and standard deviation are the forecast parameters of the cell (after the shift; for the hurdle, of the wet part, with probability 1 - pop on dry); truncated distributions are truncated at zero.", "quantifier": "all shapes, parameters, thresholds and worker counts", "why_tests_cant": "all parameters and cells; parameters could be mixed up between cells or in the conversion to shape and scale", "anchors": ["PyAnEn/utils_dist.py:cdf_gaussian", "PyAnEn/utils_dist.py:cdf_gamma", "PyAnEn/utils_dist.py:cdf_gamma_hurdle"]}
{"id": "C74", "title": "Kernel density probabilities are probabilities", "statement": "The probability that ens_to_prob computes with a kernel density estimate is the probability of the estimated distribution: between 0 and 1, increasing with the threshold, and the mass below it up to the resolution of the numerical integral.", "quantifier": "all ensembles, thresholds, bandwidths, numbers of samples", "why_tests_cant": "error bounds for all inputs", "anchors": ["PyAnEn/utils_verify.py:ens_to_prob_kde"]}
{"id": "C75", "title": "ROC curve and area", "statement": "The ROC curve runs from (0,0) to (1,1) without falling, through the false alarm and hit rates of the warnings issued at or above each forecast probability, and its area is the probability that an event had a higher forecast probability than a non-event, ties counting one half: between 0 and 1, 1 exactly for perfect separation, 1/2 for a constant forecast, unchanged by increasing transformations of the forecasts and by exchanging event and non-event; without events or non-events it is undefined.", "quantifier": "all forecast arrays and binary observations, with and without missing forecasts", "why_tests_cant": "an identity between an integral over a pruned curve and a count of pairs, for all data", "anchors": ["PyAnEn/utils_verify.py:calculate_roc", "PyAnEn/VerifyEnsemble.py:VerifyEnsemble._roc", "PyAnEn/VerifyProb.py:VerifyProb._roc"]}
{"id": "C76", "title": "Missing observations in event metrics", "statement": "With pyanen_skip_nan set, a cell whose observation or forecast is missing has no influence on metrics of events (ROC, Brier score).", "quantifier": "all data", "why_tests_cant": "all data", "anchors": ["PyAnEn/utils_verify.py:binarize_obs", "PyAnEn/utils_verify.py:calculate_roc", "PyAnEn/VerifyEnsemble.py:VerifyEnsemble._brier"]}
{"id": "C77", "title": "Ensemble CRPS is the integral of the Brier score", "statement": "For every cell with finite observation and members, VerifyEnsemble.crps equals the integral over all thresholds of the Brier score that VerifyEnsemble.brier(below=threshold) reports for the cell; it lies between 0 (exactly when all members equal the observation) and the mean absolute error of the members (reached by a single member), and does not depend on which implementation of the scoring library is installed.", "quantifier": "all observations, ensembles of any size, axes, worker counts, and all choices of thresholds between the values", "why_tests_cant": "an identity between two code paths for all ensembles and all thresholds", "anchors": ["PyAnEn/VerifyEnsemble.py:VerifyEnsemble._crps", "PyAnEn/VerifyEnsemble.py:VerifyEnsemble._brier", "PyAnEn/utils_verify.py:ens_to_prob"]}
{"id": "C78", "title": "Missing ensemble members", "statement": "A member that is NaN is left out by the scores of an ensemble: CRPS, probabilities and Brier score of the cell are those of the remaining members.", "quantifier": "all ensembles and thresholds", "why_tests_cant": "all positions and numbers of missing members, all thresholds", "anchors": ["PyAnEn/VerifyEnsemble.py:VerifyEnsemble._crps", "PyAnEn/utils_verify.py:ens_to_prob_moments", "PyAnEn/VerifyEnsemble.py:VerifyEnsemble._brier"]}
{"id": "C79", "title": "Reliability diagram with bootstrap", "statement": "With bootstrap, each slice of the reliability diagram has one point per occupied bin in increasing order; the forecast and the observed value of a point are (lower quantile, mean, upper quantile) triples of the bin means over the configured number of resamples, every resample has n samples drawn from that bin only, and forecast and observed value use the same resamples. The counts are those of the data, not of the resamples. If two slices occupy different numbers of bins the call fails with ValueError.", "quantifier": "all probabilities in [0,1], all binary outcomes, all shapes, bin counts, axis lists written with one sign, all random draws, all confidences in [0,1] and positive numbers of repeats", "why_tests_cant": "all data and all random draws", "anchors": ["PyAnEn/utils_verify.py:_reliability_agg_boot_slice", "PyAnEn/utils_verify.py:_reliability_agg_boot", "PyAnEn/utils_verify.py:_reliability_create_split"]}
{"id": "C80", "title": "Opening a data set", "statement": "open_dataset keeps every variable of the file with its values (character matrices become the strings of their rows), labels the dimensions num_flts, num_parameters, num_test_times, num_search_times and num_times with the values of FLTs, ParameterNames, test_times, search_times and Times where both exist, renames num_test_times to num_times everywhere when there is no num_times yet, and adds or drops no other variable.", "quantifier": "all files that follow xarray's data model and the AnEn layout (names as character matrices, label variables along their dimensions), any values", "why_tests_cant": "all files", "anchors": ["PyAnEn/IO.py:open_dataset", "PyAnEn/IO.py:_decode_name_matrix"]}
{"id": "C81", "title": "Time decoding on opening", "statement": "With decode=True all times of a data set, variables and dimension labels, are decoded as seconds since 1970-01-01.", "quantifier": "all files, any values", "why_tests_cant": "all files", "anchors": ["PyAnEn/IO.py:open_dataset"]}
{"id": "C82", "title": "Station coordinates from a file", "statement": "read_station_coordinates returns exactly the values of the two variables in the file; different numbers of x and y coordinates are an AssertionError, a missing variable a KeyError.", "quantifier": "all files as in C80, all variable names other than dimension labels", "why_tests_cant": "all files", "anchors": ["PyAnEn/Grid.py:read_station_coordinates"]}
{"id": "C83", "title": "What every metric returns", "statement": "Every public metric of every class returns its formula on the object's current forecasts, observations and settings: errors from the deterministic forecast, event metrics from the class's CDF and the binarised observations, integrals of the hurdle class from the CDF or Brier scores at the abscissae, averaged or bootstrapped as set; nested calls, saving and loading make no difference.", "quantifier": "all classes, metrics, arguments, settings and random numbers with saving off; with saving on all histories of calls and accepted settings, for calls that draw no random number", "why_tests_cant": "all objects, settings and call histories", "anchors": ["PyAnEn/Verify.py:Verify._metric_workflow_1", "PyAnEn/VerifyDeterm.py:VerifyDeterm", "PyAnEn/VerifyEnsemble.py:VerifyEnsemble", "PyAnEn/VerifyProb.py:VerifyProb", "PyAnEn/VerifyProbGamma.py:VerifyProbGamma", "PyAnEn/VerifyProbGaussian.py:VerifyProbGaussian", "PyAnEn/VerifyProbGammaHurdle.py:VerifyProbGammaHurdle"]}
{"id": "C84", "title": "Accepted arguments", "statement": "A constructor returns an object exactly if all arguments have the accepted types, shapes and fields and the working directory can be used (and the collapse function works); the object keeps every argument, with avg_axis as a tuple, ~ expanded and the member axis found. A setter returns exactly if the object with the new value is acceptable in the same sense.", "quantifier": "all classes, argument values of any type, file systems", "why_tests_cant": "all argument values and file systems", "anchors": ["PyAnEn/Verify.py:Verify._validate", "PyAnEn/VerifyEnsemble.py:VerifyEnsemble._validate", "PyAnEn/VerifyProb.py:VerifyProb._validate", "PyAnEn/VerifyProbGamma.py:VerifyProbGamma._validate", "PyAnEn/VerifyProbGaussian.py:VerifyProbGaussian._validate", "PyAnEn/VerifyProbGammaHurdle.py:VerifyProbGammaHurdle._validate"]}
{"id": "C85", "title": "Metrics from constructor to numbers", "statement": "After any history of calls and accepted settings, whether results are saved or not, the public metrics of the deterministic and the ensemble class return the textbook values of the current data: error, sq_error and ab_error the means over the averaged cells of the differences (for an ensemble verifier with a mean as collapse function: of the ensemble means), rmse the root of the second; cdf and sharpness the share of the members beyond the threshold; brier the mean squared difference between that share and the outcome; the ROC area the share of correctly ordered pairs; crps the mean of E|X-y| - E|X-X'|/2; spread the mean of largest minus smallest member; iou_determ and iou_prob the intersection over union of the events; with bootstrapping the interval and the mean of the errors lie between the least and the largest error.", "quantifier": "all histories, data of any shape, averaging axes, thresholds, settings", "why_tests_cant": "the values hold for every history of calls and all data at once; a test compares a few numbers", "anchors": ["PyAnEn/Verify.py:Verify", "PyAnEn/VerifyDeterm.py:VerifyDeterm", "PyAnEn/VerifyEnsemble.py:VerifyEnsemble", "PyAnEn/Verify.py:Verify.boot_or_avg", "PyAnEn/utils_verify.py:ens_to_prob"]}
{"id": "C86", "title": "Files of one run opened together", "statement": "open_mfdataset on the files of one run (file names with rank numbers) loses no station and moves none to another's place: every file's values for every station appear once, the files following each other by rank number (as a number, not as text), labelled rank + k/n; the order in which the paths are given or found does not matter. Two files with the same rank number do not lose stations silently.", "quantifier": "all sets of files, ranks, numbers of stations, variables of any shape, groups, orders of the paths", "why_tests_cant": "all file sets and orders; test files have few ranks with one digit", "anchors": ["PyAnEn/IO.py:open_mfdataset", "PyAnEn/IO.py:__add_coords__"]}
{"id": "C87", "title": "Labels, places and units of joined files", "statement": "A group without station places gets those of the root groups, each beside the station it belongs to; lead and test times without labels get the ones of a root group; all time variables get the units 'seconds since 1970-01-01'; nothing else is added. Decoding on opening equals decoding the undecoded result when the files carry no units. All files that are complete can be opened.", "quantifier": "all sets of files and groups, values of any type, decodings", "why_tests_cant": "all file sets; a test opens one", "anchors": ["PyAnEn/IO.py:open_mfdataset"]}
{"id": "C88", "title": "Files a verifier touches", "statement": "A metric call, whether it returns or raises, leaves the object unchanged, makes and removes no directory, and changes no file except results <name>.pkl in the working directory that were missing (or held None), and for the hurdle class with pyanen_integrate_with_less_memory the scratch file, which lies in pyanen_integrate_wdir if set, else in the working directory, else in the current directory; no call leaves a new scratch file behind. Over any history of calls and settings, every changed file lies under a directory that was named as working directory, or is the scratch file.", "quantifier": "all classes, histories, disk contents, library behaviours", "why_tests_cant": "absence of effects on all other files over all histories", "anchors": ["PyAnEn/Verify.py:Verify._save", "PyAnEn/Verify.py:Verify._validate_saving", "PyAnEn/utils_approximation.py:Integration._initialize_memmap", "PyAnEn/utils_approximation.py:Integration._finalize_memmap"]}
{"id": "C89", "title": "Density of the truncated gamma distribution", "statement": "Inside its bounds the pdf of truncgamma_gen is the derivative of its cdf, positive, and integrates over an interval to the difference of the cdf; over the whole support it integrates to 1; outside it is 0; and logpdf is its logarithm.", "quantifier": "all bounds 0 <= a < b, shapes, locations, positive scales, points", "why_tests_cant": "density and distribution function are tied together by a limit at every point of a continuum", "anchors": ["PyAnEn/dist_truncgamma.py:truncgamma_gen._pdf", "PyAnEn/dist_truncgamma.py:truncgamma_gen._logpdf", "PyAnEn/dist_truncgamma.py:truncgamma_gen._cdf"]}
{"id": "C90", "title": "Text of a verifier", "statement": "repr of a verifier never raises and tells its class, the shapes of forecasts and observations and every setting, one per line, so that two verifiers with the same text agree on all of them.", "quantifier": "all classes, forecasts, settings and texts of values without line breaks", "why_tests_cant": "injectivity over all pairs of objects", "anchors": ["PyAnEn/Verify.py:Verify.__repr__", "PyAnEn/Verify.py:Verify._format", "PyAnEn/VerifyEnsemble.py:VerifyEnsemble.__repr__", "PyAnEn/VerifyProb.py:VerifyProb.__repr__"]}
{"id": "C91", "title": "Brier score, its decomposition, reliability diagram and ranks of a constructed ensemble verifier", "statement": "For a constructed ensemble verifier, after any history of calls and settings, brier() equals reliability minus resolution plus uncertainty as returned by brier_decomp() with the same threshold; brier_decomp and reliability return the bin statistics of the shares of the members, and rank_hist returns ranks between the numbers of members below and not above the observation.", "quantifier": "all ensembles, observations, thresholds, averaging axes, numbers of bins and histories of calls", "why_tests_cant": "the identity holds or fails depending on how the shares j/n fall into twenty bins; a claim over all ensemble sizes, data and histories", "anchors": ["PyAnEn/Verify.py:Verify.brier_decomp", "PyAnEn/Verify.py:Verify.reliability", "PyAnEn/Verify.py:Verify.brier", "PyAnEn/utils_special_boot.py:brier_decomp", "PyAnEn/VerifyEnsemble.py:VerifyEnsemble._rank_hist"]}
{"id": "C92", "title": "The choice of mathematics library does not change the gamma CRPS", "statement": "Setting pyanen_use_tensorflow_math only chooses who computes the special functions: every cell of the CRPS of a gamma verifier is the same number with either setting.", "quantifier": "all texts of the setting, parameters with mu, sigma > 0, shifts and observations", "why_tests_cant": "the branch needs TensorFlow and differs only on part of the real parameters", "anchors": ["PyAnEn/utils_crps.py:crps_gamma"]}
{"id": "C93", "title": "Parametric verifiers from constructor to numbers", "statement": "For a constructed Gaussian, Gamma or GammaHurdle verifier, after any history of calls and settings: cdf and sharpness are the distribution function of the cell (or one minus it) with the shape and scale derived from mean and deviation; brier, roc, brier_decomp, reliability and iou_prob are the scores of these probabilities against the observed outcomes, and the three Brier terms add up to brier when cells in one bin have one probability; the errors are those of mu and the variance is sigma squared; rank_hist without members is the distribution function at the observation, and with randomisation only an observation of zero is multiplied by a uniform number; sampled members are clipped draws of the law with these parameters, placed at move_sampled_ens_axis, and with the default axis spread and ranks are theirs. (Truncated gamma: one worker.)", "quantifier": "all parameters, observations, thresholds, distribution functions, random numbers, averaging axes and histories of calls", "why_tests_cant": "a claim over all data, distribution functions, histories and generator states; tests see single numbers", "anchors": ["PyAnEn/VerifyProb.py:VerifyProb._rank_hist", "PyAnEn/VerifyProbGaussian.py:VerifyProbGaussian._cdf", "PyAnEn/VerifyProbGamma.py:VerifyProbGamma._cdf", "PyAnEn/VerifyProbGammaHurdle.py:VerifyProbGammaHurdle._cdf", "PyAnEn/utils_dist.py:cdf_gaussian", "PyAnEn/utils_dist.py:cdf_gamma", "PyAnEn/utils_dist.py:cdf_gamma_hurdle", "PyAnEn/Verify.py:Verify.brier"]}
{"id": "C94", "title": "Scores in double precision", "statement": "With binary64 rounding and whatever order NumPy adds in: the Brier score of up to 2^53 cells lies in [0,1]; abs(error) <= ab_error; ab_error, sq_error and rmse are not negative and all scores of a perfect forecast are zero; ensemble probabilities lie in [0,1], are 0 or 1 exactly if no or all members are counted, and are monotone in the number of members; and a mean of n numbers differs from the exact mean by at most ((1+2^-53)^n - 1) times the mean of their absolute values plus 2^-1075.", "quantifier": "all cells, all numbers of cells, all orders of summation (no overflow)", "why_tests_cant": "all sizes and all orders of summation", "anchors": ["PyAnEn/Verify.py:Verify.boot_or_avg", "PyAnEn/VerifyDeterm.py:VerifyDeterm._ab_error", "PyAnEn/VerifyEnsemble.py:VerifyEnsemble._brier", "PyAnEn/utils_verify.py:ens_to_prob_moments"]}
{"id": "C95", "title": "Exact relations survive rounding", "statement": "In double precision the mean of a group lies between its smallest and its largest value, ab_error <= rmse, and the variance of identical members is zero.", "quantifier": "all groups of double precision numbers", "why_tests_cant": "all numbers; the failures need particular numbers (0.1 three times)", "anchors": ["PyAnEn/Verify.py:Verify.boot_or_avg", "PyAnEn/Verify.py:Verify.rmse", "PyAnEn/VerifyEnsemble.py:VerifyEnsemble._variance"]}
{"id": "C96", "title": "Bins of the reliability diagram in double precision", "statement": "For every count of members k of n, over or below, and every number of bins with n * nbins <= 10^6, the bin that is computed in double precision is the one of exact arithmetic with bins closed on the right: bin i holds the probabilities above i/nbins up to (i+1)/nbins, the first also zero. Probabilities that are equal share a bin, however they were computed.", "quantifier": "all k, n, nbins within the bound, over and below", "why_tests_cant": "all counts; rounding could move any probability that lies on an edge", "anchors": ["PyAnEn/utils_verify.py:_reliability_create_split", "PyAnEn/utils_verify.py:ens_to_prob_moments", "PyAnEn/utils_verify.py:ens_to_prob"]}
{"id": "C97", "title": "Bins of the Brier decomposition in double precision", "statement": "A probability of k of n members falls into bin i of the 20 bins of brier_decomp exactly if i/20 <= probability < (i+1)/20 (the last bin also holds 1), whether it is the probability of over or of below.", "quantifier": "all k, n up to 10^9, over and below", "why_tests_cant": "all counts; the failures are at single edges and differ between over and below", "anchors": ["PyAnEn/utils_special_boot.py:_func_brier_decomp", "PyAnEn/utils_verify.py:ens_to_prob"]}
{"id": "C98", "title": "Computed error metrics are close to the exact ones", "statement": "In double precision, for n cells in whatever order NumPy adds them, bias, mean absolute error, mean square error, root mean square error, Brier score and the variance of members differ from their exact values by no more than a number of roundings that grows with n: n+1 for bias (relative to the mean absolute error) and mean absolute error, n+3 for mean squares, n/2+3 for the root; the variance n+3, beside the squared error of the computed mean.", "quantifier": "all trees of summation, all double precision data (equal or at least 2^-400 apart where squares are taken), all ensemble probabilities", "why_tests_cant": "all numbers and all orders of summation; a test compares a few values with a tolerance", "anchors": ["PyAnEn/Verify.py:Verify.boot_or_avg", "PyAnEn/Verify.py:Verify.rmse", "PyAnEn/VerifyDeterm.py:VerifyDeterm._error", "PyAnEn/VerifyEnsemble.py:VerifyEnsemble._variance", "PyAnEn/VerifyEnsemble.py:VerifyEnsemble._brier"]}
{"id": "C99", "title": "Verifiers in one program do not disturb each other", "statement": "In a program that makes several verifiers and calls them in any order on one disk, each returns and raises what it would if it were alone. True of a verifier whose working directories are apart from those of the others (with suitable random numbers out of those drawn, and with the same contents of its directories at the end); false when a directory is shared (the second verifier returns the numbers of the first) or lies in that of another (making the other removes it and the next metric raises).", "quantifier": "all programs of constructors, metric calls and setters of any number of verifiers, all disks, all random numbers", "why_tests_cant": "all interleavings of all verifiers on all disks; a test runs one program", "anchors": ["PyAnEn/Verify.py:Verify._validate_saving", "PyAnEn/Verify.py:Verify._metric_workflow_1", "PyAnEn/Verify.py:Verify._save", "PyAnEn/Verify.py:Verify._load"]}
{"id": "C100", "title": "An event and its opposite are scored alike", "statement": "For an ensemble verifier after any history: the probabilities of over=t and below=t add up to one in every cell, and brier(over=t) = brier(below=t) and the areas of roc(over=t) and roc(below=t) are equal. The first is true; the scores agree if no observation is equal to the threshold and are refuted otherwise (such an observation is neither over nor below, while a member equal to the threshold counts as below).", "quantifier": "all ensembles, observations, thresholds (numbers or arrays), averaging axes, histories of calls and settings", "why_tests_cant": "relates two calls for all data; tests with continuous random data never hit an observation equal to the threshold", "anchors": ["PyAnEn/Verify.py:Verify._metric_workflow_1", "PyAnEn/VerifyEnsemble.py:VerifyEnsemble._cdf", "PyAnEn/VerifyEnsemble.py:VerifyEnsemble._brier", "PyAnEn/VerifyEnsemble.py:VerifyEnsemble._roc"]}
{"id": "C101", "title": "Perfect forecasts get perfect scores", "statement": "If the forecast is equal to the observations, error, squared and absolute error are 0 and rmse takes the root of 0; if every member is, CRPS and spread are 0, the Brier score is 0 and the ROC area 1 (where the event both occurs and does not); the intersection over union is 1 where the event occurs. True except for below=t when an observation is equal to the threshold: then the Brier score is positive and the ROC area below 1.", "quantifier": "all forecasts, observations, thresholds, averaging axes, histories", "why_tests_cant": "all data; the failing case needs observations equal to the threshold", "anchors": ["PyAnEn/Verify.py:Verify._metric_workflow_1", "PyAnEn/VerifyEnsemble.py:VerifyEnsemble._cdf", "PyAnEn/VerifyEnsemble.py:VerifyEnsemble._brier", "PyAnEn/VerifyEnsemble.py:VerifyEnsemble._roc", "PyAnEn/VerifyDeterm.py:VerifyDeterm._error", "PyAnEn/VerifyEnsemble.py:VerifyEnsemble._crps", "PyAnEn/VerifyEnsemble.py:VerifyEnsemble._spread", "PyAnEn/VerifyDeterm.py:VerifyDeterm._iou_determ"]}
{"id": "C102", "title": "The order of the members and the ensemble axis do not matter", "statement": "Two ensemble verifiers of the same observations, whose forecasts have the same members for every cell, in any order and along any axis, return the same probabilities, Brier scores, ROC areas, CRPS and spread.", "quantifier": "all pairs of ensembles with permuted members (another permutation in every cell), all axes, thresholds, histories of both verifiers", "why_tests_cant": "all permutations and axes, all histories", "anchors": ["PyAnEn/Verify.py:Verify._metric_workflow_1", "PyAnEn/VerifyEnsemble.py:VerifyEnsemble._cdf", "PyAnEn/VerifyEnsemble.py:VerifyEnsemble._brier", "PyAnEn/VerifyEnsemble.py:VerifyEnsemble._roc", "PyAnEn/VerifyEnsemble.py:VerifyEnsemble._crps", "PyAnEn/VerifyEnsemble.py:VerifyEnsemble._spread"]}
{"id": "C103", "title": "Scores do not depend on the units", "statement": "If forecasts and observations are converted by a x + b with a > 0, error, absolute error, CRPS and spread are multiplied by a, the squared error by a squared; probabilities, Brier scores and ROC areas with the converted threshold stay the same.", "quantifier": "all a > 0 and b, all data, thresholds, axes, histories", "why_tests_cant": "all conversions and all data", "anchors": ["PyAnEn/Verify.py:Verify._metric_workflow_1", "PyAnEn/VerifyEnsemble.py:VerifyEnsemble._cdf", "PyAnEn/VerifyEnsemble.py:VerifyEnsemble._brier", "PyAnEn/VerifyEnsemble.py:VerifyEnsemble._roc", "PyAnEn/VerifyDeterm.py:VerifyDeterm._error", "PyAnEn/VerifyEnsemble.py:VerifyEnsemble._crps", "PyAnEn/VerifyEnsemble.py:VerifyEnsemble._spread"]}
{"id": "C104", "title": "Only right forecasts get the best scores", "statement": "A verifier's squared and absolute error are 0 only where forecast and observation are equal in every averaged cell; the CRPS is 0 only where every member equals the observation, and lies between the mean distance of the members from the observation divided by the number of members and that mean distance; the Brier score is 0 only where the probability is exactly the outcome; the ROC area is 1 only if every cell with the event got a higher probability than every cell without it.", "quantifier": "all finite data, shapes, axes, thresholds, histories", "why_tests_cant": "a test shows that one wrong forecast is not rewarded; the claim is about every wrong forecast", "anchors": ["PyAnEn/Verify.py:Verify._metric_workflow_1", "PyAnEn/VerifyDeterm.py:VerifyDeterm._error", "PyAnEn/VerifyEnsemble.py:VerifyEnsemble._crps", "PyAnEn/VerifyEnsemble.py:VerifyEnsemble._brier", "PyAnEn/VerifyEnsemble.py:VerifyEnsemble._roc"]}
{"id": "C105", "title": "Averaging over more axes is averaging the averages, without missing values", "statement": "If two verifiers have the same data and one averages over a superset of the other's axes, each entry of its errors, CRPS, spread and Brier score is the mean of the other's entries, provided no averaged cell is missing. With missing values and pyanen_skip_nan the entry of an error is the mean over the cells that are there (nan if there are none), so that it may differ from the mean of the means; without pyanen_skip_nan it is nan exactly if a cell is missing.", "quantifier": "all shapes, pairs of axes with one a superset, all data, histories", "why_tests_cant": "all shapes and all choices of axes", "anchors": ["PyAnEn/Verify.py:Verify._metric_workflow_1", "PyAnEn/utils_verify.py:boot_arr", "PyAnEn/VerifyDeterm.py:VerifyDeterm._error", "PyAnEn/VerifyEnsemble.py:VerifyEnsemble._crps", "PyAnEn/VerifyEnsemble.py:VerifyEnsemble._spread", "PyAnEn/VerifyEnsemble.py:VerifyEnsemble._brier"]}
{"id": "C106", "title": "One member, and repeated members", "statement": "The CRPS of an ensemble with one member is the absolute error of the deterministic verifier with that member as forecast, and its spread is 0. Taking every member r times, in any order, changes no probability, Brier score, ROC area, CRPS or spread.", "quantifier": "all data, r > 0, axes, thresholds, orders of the repeated members, histories of both verifiers", "why_tests_cant": "all numbers of repeats and all data", "anchors": ["PyAnEn/Verify.py:Verify._metric_workflow_1", "PyAnEn/VerifyEnsemble.py:VerifyEnsemble._crps", "PyAnEn/VerifyEnsemble.py:VerifyEnsemble._spread", "PyAnEn/VerifyEnsemble.py:VerifyEnsemble._cdf", "PyAnEn/VerifyEnsemble.py:VerifyEnsemble._brier", "PyAnEn/VerifyEnsemble.py:VerifyEnsemble._roc"]}
{"id": "C107", "title": "A higher confidence level gives a wider interval", "statement": "With the same resamples, the interval of a bootstrapped metric at a higher confidence level contains the one at a lower level and has the same middle value: for averages, reliability bins, Brier decomposition and correlation, missing values included, and for the error metrics of a verifier.", "quantifier": "all resamples, data with missing values, confidence levels, shapes, axes", "why_tests_cant": "all random draws and all levels", "anchors": ["PyAnEn/utils_verify.py:boot_vec", "PyAnEn/utils_verify.py:boot_arr", "PyAnEn/utils_special_boot.py:_func_brier_decomp", "PyAnEn/utils_special_boot.py:_func_corr", "PyAnEn/Verify.py:Verify._metric_workflow_1"]}
{"id": "C108", "title": "Among constant forecasts the climatology scores best", "statement": "For forecasts that are the same in every averaged cell: the mean squared error of the number c is that of the mean of the observations plus the squared distance of c from this mean, and its mean absolute error is at least that of a median of the observations; the Brier score of the probability p is (p - r)^2 + r (1 - r), where r is the share of cells with the event, so that it is least exactly for p = r; the ROC area is 1/2; the CRPS of an ensemble is at least that of the observations of these cells taken as members, with equality exactly for ensembles with the same share at or below every number.", "quantifier": "all finite data, ensembles of any size, shapes, axes, thresholds, histories of both verifiers", "why_tests_cant": "propriety of a score is a claim about all competing forecasts", "anchors": ["PyAnEn/Verify.py:Verify._metric_workflow_1", "PyAnEn/VerifyDeterm.py:VerifyDeterm._error", "PyAnEn/VerifyEnsemble.py:VerifyEnsemble._crps", "PyAnEn/VerifyEnsemble.py:VerifyEnsemble._brier", "PyAnEn/VerifyEnsemble.py:VerifyEnsemble._roc"]}
{"id": "C109", "title": "Ensemble probabilities as a function of the threshold", "statement": "The probability an ensemble verifier gives for below=t is a whole number of members divided by their number, does not decrease as the threshold grows, is 0 exactly if every member is above the threshold and 1 exactly if none is.", "quantifier": "all ensembles (missing and infinite members included), pairs of scalar or array thresholds, histories", "why_tests_cant": "all pairs of thresholds and all ensembles", "anchors": ["PyAnEn/Verify.py:Verify._metric_workflow_1", "PyAnEn/VerifyEnsemble.py:VerifyEnsemble._cdf", "PyAnEn/utils_verify.py:ens_to_prob"]}
{"id": "C110", "title": "A rank depends only on the order of the members around the observation", "statement": "Two ensemble data sets in which every cell has as many members below the observation and as many equal to it get the same ranks: from one process with the same random numbers, ties included; without ties from any numbers of processes and any random numbers. In particular the ranks do not change if every number goes through the same strictly increasing function (another unit) and the members are put in another order or along another axis; without ties, a strictly decreasing function turns rank k of n members into n + 2 - k.", "quantifier": "all pairs of data sets with the same cells, member counts and axes, functions, generators", "why_tests_cant": "all monotone transformations of all ensembles", "anchors": ["PyAnEn/utils_verify.py:rank_histogram", "PyAnEn/utils_verify.py:rankdata", "PyAnEn/VerifyEnsemble.py:VerifyEnsemble._rank_hist"]}
{"id": "C111", "title": "What the terms of the Brier decomposition of an ensemble verifier say", "statement": "For a constructed ensemble verifier after any history: the uncertainty is 0 exactly if the event happened always or never; the reliability is 0 exactly if in each of the twenty bins of given probability the event happened as often as it was given on average; the resolution is 0 exactly if it happened in each bin as often as in all cells, and equal to the uncertainty exactly if in each bin it happened always or never. All three terms are the same for the opposite event (over and below the same threshold) if no observation is equal to it.", "quantifier": "all ensembles, observations, thresholds, axes, histories", "why_tests_cant": "equivalences over all data", "anchors": ["PyAnEn/Verify.py:Verify.brier_decomp", "PyAnEn/utils_special_boot.py:_func_brier_decomp", "PyAnEn/VerifyEnsemble.py:VerifyEnsemble._brier_decomp"]}
{"id": "C112", "title": "Laws of the parametric verifiers: opposite events, larger thresholds, other units", "statement": "For a constructed Gaussian, Gamma or GammaHurdle verifier after any history: the probability over a threshold is one minus that below it. If no observation is equal to the threshold, the Brier score and the ROC area are the same for both events, and so are the three terms of the Brier decomposition if moreover no probability lies on an inner edge of the twenty bins. The probability below a threshold does not decrease with it. A verifier of the same forecasts and observations in other units gives the same probabilities, Brier scores and PIT values.", "quantifier": "all parameter arrays, observations, thresholds, axes, unit changes, histories, distribution functions of scipy", "why_tests_cant": "relations between answers over all data and all distribution functions", "anchors": ["PyAnEn/Verify.py:Verify.brier", "PyAnEn/Verify.py:Verify.brier_decomp", "PyAnEn/Verify.py:Verify.roc", "PyAnEn/VerifyProbGaussian.py:VerifyProbGaussian._cdf", "PyAnEn/VerifyProbGamma.py:VerifyProbGamma._cdf", "PyAnEn/VerifyProbGammaHurdle.py:VerifyProbGammaHurdle._cdf"]}
{"id": "C113", "title": "Variance, spread-skill diagram and correlation from constructor to numbers", "statement": "For a constructed ensemble verifier after any history, variance() is in every cell the mean squared deviation of the members from their mean, and missing if a member is missing. binned_spread_skill(nbins) of an ensemble or a Gaussian or Gamma verifier puts the cells that are averaged together into nbins bins of nearly equal size ordered by variance (for the parametric verifiers the square of sigma), and returns for every bin the root of the mean variance and the root of the mean squared error of the forecast of the same cells. corr() returns for every kept cell the correlation coefficient of the forecasts and observations that are averaged there, pairing each forecast with the observation of its own cell, and leaves out pairs with a missing value only under pyanen_skip_nan.", "quantifier": "all arrays of any rank, ensemble axes, averaging axes, numbers of bins, sorting algorithms, histories of calls with saved results", "why_tests_cant": "composition of the constructor, the saved results, the binning and the aggregation over all shapes and data", "anchors": ["PyAnEn/Verify.py:Verify.variance", "PyAnEn/Verify.py:Verify.binned_spread_skill", "PyAnEn/Verify.py:Verify.post_binned_spread_skill", "PyAnEn/Verify.py:Verify.corr", "PyAnEn/VerifyEnsemble.py:VerifyEnsemble._variance", "PyAnEn/VerifyEnsemble.py:VerifyEnsemble._binned_spread_skill", "PyAnEn/VerifyProb.py:VerifyProb._binned_spread_skill", "PyAnEn/utils_special_boot.py:corr"]}
{"id": "C114", "title": "Hurdle verifier and parametric CRPS from constructor to numbers", "statement": "For a constructed gamma hurdle verifier after any history, with n integration points from lo to hi (the given range, or the smallest and largest observation moved outwards by the multiplier times their distance), f_determ() is in every cell the mean of the interval midpoints weighted with the increase of the distribution function, variance() the same mean of squares less the square of that mean, and crps() the average of the trapezium sums of the squared distance to the step function of the observation. The mean lies between lo and hi times the covered probability, the variance is not negative, the CRPS is between 0 and hi-lo. error(), sq_error(), ab_error(), binned_spread_skill() and corr() are those of these means and variances. Integrating with any number of workers, completion order, in memory or with a scratch file gives the same numbers. crps() of the Gaussian and (untruncated) Gamma verifier averages the scores of the cells, each computed from the parameters and the observation of its own cell.", "quantifier": "all distribution functions, ranges, numbers of points, shapes, averaging axes, settings, schedules of workers, histories of calls with saved results", "why_tests_cant": "composition of the constructor, the saved results, the integration in all its execution modes and the averaging", "anchors": ["PyAnEn/VerifyProbGammaHurdle.py:VerifyProbGammaHurdle._crps", "PyAnEn/VerifyProbGammaHurdle.py:VerifyProbGammaHurdle._variance", "PyAnEn/VerifyProbGammaHurdle.py:VerifyProbGammaHurdle._f_determ", "PyAnEn/VerifyProbGaussian.py:VerifyProbGaussian._crps", "PyAnEn/VerifyProbGamma.py:VerifyProbGamma._crps", "PyAnEn/utils_approximation.py:Integration._mean", "PyAnEn/utils_approximation.py:Integration._variance", "PyAnEn/utils_approximation.py:Integration._crps", "PyAnEn/Verify.py:Verify.crps"]}
{"id": "C115", "title": "Bootstrapped metrics from constructor to numbers, with saved results", "statement": "With boot_samples=n, crps(), error(), sq_error(), ab_error(), brier() and the ensemble's spread() of a constructed verifier after any history of calls, saving or not, return along a new first axis lower bound, mean and upper bound: for every combination of the kept indices these are the quantiles and the mean of the means of `repeats` resamples of n values, each taken from the values the same verifier returns for the averaged cells with avg_axis=() and without bootstrapping (avg_axis counted all from the front or all from the back). They lie between the least and the largest of these values and equal them if all are the same. Whether and where results have been saved does not matter: the answer is settled by the data, the settings and the next random number. If computing the cells raises an exception, the bootstrapped call raises the same one.", "quantifier": "all classes, data, settings, random generators, histories of calls with saved results", "why_tests_cant": "randomness: a test sees single draws; and histories: saved intermediate results must be those before resampling, whatever was called before", "anchors": ["PyAnEn/Verify.py:Verify._metric_workflow_2", "PyAnEn/Verify.py:Verify.boot_or_avg", "PyAnEn/Verify.py:Verify.crps", "PyAnEn/Verify.py:Verify.error", "PyAnEn/Verify.py:Verify.brier", "PyAnEn/Verify.py:Verify.spread", "PyAnEn/utils_verify.py:boot_arr", "PyAnEn/utils_verify.py:boot_vec"]}
{"id": "C116", "title": "Bootstrapped reliability diagram and Brier decomposition from constructor to numbers", "statement": "With boot_samples=n>0, reliability(nbins, over/below) of a constructed ensemble or parametric verifier, after any history of calls, saving or not, returns for every slice of the kept axes one point per occupied bin, in the order of the bins. Forecast and observed value of a point are (quantile, mean, quantile) triples of the means of the same `repeats` resamples of n samples, all drawn from the samples of this bin only; the counts are those of the data. With a confidence of at least 1/2 the forecast triple lies inside its bin, the observed triple in [0,1], and no upper bound is below its lower bound. If two slices occupy different numbers of bins the call raises ValueError. brier_decomp() with boot_samples=n, after any such history, succeeds and returns three arrays with a leading axis of three, all numbers finite and not negative, those of resolution and uncertainty at most 1/4.", "quantifier": "all data, thresholds, numbers of bins, one-signed axis lists, random generators, histories of calls with saved results", "why_tests_cant": "randomness and histories: a test sees single draws of single histories; the bounds hold for every draw", "anchors": ["PyAnEn/Verify.py:Verify.reliability", "PyAnEn/Verify.py:Verify.brier_decomp", "PyAnEn/Verify.py:Verify._metric_workflow_2", "PyAnEn/utils_verify.py:_reliability_agg_boot", "PyAnEn/utils_verify.py:_reliability_agg_boot_slice", "PyAnEn/utils_special_boot.py:brier_decomp"]}
{"id": "C117", "title": "The scores of an ensemble and of its members verified alone", "statement": "Take a VerifyEnsemble whose collapsed forecast is the mean of the members, and for every member a VerifyDeterm with that member as deterministic forecast, the same observations and averaging axes (no bootstrap, no missing values), each after any history of calls. In every entry of the results: error() of the ensemble is the mean of the members' error(); the mean of the members' sq_error() is sq_error() of the ensemble plus the mean of variance() over the averaged cells, hence never smaller, and equal exactly if in each of these cells all members agree; ab_error() and crps() of the ensemble are at most the mean of the members' ab_error(), and crps() is at least that mean divided by the number of members. variance() is never negative, zero exactly if the members agree, at most a quarter of the square of their range, unchanged by reordering the members or repeating each equally often, and multiplied by a*a if the forecasts are converted by a*x+b.", "quantifier": "all finite data, numbers of members, axes, conversions; all histories of calls of all the verifiers involved", "why_tests_cant": "the laws relate calls of several verifiers on arbitrary data; a test compares single numbers", "anchors": ["PyAnEn/Verify.py:Verify.error", "PyAnEn/Verify.py:Verify.sq_error", "PyAnEn/Verify.py:Verify.ab_error", "PyAnEn/Verify.py:Verify.crps", "PyAnEn/VerifyEnsemble.py:VerifyEnsemble._variance", "PyAnEn/VerifyEnsemble.py:VerifyEnsemble._crps"]}
{"id": "C118", "title": "Bootstrapped spread-skill diagram and correlation from constructor to numbers", "statement": "With boot_samples=n, binned_spread_skill(nbins) of the ensemble, Gaussian and Gamma verifiers, after any history of calls (results saved or not, the bins read back from the saved file included), returns two arrays with the axes not averaged, one axis for the bins and one of length 3. In every slice the cells are put into nbins bins by increasing variance, as even as possible; an entry is the square root of the lower quantile, mean or upper quantile (levels 1-c and c) of the mean variances, or mean squared errors, of the same random resamples of n cells of that bin. If c is at least one half and the root keeps order, no lower bound is above its upper bound, and in the spread the upper bound and the mean of a bin are not above the lower bound and the mean of any later bin. corr() with boot_samples=n, after any such history, returns 3 values per slice: lower quantile, mean and upper quantile of np.corrcoef of random resamples of n cells of the slice, every cell being drawn for forecast and observation together; with pyanen_skip_nan coefficients that are missing are left out.", "quantifier": "all finite data (any data for corr), shapes, axes, numbers of bins and samples, confidence levels, random generators; all histories of calls", "why_tests_cant": "random results over all seeds and histories, and an order between intervals of different bins, cannot be enumerated", "anchors": ["PyAnEn/Verify.py:Verify.binned_spread_skill", "PyAnEn/Verify.py:Verify.post_binned_spread_skill", "PyAnEn/Verify.py:Verify.corr", "PyAnEn/utils_ss.py:_binned_spread_skill_agg_boot", "PyAnEn/utils_special_boot.py:_func_corr"]}
{"id": "C119", "title": "Mirrored data get mirrored scores", "statement": "If forecasts and observations of a second verifier are a*x+b of those of the first with a<0, then error() is a times, sq_error() a*a times, ab_error(), crps() and the ensemble's spread() -a times that of the first, and iou_determ(over=t) of the first is iou_determ(below=a*t+b) of the second. cdf(), brier() and the area of roc() for over=t (below=t) are those of the mirrored verifier for below=a*t+b (over=a*t+b).", "quantifier": "all finite data, shapes, axes, a<0, b, thresholds, histories of calls", "why_tests_cant": "compares two verifiers over all data; a test cannot cover all ties between members and thresholds", "anchors": ["PyAnEn/VerifyEnsemble.py:VerifyEnsemble._cdf", "PyAnEn/VerifyEnsemble.py:VerifyEnsemble._brier", "PyAnEn/VerifyEnsemble.py:VerifyEnsemble._roc", "PyAnEn/VerifyEnsemble.py:VerifyEnsemble._crps", "PyAnEn/VerifyEnsemble.py:VerifyEnsemble._spread", "PyAnEn/VerifyDeterm.py:VerifyDeterm._iou_determ", "PyAnEn/VerifyDeterm.py:VerifyDeterm._error"]}
{"id": "C120", "title": "The score of a data set is the weighted mean of the scores of its pieces", "statement": "If the cells a verifier averages over are those of two other verifiers put together (in any order and at any place; the ensemble axes may differ, the thresholds may depend on the cell), with the same data in them, then its error(), sq_error(), ab_error(), crps(), spread() and brier() there are the means of those of the two others, weighted with the numbers of cells. Data sets appended along a first axis that is averaged over are such pieces.", "quantifier": "all finite data, shapes, averaged axes, ways of cutting, thresholds, histories of calls", "why_tests_cant": "relates three verifiers over all data and all ways of cutting a data set; a test covers a few cuts", "anchors": ["PyAnEn/VerifyEnsemble.py:VerifyEnsemble._brier", "PyAnEn/VerifyEnsemble.py:VerifyEnsemble._crps", "PyAnEn/VerifyEnsemble.py:VerifyEnsemble._spread", "PyAnEn/VerifyDeterm.py:VerifyDeterm._error", "PyAnEn/Verify.py:Verify._metric_workflow_1"]}
{"id": "C121", "title": "Missing values from constructor to numbers", "statement": "error(), sq_error() and ab_error() leave out the cells where forecast or observation is missing, crps() those where the observation or all members are missing (missing members of other cells are left out of the ensemble), spread() of an ensemble those where all members are missing, when pyanen_skip_nan is on: the result is that of a verifier without these cells, in any order. When it is off, one such cell (for spread() one missing member) makes the result NaN. In brier() a missing observation is scored as an event that did not happen, and the result is never NaN.", "quantifier": "all patterns of missing values, data, shapes, averaged axes, thresholds, histories of calls", "why_tests_cant": "patterns of missing values are exponentially many, and two verifiers are compared", "anchors": ["PyAnEn/Verify.py:Verify._metric_workflow_1", "PyAnEn/VerifyDeterm.py:VerifyDeterm._error", "PyAnEn/VerifyEnsemble.py:VerifyEnsemble._crps", "PyAnEn/VerifyEnsemble.py:VerifyEnsemble._spread", "PyAnEn/VerifyEnsemble.py:VerifyEnsemble._brier"]}
{"id": "C122", "title": "Bootstrapped scores in other units", "statement": "If the cells of one verifier are a*x+b for the cells x of another, and both bootstrap the same number of samples with the same random numbers, then the bootstrapped mean is a*mean+b, and lower and upper bound are a*lower+b and a*upper+b, or a*upper+b and a*lower+b for negative a. For forecasts and observations converted by a*x+b, lower bound, mean and upper bound of error() change by the factor a (bounds exchanged for negative a), of sq_error() by a*a, of ab_error() by |a|.", "quantifier": "all data, shapes, averaged axes, factors and offsets, sample sizes, repeats, confidence levels, random draws, histories of calls", "why_tests_cant": "two runs with the same draws are compared, over all draws and units", "anchors": ["PyAnEn/Verify.py:Verify._metric_workflow_1", "PyAnEn/utils_verify.py:boot_vec", "PyAnEn/utils_verify.py:boot_arr", "PyAnEn/VerifyDeterm.py:VerifyDeterm._error"]}
{"id": "C123", "title": "The score of one place does not depend on data elsewhere", "statement": "error(), sq_error(), ab_error(), and of an ensemble crps(), spread() and brier(), averaged over some axes, have at a place of the result a value that depends only on the forecasts, observations and thresholds of the cells averaged there: two verifiers of the same shape with the same data in these cells give the same number, or with bootstrapping and the same random numbers the same lower bound, mean and upper bound, whatever finite, infinite or missing values the other cells hold. Probabilities of cdf() in a cell depend only on members and threshold of this cell.", "quantifier": "all data including missing and infinite values elsewhere, shapes, averaged axes, ensemble axes, thresholds, sample sizes, random draws, histories of calls", "why_tests_cant": "the data elsewhere range over all arrays, and two runs are compared", "anchors": ["PyAnEn/Verify.py:Verify._metric_workflow_1", "PyAnEn/Verify.py:Verify.boot_or_avg", "PyAnEn/utils_verify.py:boot_arr", "PyAnEn/VerifyDeterm.py:VerifyDeterm._error", "PyAnEn/VerifyEnsemble.py:VerifyEnsemble._crps", "PyAnEn/VerifyEnsemble.py:VerifyEnsemble._spread", "PyAnEn/VerifyEnsemble.py:VerifyEnsemble._brier"]}
{"id": "C124", "title": "Kernel density probabilities with any kernel", "statement": "With each of the six kernels of scikit-learn, ens_to_prob_kde (pyanen_ens_to_prob_method=kde) gives at a threshold t above the lower end a (pyanen_kde_multiply_spread spreads below the smallest member) the mass of the estimated distribution between a and t, up to 3/h*(t-a)/(samples-1). With a kernel of bounded reach (tophat, epanechnikov, linear, cosine) and a lower end at least one bandwidth h below all members, this is the estimated distribution function, within the same error of 1 one bandwidth above all members, and exactly 0 for thresholds below the lower end. If all members agree the result never exceeds 1/2 by more than the error. Other kernel names, empty ensembles and bandwidths that are not positive raise ValueError, fewer than two samples IndexError.", "quantifier": "all kernels, bandwidths, numbers of samples, members, thresholds, multiples of the spread", "why_tests_cant": "the sums range over reals and arbitrary ensembles, and the error bound concerns all numbers of samples", "anchors": ["PyAnEn/utils_verify.py:ens_to_prob_kde"]}
{"id": "C125", "title": "Event metrics with any probability method, from constructor to numbers", "statement": "Whatever function turns threshold and members of a cell into a probability (pyanen_ens_to_prob_method, e.g. the kernel density estimate), on one or several workers, with or without saved results and after any history of calls: cdf() and sharpness() of VerifyEnsemble return its values for below= and one minus its values for over=, brier() their mean squared distance to the observed event, and the area of roc() is the share of pairs of cells in which the cell with the event has the higher value (ties one half). If the function raises an exception in some cell (and no other one elsewhere), cdf, sharpness, brier, brier_decomp, roc and reliability raise this exception, also with bootstrapping; an unknown method makes all of them raise Exception.", "quantifier": "all methods, members, thresholds, shapes, axes, numbers of workers, histories, saved files", "why_tests_cant": "the method is an arbitrary function, and the numbers are those after arbitrary histories with caching", "anchors": ["PyAnEn/utils_verify.py:ens_to_prob", "PyAnEn/VerifyEnsemble.py:VerifyEnsemble._cdf", "PyAnEn/Verify.py:Verify.sharpness", "PyAnEn/VerifyEnsemble.py:VerifyEnsemble._brier", "PyAnEn/VerifyEnsemble.py:VerifyEnsemble._roc"]}
