# Formal model of PyAnEn in Rocq/Coq — design

## 1. Approach

The Python sources are read as text; nothing is executed.  Every function is
modelled as a shallow, total, computable Gallina function that mirrors the
Python code branch by branch.  Exceptions are values (`res A := Ok a | Raise e`).

* **Numbers.**  float64 values are modelled by `num := Fin q | PInf | NInf | NaN`
  with `q : Qc` an exact rational (Leibniz equality, executable, axiom free).
  NaN propagation, comparisons with NaN being false, 0/0 = NaN and x/0 = +-inf are
  part of the model; *rounding and signed zero are not*.  Where the code takes square
  roots or uses exp/erf the last step is modelled in `R` (standard library reals).
* **Arrays.**  `arr A := { shape : list nat; get : list nat -> A }` with C-order
  enumeration `indices`, `ravel`, `reshape`, `transpose`, `moveaxis`, `split`,
  `concatenate` following NumPy's documented index semantics, for any rank.
* **Randomness** is an argument (`rng` functions giving the drawn indices); theorems
  quantify over all of it.
* **Library calls** whose inside is not PyAnEn code (scipy distribution functions,
  properscoring, t.cdf, pickle) are `Section` variables, i.e.
  explicit arguments of every theorem that uses them, with the assumed behaviour as
  explicit hypotheses; an `Example` shows that the hypotheses are satisfiable.
* **State** (verifier object, file system, environment, memory map, schedules)
  is modelled by explicit state-transition functions; histories are lists of operations.

Files: `QcTac, Num, QSum, NdArr, NdAxes, NdMove, Numpy, RTier, R_gauss` (numeric and array
base), `M_*.v` (model, no proofs), `Spec*.v` (independent specification vocabulary), `P_*.v`
(proofs), `Props_*.v` (theorem statements with short proofs, non-vacuity examples and
`Print Assumptions`).

A property which the faithful model does not satisfy as stated has a theorem
`..._refuted` with a witness (or the negation for all inputs), and `..._partial` theorems
with the part which does hold; the note in `MANIFEST.json` then starts with REFUTED.

## 2. Plan per property

| id | what is modelled | how it is proved |
|----|------------------|------------------|
| C01 | `_metric_workflow_1`, `_load`, `_save`, `_validate_saving`, setters, method bodies of all classes as programs calling cached sub-metrics | coherence invariant between directory and current settings, induction over histories |
| C02 | same; Spec_settings.v: table of the settings each saved result depends on | refuted, for every class, metric and setting of the table (66 combinations); partial: every history of metric calls and setters, accepted or rejected, that changes no setting a saved result of the history depends on |
| C03 | `to_name` and the table of public methods | injectivity on strings |
| C04 | `to_name` | case analysis, equality with a direct description |
| C05 | same as C01 with a random stream | invariant: a stored name keeps its value |
| C06 | `_validate_saving` over a file-system function | pointwise equality of file systems |
| C07 | constructors and setters with validation order | refuted with witness; partial for argument checks that come first |
| C08, C09 | `_save` as a sequence of byte-level steps, crash = prefix of the steps | induction on prefixes; refutation of recoverability |
| C10 | C01 model | induction over histories |
| C11, C12 | `boot_or_avg` without bootstrap | index algebra for arbitrary rank |
| C13 | `_error`, `_sq_error`, `_ab_error`, `rmse` | inequalities over sums |
| C14 | `boot_arr` (sort axes, moveaxis loop, reshape, apply_along_axis, reshape back) | invariant of the moveaxis loop; refuted for mixed signs |
| C15-C17 | `boot_vec` and the other CI constructions, `np.quantile` | sortedness, interpolation monotone in the level |
| C18-C21 | `rankdata`, `rank_histogram` | counting; refutation of tie randomisation |
| C22, C23 | `ens_to_prob`, `ens_to_prob_moments` | counting, split/concat index algebra |
| C24 | all callers | case analysis |
| C25, C26 | `_brier`, `binarize_obs` | per-cell; refuted for `below` |
| C27, C28 | `_func_brier_decomp` | algebra of partitioned sums |
| C29-C31 | `_reliability_*` | linspace/digitize arithmetic, bincount |
| C32-C34 | `_binned_spread_skill_*` incl. view/copy semantics of reshape | permutations, array_split |
| C35, C36 | `_iou*`, `iou_prob` call chain | counting |
| C37-C41, C63 | `utils_dist.py`, `VerifyProb*.py` | per-cell, split/concat; oracles for scipy |
| C42-C47 | `utils_approximation.py` | permutations of completions, Abel/trapezoid sums, environment map, interleavings |
| C48, C49 | `utils_significance.py` | algebra; R for the square root |
| C50, C51 | `utils_special_boot.py` | Cauchy-Schwarz; transpose/reshape algebra |
| C52, C53 | `utils_crps.py` | derivatives in R (Coquelicot) |
| C54 | `_crps` of VerifyEnsemble | index algebra |
| C55 | `Grid.write_matrix` | parser, round trip |
| C56, C57 | `IO.py` helpers | arithmetic, strings |
| C58 | `__init__.py` | map lemma |
| C59, C60 | `VerifyEnsemble` constructor, validation, collapse | case analysis; refutation |
| C61 | `reliability_index` | refuted for every histogram |
| C62 | fork-based worker pool RNG | refuted by a schedule |
| C64 | `diebold_mariano_test` against a formula written from the paper | algebra in R |
| C65 | `ray.init` as process state | refuted by two consecutive calls; induction over sequences of calls that returned |
| C66 | `_mean` | refuted for a point mass at the lower end; error bound for the part inside the range |
| C67, C68 | `__add_coords__`: several rank numbers; binary64 rounding (Flocq) | witness; injectivity for equal widths; error bounds of correctly rounded operations |
| C69 | `crps_gamma` against the CDF the same class reports | integrals of squares (Coquelicot) |
| C70 | `_f_determ`, `_variance` of the Gaussian class against the moments of its CDF | improper integrals |
| C71, C72 | `truncgamma_gen` through scipy's argument checks | order of the incomplete gamma function |
| C73 | parameter conversions of the CDFs | location-scale algebra |
| C74 | `ens_to_prob_kde` (sklearn's Gaussian kernel) | trapezoid error bound, limits |
| C75 | `calculate_roc`, sklearn's `roc_curve` and `auc` | area = counting of pairs |
| C76 | `binarize_obs` with missing observations in its callers | case analysis, witness |
| C77, C78 | properscoring's `crps_ensemble` (both implementations) against `brier` and `cdf` | pairs of steps, telescoping sums over a grid |
| C79 | `reliability_diagram` with bootstrap | resamples as lists of cells of one bin |
| C80-C82 | `open_dataset`, `read_station_coordinates` after the file is read | data sets as lists of named variables |
| C83 | every metric body, `_metric_workflow_*`, `rmse` | programs without files evaluate to the formulas of `Spec_result.v`; C01 carries this to histories with saving |
| C84 | constructors, setters, `_validate*` | equivalence with `acceptable` of `Spec_accept.v` |
| C85 | the public metrics of VerifyDeterm and VerifyEnsemble, from the constructor on | `M_whole.v` fills the library oracle of `M_state.v` with the value models (arrays inside Python values through the coding of `Store.v`); C83 composed with C11, C14, C15, C22, C35, C54, C75, C77 |
| C86, C87 | `open_mfdataset`: stations of several files, labels, places, units | `M_mfnc.v`: files as an oracle `disk`, `glob` and `expanduser` as oracles, xarray's `open_mfdataset` (combine by coordinates) as a function; `strict` says whether this xarray refuses `concat_dim` |
| C88 | files changed by metric calls and by histories | state machine `M_state.v`; specification `Spec_foot.v` |
| C89 | pdf, logpdf of the truncated gamma distribution | `M_truncgamma.v` over the reals; `gammainc`, `gammaln` as in `Spec_density.v` |
| C90 | `repr` of a verifier | `M_repr.v`; `str()` and `__name__` as oracles; lines in `Spec_repr.v` |
| C91 | Brier decomposition, reliability diagram and ranks of VerifyEnsemble, from the constructor on | `M_whole2.v` fills further names of the library; C83 composed with C18, C22, C27, C30, C51 |
| C92 | `crps_gamma` with and without TensorFlow | NaN of the incomplete gamma function; C53 |
| C93 | VerifyProbGaussian, VerifyProbGamma, VerifyProbGammaHurdle from the constructor on: probabilities, scores, errors, PIT, sampled members | `M_whole3.v` fills the distribution functions and samplers into the library (SciPy's are arbitrary functions); C83 composed with C18, C27, C30, C35, C75 and the lemmas of C38 and C62 |
| C94, C95 | averages, errors, Brier score and ensemble probabilities in binary64 (`M_round.v`, Flocq) | sums along arbitrary trees; monotone and symmetric rounding; error bound by induction on the tree; witnesses computed by a verified rounding of fractions |
| C98 | the same scores: distance from the exact values | relative errors composed by counting roundings; sums of nonnegative numbers by induction on the tree; the variance as exact variance plus squared error of the mean |
| C99 | several verifiers in one program | `M_many.v` over `M_state.v`; a simulation between two disks that agree on what one verifier can see, and a frame for what the others write |
| C100 to C103 | laws that relate two calls: opposite events, right forecasts, order of the members, units | from C85, by algebra of means, shares and pairs of cells (`P_laws.v`) |
| C104 to C106 | only right forecasts get the best scores; averages of averages; one member and repeated members | from C85 (`P_laws2.v`, `Props_laws2.v`) |
| C107 | nested confidence intervals | quantiles are monotone in their level, same resamples (`Props_nested.v`, `Props_nested2.v`) |
| C108, C109 | which constant forecast scores best; probabilities as a function of the threshold | from C85; distances as sums of widths between sorted points (`P_laws3.v`, `Props_laws3.v`) |
| C110 | ranks depend only on the order around the observation | from the exact ranks of C18-C20 and C83 (`Props_order.v`) |
| C111 | what the terms of the Brier decomposition say; opposite events | from C91, by averages of squares that vanish (`Props_terms.v`); refuted from 20 members on |
| C112 | laws of the parametric verifiers: opposite events, larger thresholds, other units | from C93 (`Props_plaws.v`); the distribution functions stay arbitrary except where a theorem says nondecreasing or location-scale |
| C113 | variance, spread-skill diagram and correlation from the constructor on | `M_whole4.v` fills np.var, the two halves of the spread-skill diagram and the correlation into the library; np.argsort is any sorting function, np.sqrt and np.corrcoef are arbitrary functions |
| C114 | gamma hurdle verifier and parametric CRPS from the constructor on | `M_whole5.v` fills the abscissae, the in-memory sums of `M_integ.v` and the CRPS of one cell into the library; `c114_any_way` ties the numbers to the full `M_integ.integrate` with workers and scratch file |
| C115 | bootstrapped metrics from the constructor on, with saved results | `P_wboot.v` extends the history theorem of C83 to calls that draw only after the saved part, corr and brier_decomp among them, which are not saved but use saved values; the cells are what the same verifier returns with avg_axis=() and no bootstrap |
| C116 | bootstrapped reliability diagram and Brier decomposition from the constructor on | C115's history theorem joined with C79; `Spec_wboot2.v` says where triples and counts are found in the returned value; ensemble and parametric verifiers |
| C117 | ensemble against its members; laws of the variance | calls of one ensemble and one deterministic verifier per member are compared, after any histories, through C85 and C113; sums in `P_laws4.v` |
| C118 | bootstrapped spread-skill diagram and correlation from the constructor on | `M_whole6.v` adds the two random calls to the library; C115's history theorem joined with the bootstrap of C33, for any root; `Spec_wboot3.v` states the diagram and the order of its intervals |
| C119 | mirrored data get mirrored scores | as C103 with a negative factor: over and below change places; refuted when a member is equal to the threshold |
| C120 | the score of a data set is the weighted mean of the scores of its pieces | three verifiers, cells related by a permutation; appending along the first axis shown to be such a cut |
| C121 | missing values from constructor to numbers | missing values as None in the specification, mean of those that are there; a missing observation is no event for brier() |
| C122 | bootstrapped scores in other units | a*x+b of lower bound, mean and upper bound, bounds exchanged for negative a |
| C123 | the score of one place does not depend on data elsewhere | two verifiers that agree in the cells of one place answer with the same numbers there |
| C124 | kernel density probabilities with any kernel | distribution functions of the six kernels in closed form, shown to be integrals of the kernels; error of a sum by the variation of the kernel |
| C125 | event metrics with any probability method | the method is an argument of the model; cell by cell on any number of workers, then as C85; failures propagate from the first failing cell |
| C96, C97 | bins of `_reliability_create_split` and `_func_brier_decomp` in binary64 | distance between different fractions against relative errors; a table for probabilities on an edge |

## 3. Trusted base

Coq 8.16.1 kernel; the axioms printed by `Print Assumptions` under each theorem
(see section 5); the reading of the Python sources; the NumPy/SciPy semantics stated
in `NdArr.v`/`Numpy.v` (numpy < 1.24, the last line in which `np.float`, used by the
code, exists; scipy < 1.10).  No axioms are added.

## 4. What is modelled

Every definition in the `M_*.v` files carries the lines of the source it stands for.

| source | modelled | in | not modelled |
|--------|----------|----|--------------|
| `__init__.py` | `Defaults`, import loop, `print_settings` | `M_io` | |
| `Verify.py` | all | `M_state` (objects, names, saving, workflows), `M_repr` (text), `M_boot` (`boot_or_avg`), `M_dm` (`reliability_index`), `M_determ` (`rmse`), `M_rel`/`M_ss` (values behind the post-processing) | |
| `VerifyDeterm.py` | all | `M_state`, `M_determ`, `M_iou`, `M_special` | |
| `VerifyEnsemble.py` | all | `M_state`, `M_ens`, `M_crpsens`, `M_ps`, `M_roc`, `M_rel`, `M_ss`, `M_iou`, `M_special`, `M_repr` | |
| `VerifyProb.py` and subclasses | all | `M_state`, `M_dist`, `M_crps`, `M_integ`, `M_truncgamma`, `M_roc`, `M_repr` | |
| `utils_verify.py` | all | `M_ens`, `M_kde`, `M_kern`, `M_roc`, `M_boot`, `M_rel`, `M_iou` | the kernel density is an arbitrary function of a column in C23 |
| `utils_special_boot.py` | all | `M_special` | |
| `utils_ss.py` | all | `M_ss` | |
| `utils_dist.py` | all | `M_dist` | |
| `dist_truncgamma.py` | all | `M_truncgamma` | |
| `utils_approximation.py` | all | `M_integ` (and its serial branch in `M_state`) | |
| `utils_crps.py` | all | `M_crps`, `M_crpstf` (TensorFlow branch) | element types (TensorFlow refuses to mix them) |
| `utils_significance.py` | all | `M_dm` | |
| `Grid.py` | all | `M_io`, `M_nc` | |
| `IO.py` | `_decode_name_matrix`, `__add_coords__`, `open_dataset` after reading, `open_mfdataset` | `M_io`, `M_float`, `M_nc`, `M_mfnc` | reading files (xarray, netCDF); other `preprocess` functions; files whose variables differ |

Progress bars, warnings, docstrings and type annotations are not modelled anywhere; the
settings that steer progress bars are read where reading them can raise.

## 5. Axioms

`AXIOMS.md` (written by `tools/axioms.py`) lists what `Print Assumptions` gives for every theorem.
Theorems about arrays, counting, names, files and histories are closed under the global
context or use functional extensionality; those that speak of square roots, exponentials
and integrals use the axioms of the standard library's real numbers
(`ClassicalDedekindReals.sig_forall_dec`, `sig_not_dec`, functional extensionality, and
`Classical_Prop.classic` where Coquelicot or Flocq need it).  All of these belong to Coq's standard library.

## 6. Assumptions of the model

*Arithmetic.*  Exact rationals or reals; no rounding (except C68 and C94 to C98, which use binary64), no signed zero, no overflow.

*Objects and files* (C01-C10, C24, C59, C60).  One process, `pyanen_tqdm_workers` = 1; no symbolic
links, permissions or full disks; save names without '/'; environment variables do not change during a history;
`expanduser`, `str` of values and pickle are oracles (pickle.load inverts dump and raises on a proper prefix of a dump).  The
numerical leaf functions are an arbitrary oracle, so that the results hold for whatever they compute;
witnesses of refutations use a library of free terms, which shows that the difference is visible.
Scratch files of memory-efficient integration are excluded by an explicit hypothesis (`mem_off`) where they matter, and
treated in C10 and C43.

*Bootstrap and shapes* (C11-C17).  Random indices are arbitrary; np.quantile interpolates linearly.

*Ensembles* (C18-C26).  process_map returns results in order; the random tie break is an arbitrary choice within
the tied ranks; NumPy older than 1.24.

*Reliability* (C29-C31).  NumPy object arrays for ragged slices; astype(int) of NaN is -2^63; nbins a natural number.

*Spread-skill* (C32-C34).  The caller's arrays are C-contiguous and do not share memory; reshape copies exactly when
NumPy's no-copy rule fails; argsort is any function that returns a sorting permutation.

*IOU* (C35, C36).  Axes are None or tuples; count_nonzero over all axes returns a Python integer.

*Distributions* (C37-C41, C62, C63, C71-C73).  All parameter arrays have one shape; scipy's distribution functions act
element by element and are otherwise arbitrary, except that C39, C71, C72 and C73 state the properties they use; worker
processes are forked and use NumPy's global generator; n_sample_members is a natural number.

*Integration* (C42-C47, C65, C66).  The CDF is a function of the threshold; nbins >= 1; workers >= 1; a Ray task is atomic and
runs when it is reported complete; an error in a task is raised as its cause; ragged or broadcast arrays raise ValueError;
float64 storage is exact; two concurrent runs have private environments and share the files; int(str(z)) = z.

*CRPS* (C52-C54, C69, C70).  `stats.norm` is the normal distribution (constructed in `R_gauss.v`); the gamma function and gamma CDF
are any functions with the properties of `gamma_lib` (`Spec_crps.v`); TensorFlow's functions agree with SciPy's where they are defined and `tf.math.igamma` is NaN for a
negative argument (`tf_lib` in `Props_crpstf.v`); properscoring scores a cell from its observation and members alone.

*Files and names* (C55-C58, C67, C68).  ASCII file names; the text of a number contains no comma, parenthesis or newline.

*Files of one run* (C86, C87).  `xr.open_mfdataset` orders the data sets by the first station coordinate, joins what has the station dimension, takes the rest from the first, and keeps one data set per first coordinate; it raises ValueError when the lengths differ elsewhere.
*Data sets* (C80-C82).  xarray 0.20-2022: assigning a variable, a coordinate, attributes and renaming act as in `M_nc`; files follow `anen_file`
(`Spec_nc.v`).

*Kernel density and ROC* (C74, C75, C124).  sklearn 1.0-1.2; empty input of roc_curve raises.

## 7. Mutation tests

`tools/mutate.py` applies one small edit to a model file in a scratch copy and rebuilds what depends on it; `seeded/LOG.jsonl` has one line per
attempt with the edit, the claim it breaks and the theorems that stopped proving.
A result "killed" means that some theorem failed; whether one of the property named in `properties` is among `failed` can be read off the same
line, and the exceptions carry a note.  The property ids of the attempts va01-va35 were wrong when the run was started and have been assigned
afterwards, from the edits and the statements of the properties and not from the theorems that failed; this showed that va28 survived and va12
was not noticed by the theorems of its own property.  Both had named a helper of the model in their statements and were restated without it.
Until attempt 691 the limit of the runner for one file was 60 seconds for most files, and a proof that ran out of time counted as failed.
`c86_same_rank_refuted` and `c78_missing_refuted` need longer without any edit; they are listed under `not_counted`, and the 13 attempts that
only they had noticed are survivors.  In run 4 (ids `a…`, `t…`), edits of `M_crpsens`, `M_ens`, `M_integ`, `M_io`, `M_special` and `M_ss` that change nothing but an exception
were noticed by no other theorem.  They serve as a comparison for that run only, and not a perfect one: for five of them examples failed too,
and for `a188` the lemma `e_object`, probably because of the limit; theorems that come after a failed proof are still checked.  For the other
runs and files no such comparison has been made: a theorem in a list of failures may be there because of the limit.
