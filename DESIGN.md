# Formal model of convst (Random Dilated Shapelet Transform)

Tool: Rocq/Coq 8.16.1. Sources: `rocq/theories/`, logical name `Verif`.
The properties (C01, C02, ...) are listed in `properties.jsonl`; `MANIFEST.json` says which theorem proves which.

## 1. How the code is modelled

* **Shape of the model.** Each Python function becomes one Gallina function with the same branches and loops. Loops
  are folds over index lists. Each definition carries a comment with the file and lines it models.
* **Exceptions are values.** `res A := Ok a | Err e`. `Err` covers Python exceptions (`ValueError`, ...) and
  `OutOfBounds`: an array access outside the array. numba does not check bounds, so an `OutOfBounds` result means
  "undefined behaviour in the compiled code"; a theorem whose conclusion is `Ok _` therefore also says that no access was
  out of range. Negative indices wrap as in Python/numba.
* **Arrays** are lists (2D: list of rows). Sizes are `Z`. int64 wrap-around is modelled for the transform (`Int64.v`, C92), not for fit.
* **Numbers.** The numeric code is parametric in a record `NumOps F` (zero, +, -, *, /, abs, sqrt, comparisons, floor, log2,
  2^x, ...). It is instantiated with
  - `R` (exact reals, `Coq.Reals`) for value-level laws;
  - binary64 `PrimFloat` for the IEEE statements (C58, C79, C80, C85) and for the counterexamples that are specific to rounding;
  - `Z` for computable examples.
  Theorems that only depend on structure (which cells are read, which columns are written, ...) are proved for *every*
  `NumOps`, so they also hold for binary64.
  Theorems that need an order (minimum, argmin) are proved for any `NumOps` satisfying a small set of order laws, and these
  laws are proved for `R` and for non-NaN binary64; C100 covers NaN.
* **libm.** `log2`, `log` and `2**x` are arguments of the binary64 instance. C79 assumes of them `libm_accurate` (`Libm.v`): on the
  arguments used they are within 2^-45 of the real functions, `log(1) = 0`, and `2**x >= 1` for `x >= 0`. The assumption is a hypothesis of
  the theorems; `rounded_accurate` shows that correctly rounded functions meet it.
* **fastmath.** Several kernels are compiled with fast-math. LLVM may then reassociate sums and assume no NaN and no
  infinity. Most theorems are about the order written in the code. C89 covers the un-normalised distances under every order of summation, and shows that no
  NaN or infinity appears; it assumes that the compiler computes each distance once and keeps the comparisons. The normalisation (mean, deviation, division)
  and the thresholds under fast-math are not modelled. C79, C85 and C100 are about strict arithmetic: under fast-math nothing is claimed about NaN. Over `R` the accumulation order is proved to be irrelevant (C07).
* **Random numbers.** The generator is an arbitrary state type with arbitrary transition functions:
  bounded integer draw and uniform draw in [0,1). Only range laws are assumed, as a record passed as an argument, and
  instantiated concretely for the examples. So theorems about fit hold for every sequence of draws. That numba's integers and
  uniform numbers are equally distributed is not modelled: C81-C83 say which draw decides what, and compute chances as averages over
  equally likely integers.
* **Parallelism.** `prange` bodies are modelled as tasks producing lists of memory writes. A parallel run is any
  interleaving of the tasks' write lists. numba keeps one generator per thread, so each task of shapelet generation gets its own
  arbitrary starting generator state: this covers every assignment of iterations to threads.
* **The estimator objects** are records. Methods return the new object even when they raise, so that
  the effect of a failed call can be stated.

## 2. Trusted base

* Coq's kernel (and `coqchk`, run by the gate).
* Axioms: only those of the standard library's classical reals (`ClassicalDedekindReals.sig_forall_dec`,
  `ClassicalDedekindReals.sig_not_dec`, `FunctionalExtensionality.functional_extensionality_dep`,
  and `Classical_Prop.classic` where Flocq/Coquelicot-style real analysis lemmas of the standard library use it), and for the binary64 theorems the
  primitive float/int operations and their specification axioms from `Coq.Floats`/`Coq.Numbers`. `Print Assumptions` is printed under each property
  theorem; section 5 lists the results.
* The faithfulness of the model: that the Gallina functions say what the Python says. This is by reading only: the sandbox cannot run
  the code.
* Flocq is used to relate `PrimFloat` to real numbers (C58, C79, C80, C85). It adds no axiom of its own.
* The modelled behaviour of the libraries (numpy slicing, `where`, `unique`, `cumsum`, numba's `percentile`, `choice`,
  sklearn's `check_random_state`, ...), each stated in the comment of the definition that stands for it.

## 3. What is modelled and what is not

| Source | Model | What is left out |
|---|---|---|
| `transformers/_commons.py` (all functions) | `Kernel.v`, `FastMath.v`, `Int64.v` | int64 overflow outside of the transform (C92); fast-math for anything but un-normalised distances; dtype promotion |
| `*_apply_all_shapelets` (4 variants) | `Apply.v`, `Parallel.v` | the parallel loop is a set of tasks emitting writes, interleaved arbitrarily |
| `*_init_random_shapelet_params`, `*_generate_shapelet` (4 variants) | `Gen.v` | see "Execution of fit" below |
| `utils/checks_utils.py` | `Checks.v` | Python values are a closed type `pyv` (None, bool, int, float, str, list, tuple, array with shape and dtype, frame, RandomState, other); subclasses and duck typing are not represented |
| `transformers/rdst.py` (`R_DST`) | `Estimator.v` | sklearn's `BaseEstimator` plumbing (`get_params`, `set_params`) |
| the constructors under `sklearn.base.clone` | `Clone.v` | identity of objects: numpy scalars are not told apart from Python numbers, subclasses of `str` are not represented; of several refused arguments the first in the signature raises |
| `utils/numba_utils.py` | `NumbaUtils.v` | 1D/3D `np_all` (only a 2D one is called); NaN |
| `utils/dataset_utils.py` (normalisation, loader) | `Preproc.v` | aeon's reader (its result is an argument), the constant lists of dataset names |
| `transformers/_input_transformers.py` | `Preproc.v`, `InputTrans.v` | Periodigram's periodogram and FastHankelTransform's transform are scipy functions (arguments); the random choices of `random_init` are arguments; numpy.diff of anything but an int64 or float64 3D array is not modelled |
| `utils/experiments_utils.py` | `Experiments.v`, `GridSearch.v` | timings; of sklearn's `GridSearchCV` the cells of `cv_results_` are modelled (clone, set_params, fit and score on the given positions, NaN on failure, refit of the best), not its statistics |
| `utils/plot_utils.py` (win/draw/loss counts, Holm, ranks, clique matrix) | `PlotUtils.v` | the scatter plots, scipy's tests (argument), pandas |
| `utils/plot_utils.py` (critical difference diagram) | `CdDiagram.v` | a drawing is the list of lines and texts with their coordinates; sizes, alignment and the title are left out; networkx's `find_cliques` is an argument, assumed to list exactly the maximal cliques |
| `classifiers/rdst_ridge.py`, `classifiers/rdst_ensemble.py` | `Classifiers.v` | sklearn's scaler and ridge classifier are arguments; joblib is an arbitrary order of complete fits; numba's thread mask |
| `PaperScripts/early_vs_material.py` (lines 13-75) | `EarlyAbandon.v` | the timings and plots; the script imports `generate_strides_1D` from a module that no longer exists, the model takes the one of `_commons.py`; fast-math |
| `PaperScripts/test_models.py` (lines 25-72) | `Scripts.v` | the outcome of an experiment (argument), the text of the CSV file (what a line becomes by writing and reading is an argument), an end of the process while the file is written, dtypes of the columns |
| `interpreters/rdst_interpreter.py` | `Interpreter.v` | a plot is the data given to matplotlib/seaborn; colours, legends and layout are left out |

**Execution of fit.** One iteration of the parallel loop over dilations processes the shapelets of this dilation one after the other.
A run of the model is any sequence of these per-shapelet steps that keeps their order inside each dilation. A step is atomic: this is justified by
C60, which shows that steps of different dilations touch disjoint cells. Each step starts from an arbitrary
generator state, because numba has one generator per thread and the model does not fix which thread runs which step.

**Exceptions.** Only the type of an exception is kept, not its message. Inside compiled code an error stops the call.

Not modelled: `Figures/`, the other `PaperScripts/` (they import functions that no longer exist, or measure times), `examples/`, drawing (matplotlib, seaborn), statistical tests,
downloads, pickling, numba compilation and caching, int64 overflow (except in the transform, C92), fast-math (except C89 and C97).

## 4. Plan per property

| Property | Model | Proof |
|---|---|---|
| C01, C02 | `Kernel.v` strides with bounds-checked reads | reads proved in range; result equal to the window table; exact error condition |
| C03 | `get_subsequence` walk | loop invariant on the running index |
| C04 | `is_prime`, `prime_up_to`, integer square root | trial division: smallest divisor <= sqrt, parity; compared with `Znumtheory.prime` |
| C05 | `choice_log` | cumulative sums increase to 1 |
| C06 | `_combinations_1d` with mask matrix | invariant: mask true iff pair not yet emitted |
| C07 | distances on `R` | induction on vectors; Minkowski for euclidean |
| C08, C20, C21 | running minimum fold | loop invariant over prefix, for ordered `NumOps` |
| C09, C10 | `Apply.v` grouping, flat writes | idx_shp is a permutation of shapelet ids; each column block written exactly once |
| C11, C13, C14 | same | rewriting with C09/C10 |
| C12, C60 | write traces, interleavings | disjoint writes commute |
| C15, C16, C17 | distance vectors | C03 + rotation of window list |
| C18, C19, C50 | z-normalisation on `R` | algebra; Cauchy-Schwarz for the 2l bound |
| C22 | init functions | log2/2^x monotone, floor arithmetic |
| C23-C30 | `Gen.v` four generators in a state+error monad | invariants over the fold over shapelets of a group, any draws; `PropsOverlap.v`: shared points with wrap-around and mixed lengths |
| C31 | flat packing | offset lemma for concatenated blocks |
| C32, C46 | seeds and schedules | functions of seed; witnesses for schedule dependence |
| C33, C34 | `_set_lengths`, `_check_params` | integer arithmetic |
| C35-C42 | `Estimator.v` record semantics | case analysis, witnesses for the refuted parts |
| C43, C44 | job arithmetic | `lia`/`nia` |
| C45 | argmax of summed scores | induction |
| C47 | column selection | filter lemmas |
| C48, C49 | `_resample`, `split` | permutation reasoning |
| C51 | iterated differences | binomial identity |
| C52 | LSD sort by stable passes | lexicographic order by induction on the key length |
| C53 | counts | partition by trichotomy on `R`; binary64 counterexample if one is found |
| C54 | Holm loop | invariant |
| C55, C56 | interpreter | index arithmetic; ranking loop invariant |
| C57 | loader min_len with fit and transform | composition of C22/C24 and C11 |
| C58 | binary64 | sign and NaN analysis of the accumulation through Flocq |
| C59 | transform | witness |
| C70 | `CdDiagram.v` list of drawing commands | greedy extension of an edge to a maximal clique; monotonicity of the abscissa |
| C71 | `Clone.v` objects with identities | each constructor rule accepts / keeps the copy of what it stored; induction on the parameters |
| C72 | `GridSearch.v` | composition of C49 and C63 |
| C73, C74 | `Classifiers.v`, `InputTrans.v`, default arguments | composition of C69, C47, C75, C45 |
| C75 | `InputTrans.v` | row by row, induction on the order |
| C76 | `transform`, `predict` | transform commutes with a selection of rows |
| C77 | renaming of labels through `fit` | labels are only compared for equality; same generator states |
| C78 | attributes of the fitted classifiers | frame lemmas of the constructor and of `fit` |
| C79 | `GenAny.v`, `FitAny.v`, `FitFloat.v`, `Libm.v` | the invariants of C22-C30 for any number type with a few comparison laws, proved for binary64 |
| C80 | `FloatReal.v`, `FloatError.v` | standard model of rounding, induction on the sums; exactness of small integer sums |
| C81 | `DrawLaws.v`, `DrawFit.v`, `PrimeLaw.v` | which random number decides which parameter; the interval of draws of each dilation |
| C82 | `WindowLaw.v`, `MWindowLaw.v`, `ChanceLaws.v` | the generation loop traced back to the integers it draws; averages over equally likely integers |
| C83 | `PermLaws.v`, `OrderLaws.v` | the shuffle as a bijection between sequences of integers and orderings |
| C84 | `Units.v`, `UnitsU.v`, `UnitsM.v`, `UnitsFit.v` | a relation between two runs of the same program on the data in both units, kept by every step of fit and transform |
| C85 | `FloatNorm.v`, `FloatError.v` | error of the mean, of the deviation (root mean square of rounded differences) and of the quotient; sums of errors over the points and channels |
| C86 | `Unfitted.v`, `EstimatorLaws.v` | a failed fit assigns nothing that transform reads (checked assignment by assignment); induction over the failed fits |
| C87 | `Noise.v` | a distance is 1-Lipschitz in each point; mean, deviation and z-score are Lipschitz away from deviation 0; minimum, count and position of lists that are pointwise close |
| C88 | `Longer.v` | the windows of a series are a contiguous part of those of a longer one; minimum, count and first position of a list and of a list that contains it |
| C89 | `FastMath.v` | a sum in any order of n non-negative terms is within n - 1 roundings; the sums of integers are exact; the feature loop on such distances as in C80 |
| C90 | `EarlyAbandon.v` | a sum of absolute values above the current minimum stays above it or becomes NaN, so that what is abandoned was not kept; keeping the smaller of two values commutes |
| C91 | `PropsChannels.v` | a multivariate distance is a sum over the (channel, values) pairs of the shapelet; sums over permuted and split lists of pairs |
| C92 | `Int64.v`, `Int64Proofs.v`, `PropsInt64.v` | the transform once more with every integer operation followed by `w64` (reduction modulo 2^64 to the signed range); equal to the model when no intermediate result leaves the range |
| C93 | `PropsDilation.v` | the distances of the subsampled series are the subsampled distances; features of a list and of its d subsamples |
| C94 | `PropsSimilar.v` | triangle inequality of the distance to a window, then as C87 |
| C95 | `PropsReverse.v` | the distances of the reversed series to the reversed shapelet are the distances at the mirrored positions |
| C96 | `Scripts.v`, `PropsScripts.v` | invariant relating the file to the experiments made so far, kept by every line of the loop and every restart |
| C97 | `PropsInteger.v` | C79 and C80 for the fitted values, sums of integers below 2^53 are exact in any order (C89) |
| C98 | `Levels.v` (two runs of each generator), `LevelsAny.v` (the same in any arithmetic, when both succeed; two transforms), `PropsLevels.v` | the percentiles are only read when a threshold is drawn, and the draw is monotone in them; a threshold only enters the counts |
| C99 | `Seeds.v`, `PropsSeeds.v` | every step of fit leaves the other generators alone (compositional); a fit sees its generator's state, not which object it is (`ClassifierProofs.v`) |
| C100 | `Missing.v`, `PropsMissing.v` | NaN goes through differences, sums and z-scores; the loop keeps a NaN minimum for ever and skips NaN distances otherwise |

Where the English property is false of the code, the statement in `properties.jsonl` says what is true instead, and a theorem
named `..._refuted` gives a concrete input for the false part.

## 5. Assumptions of the theorems

`Print Assumptions` is run under every property theorem. There are six classes. All axioms are from Coq's standard library.

1. **No axiom** ("Closed under the global context"): the theorems about any number type, and those about integers and control flow only.
2. **Classical reals**: the theorems about `R`. They list some or all of
   `ClassicalDedekindReals.sig_forall_dec`, `ClassicalDedekindReals.sig_not_dec`, `FunctionalExtensionality.functional_extensionality_dep`,
   `Classical_Prop.classic`.
3. **Evaluated binary64 witnesses** (`C100_first_refuted`, `C28_mixed_lengths_refuted`, `C28_phase_overlap_refuted`, `C32_reproducible_refuted`, `C47_constant_dropped_refuted`, `C50_constant_refuted`, `C53_binary64_refuted`, `C58_normalised_overflow`, `C79_percentile_refuted`, `C90_capped_refuted`, `C96_accuracies`, `C96_other_list_refuted`, `C96_restart`, `C96_start_over`, `C96_zero_refuted`):
   the primitive operations of `PrimFloat` and `PrimInt63`, evaluated by the kernel. No logical axiom.
4. **binary64 laws** (`C58_distances`, `C58_exact_match`, `C58_features`, `C58_multivariate_distances`, `C58_order`, `C89_sequential`): the primitive operations, and from `Coq.Floats.FloatAxioms` some of
   `add_spec`, `sub_spec`, `abs_spec`, `leb_spec`, `ltb_spec`, `eqb_spec`, `SF2Prim_Prim2SF`. They say that the primitives compute what the IEEE
   specification `SpecFloat` says.
5. **binary64 and real numbers** (`C100_features`, `C100_training`, `C100_transform`, `C79_fit`, `C79_fit_total`, `C79_transform`, `C80_distances`, `C80_features`, `C80_integers`, `C80_transform`, `C85_constant_refuted`, `C85_distances`, `C85_features`, `C85_fit`, `C85_transform`, `C85_zscore`, `C89_features`, `C89_finite`, `C89_integers`, `C89_order_refuted`, `C89_two_executions`, `C90_same`, `C90_transform`, `C92_fitted_multivariate`, `C92_fitted_univariate`, `C97_integers`): the axioms of classes 2 and 4, and also `Prim2SF_SF2Prim`,
   `Prim2SF_valid`, `mul_spec`, `div_spec`, `sqrt_spec` from `Coq.Floats.FloatAxioms`.
6. **Extensionality only** (`C77_fit`, `C77_ridge`): `FunctionalExtensionality.functional_extensionality_dep`.

Class 1:
C01_strides_1D, C01_strides_2D, C02_short_series_1D, C02_short_series_2D, C02_short_series_dist_vector,
C03_subsequence_is_stride_row, C04_is_prime_any_sqrt, C06_combinations, C07_manhattan_lengths,
C08_features_univariate_any, C09_univariate_transform_total, C10_multivariate_transform_total,
C11_multivariate_padding, C11_padding_irrelevant, C11_padding_irrelevant_multivariate, C11_univariate_padding,
C12_schedule_independence, C13_row_depends_on_its_sample, C13_selection_multivariate,
C13_selection_multivariate_variable, C13_selection_univariate, C13_selection_univariate_variable,
C17_distance_vector_rotates, C31_packing_round_trip, C34_effective_lengths, C34_lengths_in_range,
C34_three_points_refuted, C35_other_dtypes, C35_selected_pair, C35_univariate_variable_refuted, C36_padding,
C37_generator_advances, C37_history_independent, C37_max_channels_refuted, C37_min_len_refuted, C37_ridge_history,
C37_ridge_seeded, C37_type_refuted, C38_failed_fit_changes, C38_float32_refuted, C38_ridge_no_stale_model,
C38_transform_unaffected, C39_labels_aligned, C39_sample_count, C40_documented_refuted, C40_no_effect,
C41_constructor, C42_check_array_1D, C42_check_array_2D, C42_check_array_3D, C42_lists, C43_n_jobs, C44_budget,
C44_refit_single_thread, C44_zero_jobs, C46_order_refuted, C46_positions, C46_same_order, C46_seeded,
C47_kept_columns_any, C47_same_columns, C48_missing_class, C48_partition, C49_duplicates_refuted, C49_index,
C49_multivariate_refuted, C49_univariate, C50_normalised, C52_all, C52_all_single_refuted, C52_columns,
C52_empty_refuted, C52_rows, C53_negative_margin_refuted, C54_holm, C54_pairs, C54_prefix, C54_two_classifiers,
C55_multivariate, C55_plot, C56_attribution, C56_label_refuted, C56_panels, C56_selection, C57_arrays_refuted,
C59_checked_refuted, C59_missing_channel, C59_missing_channel_variable, C59_univariate_uses_channel_0, C62_loader,
C62_loader_errors, C63_fold_scores, C63_history_refuted, C64_duplicate_refuted, C65_pairs_aligned,
C65_pvalues_refuted, C65_ranks_order, C66_matrix, C67_weights, C68_accepted, C68_after_fit, C68_ensemble_refuted,
C70_path_refuted, C71_ensemble, C71_ensemble_lengths, C71_rdst_refuted, C71_ridge, C72_agrees, C72_cells,
C72_duplicates_refuted, C76_alone_refuted, C77_merged_refuted, C78_ensemble, C78_ridge, C83_orderings, C83_uniform,
C84_zero_shapelet_refuted, C86_ensemble_failed_refit, C86_ensemble_unfitted, C86_failed_refit, C86_ridge_unfitted,
C86_unfitted, C91_renamed, C92_no_overflow, C92_overflow_refuted, C96_compiled_refuted, C98_any_fit,
C98_any_transform, C99_n_samples_refuted, C99_order, C99_own, C99_refit_refuted, C99_ridge_refit_refuted,
C99_ridge_seed, C99_seed, C99_shared_refuted.

Class 2:
C04_is_prime, C04_one_is_not_prime_refuted, C04_prime_up_to, C05_choice_log_range, C05_choice_log_slot,
C07_euclidean_metric, C07_manhattan_metric, C07_manhattan_value, C07_squared_euclidean, C08_features_multivariate,
C08_features_unique, C08_features_univariate, C09_univariate_transform, C10_multivariate_transform, C14_one_channel,
C14_one_channel_variable, C15_dist_vector_agrees, C15_dist_vector_agrees_variable, C16_fit_then_transform,
C16_matches_its_source, C16_multivariate_fit_then_transform, C17_phase_invariance, C18_normalised_moments,
C18_offset_invariance, C18_scale_error, C18_scale_invariance_refuted, C19_normalised_distance_bound,
C19_normalised_minimum_range, C20_feature_ranges, C20_nonnegative_minimum_refuted, C20_sentinel,
C21_threshold_monotone, C22_multivariate_draws_fit, C22_univariate_draws_fit, C23_fitted_univariate_subsequences,
C24_fitted_variable_length_subsequences, C25_fitted_multivariate_subsequences,
C26_fitted_multivariate_variable_length, C27_multivariate_thresholds, C27_thresholds,
C28_multivariate_channels_kept_apart, C28_overlap_fraction, C28_phase_overlap, C28_starts_kept_apart,
C29_constant_series, C29_missing_shapelets, C29_multivariate_missing_shapelets, C30_multivariate_fit_then_transform,
C30_multivariate_fit_total, C30_univariate_fit_then_transform, C30_univariate_fit_total,
C32_multivariate_parameters_determined_by_seed, C32_parameters_determined_by_seed, C33_length_bounds,
C33_reduction_proportion_refuted, C37_relative_lengths_refuted, C39_lengths_refuted, C39_sample_size,
C45_labels_refuted, C45_unanimous, C45_vote, C45_zero_weights, C47_kept_columns, C50_moments, C51_differences,
C51_laws, C52_rows_real, C53_partition, C55_best_match, C55_distance_vector, C55_exact_match, C56_coefficients,
C57_arrays_overwritten, C57_loader, C57_min_len, C60_multivariate_schedule_independent,
C60_univariate_schedule_independent, C61_multivariate_normalisation_proportion_ends,
C61_normalisation_proportion_ends, C64_dominance, C64_ranks, C64_sum, C67_shifted_labels_refuted, C69_defaults,
C69_fit, C69_fit_total, C69_transform, C70_bar_refuted, C70_diagram, C70_figure, C70_figure_refuted, C73_ridge,
C74_fit, C74_lists_refuted, C74_predict, C75_derivate, C75_hankel_refuted, C75_lists_refuted, C75_periodigram,
C76_ensemble, C76_ridge, C76_selection, C76_short, C76_transform, C81_largest_dilation_never_drawn, C81_multivariate,
C81_primes_multivariate, C81_primes_univariate, C81_univariate, C82_multivariate, C82_same_length_uniform,
C82_test_uniform, C82_univariate, C82_variable_length_chance, C82_variable_length_uniform_refuted, C83_channels,
C84_fit, C84_offset, C84_ridge, C84_transform, C87_constant_windows, C87_noise, C87_normalised_noise, C88_joined,
C88_longer, C88_phase_refuted, C90_minimum, C91_fewer, C91_order, C91_parts, C93_dilation, C94_different, C94_similar,
C95_reversed, C98_fit, C98_transform.

## How to read seeded/LOG.jsonl

Each line is a wrong program tried on a scratch copy. A script applies the edit, recompiles what depends on it, replaces every proof
that no longer goes through by an admission, and lists under `theorems_failed` the theorems that depend on one. A failed proof is not by
itself a proof that the statement became false: a script can also break because the edit changes the shape of a term.
`theorems_not_checked` lists theorems of files that were not reached (see `not_checked_because`); they count neither way. `claim_settled: false`
marks the lines where the theorems of the claim itself are among those: these runs say nothing about that claim.
