{"id": "C01", "title": "Strides are exactly the dilated windows", "statement": "generate_strides_1D/2D(X, w, d, use_phase) returns, for every admissible w and d, the array whose entry (i,j) (per feature ft in 2D) is X[i+j*d], with len(X)-(w-1)*d rows and w columns; with use_phase it has len(X) rows and entry X[(i+j*d) mod len(X)]. No element outside X is ever read.", "quantifier": "every series, every window length w>=0 and dilation d>=0 (d any integer with use_phase), both phase modes, any number of features", "why_tests_cant": "the existing tests check the first row of three random arrays; reads are not bounds-checked under numba so an off-by-one is silent", "anchors": ["convst/transformers/_commons.py:generate_strides_1D", "convst/transformers/_commons.py:generate_strides_2D", "convst/transformers/_commons.py:_generate_strides_1D", "convst/transformers/_commons.py:_generate_strides_2D", "convst/transformers/_commons.py:_generate_strides_1D_phase", "convst/transformers/_commons.py:_generate_strides_2D_phase"]}
{"id": "C02", "title": "Too short series are rejected, not silently mis-read", "statement": "Without phase invariance, asking for windows on a series with len(X) < (w-1)*d raises ValueError; with len(X) = (w-1)*d it returns zero windows; with more it returns at least one.", "quantifier": "every series, w>=1, d>=1", "why_tests_cant": "the failure is at an exact boundary that depends on three integers", "anchors": ["convst/transformers/_commons.py:_generate_strides_1D"]}
{"id": "C03", "title": "Extracting a subsequence equals reading one stride row", "statement": "get_subsequence(X, i, l, d, normalize, use_phase) returns X[i], X[i+d], ..., (mod len(X) with use_phase), z-normalised when normalize is set, and is the i-th row of generate_strides_1D(X,l,d,use_phase), so the values stored in a shapelet are the same windows the transform later slides over.", "quantifier": "every series, start, length, dilation, both normalisation and phase flags", "why_tests_cant": "agreement of two independently written loops must hold at every start index", "anchors": ["convst/transformers/_commons.py:get_subsequence", "convst/transformers/_commons.py:_get_subsequence", "convst/transformers/_commons.py:_get_subsequence_phase"]}
{"id": "C04", "title": "The prime test accepts exactly 1 and the primes", "statement": "For n>=0, is_prime(n) is True iff n is 1 or a prime number, and prime_up_to(n) lists those numbers <= n in increasing order without repetition. (1 is not prime, but dilation 1 is admitted on purpose.)", "quantifier": "all n >= 0", "why_tests_cant": "an infinite domain; trial division bounds (sqrt, odd steps) fail only for specific n such as squares of primes", "anchors": ["convst/transformers/_commons.py:is_prime", "convst/transformers/_commons.py:prime_up_to"]}
{"id": "C05", "title": "Logarithmic choice always returns a valid index", "statement": "choice_log(n_choice, n_sample) returns n_sample indices, each in [0, n_choice) (0 when n_choice <= 1), whatever the uniform draws are; and index i is chosen exactly when the draw lies in the i-th cumulative slot of weights 1/2**log(i+1).", "quantifier": "every n_choice, n_sample and every sequence of draws in [0,1)", "why_tests_cant": "depends on the random draws, including draws arbitrarily close to 1", "anchors": ["convst/transformers/_commons.py:choice_log"]}
{"id": "C06", "title": "Distinct (length, dilation) pairs are enumerated exactly once", "statement": "_combinations_1d(x, y) returns each distinct pair (x[i], y[i]) exactly once, in order of first appearance, and nothing else (no padding rows).", "quantifier": "every pair of equally long integer arrays", "why_tests_cant": "correctness of the mask bookkeeping must hold for every pattern of repetitions", "anchors": ["convst/transformers/_commons.py:_combinations_1d"]}
{"id": "C07", "title": "The distance functions are metrics", "statement": "manhattan and euclidean are non-negative, zero exactly on equal vectors, symmetric and satisfy the triangle inequality; squared_euclidean is euclidean squared. In exact arithmetic the value does not depend on the order of accumulation.", "quantifier": "all vectors of equal length over the reals", "why_tests_cant": "universally quantified algebraic laws", "anchors": ["convst/transformers/_commons.py:manhattan", "convst/transformers/_commons.py:euclidean", "convst/transformers/_commons.py:squared_euclidean"]}
{"id": "C08", "title": "Features are minimum, first argmin and match count", "statement": "apply_one_shapelet_one_sample_univariate/multivariate return (m, a, c) where m is the smallest distance over all windows, a the first window attaining it and c the number of windows whose distance is <= threshold; with no window they return (-1, 0, 0).", "quantifier": "every list of windows, every shapelet, every threshold, any number of channels", "why_tests_cant": "the running minimum uses -1 as a sentinel, so correctness depends on no distance ever being equal to -1 and on tie-breaking at every position", "anchors": ["convst/transformers/_commons.py:apply_one_shapelet_one_sample_univariate", "convst/transformers/_commons.py:apply_one_shapelet_one_sample_multivariate"]}
{"id": "C09", "title": "Univariate transform computes every shapelet's own features in its own columns", "statement": "R_DST.transform on same-length univariate data returns an array of shape (n_samples, 3*n_shapelets) whose columns 3k, 3k+1, 3k+2 of row i are the minimum, first argmin and match count of shapelet k on series i, as if each pair had been computed separately: grouping shapelets by (length, dilation) and normalising the shared windows in place has no observable effect.", "quantifier": "every dataset, every set of fitted shapelets (any mix of lengths, dilations, normalisation flags), both phase modes", "why_tests_cant": "the number of mixes of lengths/dilations/flags is unbounded and any index slip only misplaces columns", "anchors": ["convst/transformers/_univariate_same_length.py:U_SL_apply_all_shapelets", "convst/transformers/rdst.py:R_DST.transform"]}
{"id": "C10", "title": "Multivariate transform uses exactly the fitted channels and values", "statement": "On multivariate data, columns 3k..3k+2 of row i are the minimum, first argmin and match count of the sum, over the channels selected for shapelet k, of the distances between that channel's windows and that channel's slice of the shapelet values, although values and channel ids of all shapelets are packed in flat arrays.", "quantifier": "every dataset, every set of fitted shapelets, any number of channels per shapelet, both phase modes", "why_tests_cant": "the offset arithmetic for ragged packing must be right for every combination of lengths and channel counts", "anchors": ["convst/transformers/_multivariate_same_length.py:M_SL_apply_all_shapelets"]}
{"id": "C11", "title": "Variable-length transform ignores padding", "statement": "For variable-length data the features of series i depend only on its own X_len[i] real points: they equal the same-length transform of the unpadded series, whatever the padding contains and however long the other series are.", "quantifier": "every collection of series of any lengths, any padding content, univariate and multivariate, both phase modes", "why_tests_cant": "depends on every possible length mix", "anchors": ["convst/transformers/_univariate_variable_length.py:U_VL_apply_all_shapelets", "convst/transformers/_multivariate_variable_length.py:M_VL_apply_all_shapelets", "convst/transformers/rdst.py:_format_uneven_timestamps"]}
{"id": "C12", "title": "Transform is independent of the parallel schedule", "statement": "The result of transform is the same for every interleaving of the parallel iterations over samples: no two parallel iterations write the same output cell and none reads what another writes.", "quantifier": "every interleaving of the memory writes of the per-sample parallel tasks, every input", "why_tests_cant": "schedules cannot be enumerated by tests", "anchors": ["convst/transformers/_univariate_same_length.py:U_SL_apply_all_shapelets", "convst/transformers/_univariate_variable_length.py:U_VL_apply_all_shapelets", "convst/transformers/_multivariate_same_length.py:M_SL_apply_all_shapelets", "convst/transformers/_multivariate_variable_length.py:M_VL_apply_all_shapelets"]}
{"id": "C13", "title": "Rows of the transform are independent of the batch", "statement": "Row i of transform(X) depends on X[i] only: transforming any selection, permutation or concatenation of samples gives the same selection, permutation or concatenation of rows (in variable-length mode too, where the padded width depends on the batch).", "quantifier": "every batch and every sub-batch", "why_tests_cant": "relation between arbitrarily many pairs of calls", "anchors": ["convst/transformers/rdst.py:R_DST.transform", "convst/transformers/_univariate_same_length.py:U_SL_apply_all_shapelets", "convst/transformers/_univariate_variable_length.py:U_VL_apply_all_shapelets"]}
{"id": "C14", "title": "Multivariate with one channel agrees with univariate", "statement": "For data with one feature, the multivariate transform with single-channel shapelets returns exactly what the univariate transform returns for the same shapelets.", "quantifier": "every single-channel dataset and shapelet set", "why_tests_cant": "two separately written code paths must agree everywhere", "anchors": ["convst/transformers/_multivariate_same_length.py:M_SL_apply_all_shapelets", "convst/transformers/_univariate_same_length.py:U_SL_apply_all_shapelets"]}
{"id": "C15", "title": "Distance vectors shown or used at fit time agree with the transform", "statement": "The features of a shapelet on a series are the minimum, first argmin and number of entries <= threshold of compute_shapelet_dist_vector for that shapelet and series: fit-time thresholds, interpreter plots and the transform use the same distances.", "quantifier": "every series, shapelet, normalisation and phase flag", "why_tests_cant": "five separately written loops must agree everywhere", "anchors": ["convst/transformers/_commons.py:compute_shapelet_dist_vector", "convst/interpreters/rdst_interpreter.py:Shapelet.plot_on_X", "convst/interpreters/rdst_interpreter.py:Shapelet.plot_distance_vector"]}
{"id": "C16", "title": "A shapelet matches the series it was taken from", "statement": "For a shapelet extracted by fit from a training series, transforming that series gives a minimum of exactly 0, and an argmin no later than the extraction index.", "quantifier": "every series, start index, length, dilation, flags", "why_tests_cant": "exact zero must hold for every numeric content, with and without normalisation", "anchors": ["convst/transformers/_commons.py:get_subsequence", "convst/transformers/_univariate_same_length.py:U_SL_generate_shapelet", "convst/transformers/_univariate_same_length.py:U_SL_apply_all_shapelets"]}
{"id": "C17", "title": "Phase invariance", "statement": "With phase_invariance, cyclically rotating a series leaves the minimum and the match count of every shapelet unchanged and rotates the distance vector by the same amount.", "quantifier": "every series, every rotation, every shapelet", "why_tests_cant": "all rotations of all series", "anchors": ["convst/transformers/_commons.py:_generate_strides_1D_phase", "convst/transformers/_commons.py:_compute_shapelet_dist_vector_phase"]}
{"id": "C18", "title": "Z-normalised shapelets ignore offset and (up to the 1e-8 regulariser) scale", "statement": "With normalisation, adding a constant to a series changes nothing; multiplying by a>0 changes each normalised point x by exactly (x-m)*eps*(a-1)/((a*s+eps)*(s+eps)) with eps=1e-8, so exact scale invariance fails only through the regulariser; normalised windows have mean 0 and standard deviation s/(s+eps).", "quantifier": "all real windows, offsets and positive scales", "why_tests_cant": "algebraic law over the reals; exact scale invariance is false for the code and the size of the violation has to be bounded for all inputs", "anchors": ["convst/transformers/_commons.py:_get_subsequence", "convst/transformers/_commons.py:_compute_shapelet_dist_vector_norm", "convst/transformers/_univariate_same_length.py:U_SL_apply_all_shapelets"]}
{"id": "C19", "title": "Normalised distances are bounded by twice the length", "statement": "The distance between two z-normalised vectors of length l is at most 2*l, so the minimum feature of a normalised shapelet always lies in [0, 2*l] whatever the scale of the data.", "quantifier": "all real series and shapelets taken from real series", "why_tests_cant": "a bound over an infinite domain", "anchors": ["convst/transformers/_commons.py:_compute_shapelet_dist_vector_norm", "convst/transformers/_commons.py:manhattan"]}
{"id": "C20", "title": "Feature ranges", "statement": "For a series with w>=1 windows, minimum >= 0, argmin is an integer in [0,w-1], match count is an integer in [0,w], and match count >= 1 iff minimum <= threshold.", "quantifier": "every series and shapelet", "why_tests_cant": "universally quantified", "anchors": ["convst/transformers/_commons.py:apply_one_shapelet_one_sample_univariate"]}
{"id": "C21", "title": "The threshold influences the match count only, monotonically", "statement": "Changing a shapelet's threshold never changes minimum and argmin; raising it never lowers the match count.", "quantifier": "every series, shapelet and pair of thresholds", "why_tests_cant": "relation between pairs of runs", "anchors": ["convst/transformers/_commons.py:apply_one_shapelet_one_sample_univariate", "convst/transformers/_commons.py:apply_one_shapelet_one_sample_multivariate"]}
{"id": "C22", "title": "Drawn parameters always fit the series", "statement": "For 2 <= length <= n_timestamps, every drawn dilation d satisfies 1 <= d and (length-1)*d <= n_timestamps-1, in both dilation schemes and for every random draw; in the prime scheme d is 1 or prime; every length belongs to the requested set; so each shapelet has at least one window on every series of at least n_timestamps points.", "quantifier": "every random draw, every set of lengths, every n_timestamps", "why_tests_cant": "a violating draw leads to an unchecked out-of-bounds read", "anchors": ["convst/transformers/_univariate_same_length.py:U_SL_init_random_shapelet_params", "convst/transformers/_univariate_variable_length.py:U_VL_init_random_shapelet_params", "convst/transformers/_multivariate_same_length.py:M_SL_init_random_shapelet_params", "convst/transformers/_multivariate_variable_length.py:M_VL_init_random_shapelet_params"]}
{"id": "C23", "title": "Fitted univariate shapelets are genuine subsequences of training series", "statement": "Every shapelet returned by fit on same-length univariate data is, in its first `length` values, the (normalised) dilated subsequence of one training series at one admissible start, followed by zeros; its parameters are those drawn for it; at most n_shapelets are returned.", "quantifier": "every dataset, labels, parameters, random generator and parallel schedule", "why_tests_cant": "randomised search over an unbounded space", "anchors": ["convst/transformers/_univariate_same_length.py:U_SL_generate_shapelet"]}
{"id": "C24", "title": "Variable-length fit never samples padding", "statement": "On variable-length univariate data with min_len <= every series length, every fitted shapelet is a subsequence of the real points of one training series (never of its padding).", "quantifier": "every collection of series, random generator and schedule", "why_tests_cant": "randomised; depends on length mixes", "anchors": ["convst/transformers/_univariate_variable_length.py:U_VL_generate_shapelet"]}
{"id": "C25", "title": "Fitted multivariate shapelets are genuine multichannel subsequences", "statement": "On multivariate same-length data each fitted shapelet has between 1 and max_channels distinct channels and, for each of them, the (normalised) subsequence of the same training series at the same start.", "quantifier": "every dataset, labels, parameters, generator, schedule", "why_tests_cant": "randomised; packing arithmetic", "anchors": ["convst/transformers/_multivariate_same_length.py:M_SL_generate_shapelet"]}
{"id": "C26", "title": "Fitted multivariate variable-length shapelets are genuine and avoid padding", "statement": "As the previous property on variable-length multivariate data: 1..max_channels distinct channels, subsequences of real points of one series.", "quantifier": "every collection, generator, schedule", "why_tests_cant": "randomised; packing arithmetic and lengths", "anchors": ["convst/transformers/_multivariate_variable_length.py:M_VL_generate_shapelet"]}
{"id": "C27", "title": "Thresholds come from the requested percentile range of a same-class series", "statement": "The threshold of a fitted shapelet lies between the p_min-th and p_max-th percentiles (linear interpolation) of its distance vector on a training series of the same class, another one than the source whenever the class has another; hence it is >= the minimum of that vector and that series has at least one match.", "quantifier": "every dataset, generator, percentiles 0<=p_min<=p_max<=100", "why_tests_cant": "randomised", "anchors": ["convst/transformers/_univariate_same_length.py:U_SL_generate_shapelet", "convst/transformers/rdst.py:_validate_percentiles"]}
{"id": "C28", "title": "Self-similarity pruning", "statement": "With alpha, two univariate shapelets drawn from the same series with the same dilation and normalisation never start at positions whose distance is j*dilation (mod n) with j < length - max(1, floor((1-alpha)*min_length)); so equal-length shapelets share at most max(1, floor((1-alpha)*min_length)) time points (without phase invariance), and at most twice that with phase invariance, where two windows can meet on both sides. Between shapelets of different lengths alpha gives no such bound: a short one can lie inside a longer one.", "quantifier": "every sampling history", "why_tests_cant": "history-dependent: the mask accumulates over thousands of draws", "anchors": ["convst/transformers/_univariate_same_length.py:U_SL_generate_shapelet", "convst/transformers/_univariate_variable_length.py:U_VL_generate_shapelet"]}
{"id": "C29", "title": "Fewer shapelets are returned only for the documented reason", "statement": "A requested univariate shapelet is missing from the result exactly when no unmasked admissible start was left for it or when its stored values are all zero. (The second case is undocumented: on constant data fit returns no normalised shapelet at all.)", "quantifier": "every dataset and sampling history", "why_tests_cant": "history-dependent", "anchors": ["convst/transformers/_univariate_same_length.py:U_SL_generate_shapelet", "convst/transformers/_univariate_variable_length.py:U_VL_generate_shapelet"]}
{"id": "C30", "title": "Fit never fails or reads out of bounds on valid input", "statement": "For a non-empty well-shaped dataset, lengths in [2, n_timestamps], percentiles in [0,100], shapelet generation terminates without exception and without any out-of-range array access, for every random draw and schedule, in all four variants.", "quantifier": "every valid input, random generator, schedule", "why_tests_cant": "numba compiles without bounds checks: an out-of-range access would silently corrupt results", "anchors": ["convst/transformers/_univariate_same_length.py:U_SL_generate_shapelet", "convst/transformers/_univariate_variable_length.py:U_VL_generate_shapelet", "convst/transformers/_multivariate_same_length.py:M_SL_generate_shapelet", "convst/transformers/_multivariate_variable_length.py:M_VL_generate_shapelet"]}
{"id": "C31", "title": "Ragged packing round-trips", "statement": "The flat values/channel arrays produced by multivariate fit, after removing shapelets that could not be sampled, give back through the offsets computed at transform time exactly the values and channels sampled for each remaining shapelet.", "quantifier": "every list of (length, channels, values) and every subset removed", "why_tests_cant": "offset arithmetic over unbounded ragged lists", "anchors": ["convst/transformers/_multivariate_same_length.py:M_SL_generate_shapelet", "convst/transformers/_multivariate_same_length.py:M_SL_apply_all_shapelets", "convst/transformers/_multivariate_variable_length.py:M_VL_generate_shapelet"]}
{"id": "C32", "title": "Reproducibility for a fixed random_state", "statement": "With a fixed seed and all iterations executed on the thread that was seeded, fit is a function of its inputs; lengths, dilations and normalisation flags drawn are functions of the seed under every schedule. But iterations executed on other threads use their own unseeded generators, so with n_jobs>1 two fits with the same random_state can return different shapelets.", "quantifier": "every seed, every assignment of iterations to threads, every initial state of the other threads' generators", "why_tests_cant": "schedule- and machine-dependent", "anchors": ["convst/transformers/_univariate_same_length.py:U_SL_generate_shapelet", "convst/transformers/rdst.py:R_DST.fit"]}
{"id": "C33", "title": "Length bounds produce the documented set of lengths", "statement": "With shapelet_lengths_bounds=[b0,b1] the lengths used form a non-empty increasing arithmetic progression starting at max(3,b0), never exceeding max(3,b0,b1); with more than 3 possible lengths at least floor(n*reduction) of them are kept; with reduction 0 all are kept.", "quantifier": "all bounds (integer or relative), all reductions in [0,1)", "why_tests_cant": "integer/float rounding boundaries", "anchors": ["convst/transformers/rdst.py:_set_lengths"]}
{"id": "C34", "title": "Effective lengths are between 2 and the series length", "statement": "After validation every shapelet length lies in [2, n_timestamps] for n_timestamps >= 4, lengths <= n_timestamps are unchanged and larger ones become n_timestamps//2; any length <= 1 raises ValueError. For n_timestamps = 3 with a length > 3 the code produces length 1, violating this.", "quantifier": "all lists of lengths, all n_timestamps", "why_tests_cant": "boundary case reachable only with 3-point series", "anchors": ["convst/transformers/rdst.py:_check_params"]}
{"id": "C35", "title": "Automatic selection of the transformer", "statement": "With transform_type='auto', a list or object array selects the variable-length transformer, a default-int/float 3D array the same-length one, multivariate iff the first sample has more than one feature; other dtypes (e.g. float32) are rejected. Every value accepted by the constructor except none is mapped to its own fitter/transformer pair; 'univariate_variable', although supported, is rejected by the constructor.", "quantifier": "every input container, dtype and shape", "why_tests_cant": "decision table over all inputs", "anchors": ["convst/transformers/rdst.py:_auto_class", "convst/transformers/rdst.py:_set_fit_transform", "convst/transformers/rdst.py:_validate_transform_type"]}
{"id": "C36", "title": "Padding of uneven series is lossless", "statement": "_format_uneven_timestamps returns lengths equal to the series lengths and an array whose i-th slice starts with series i followed by zeros; it raises ValueError exactly when the number of features differs between samples.", "quantifier": "every non-empty collection of 2D series", "why_tests_cant": "unbounded shapes", "anchors": ["convst/transformers/rdst.py:_format_uneven_timestamps"]}
{"id": "C37", "title": "Refitting an estimator does not depend on its history", "statement": "R_DST_Ridge.fit gives the same result on a fresh object and on an object fitted before on anything else. R_DST.fit does not: relative shapelet lengths, transform_type, max_channels and (variable-length) min_len chosen by an earlier fit leak into a later one.", "quantifier": "every sequence of fit calls", "why_tests_cant": "history-dependent", "anchors": ["convst/transformers/rdst.py:R_DST.fit", "convst/classifiers/rdst_ridge.py:R_DST_Ridge.fit"]}
{"id": "C38", "title": "A failed fit leaves the estimator usable", "statement": "If R_DST.fit raises, is a later fit on good data unaffected? After a failed R_DST_Ridge.fit predict raises, it never answers from a stale model. The exact attributes already overwritten at each failure point are determined; a failed 'auto' fit on a float32 array makes every later fit fail.", "quantifier": "every failure point and every later call", "why_tests_cant": "crash-point property", "anchors": ["convst/transformers/rdst.py:R_DST.fit", "convst/transformers/rdst.py:_set_fit_transform"]}
{"id": "C39", "title": "Subsampling keeps series and lengths aligned", "statement": "With n_samples set, the fitter sees selected series with their own labels; in variable-length mode it should also see their own lengths. Labels are aligned for every selection; lengths are not (the length array is not subsampled), so padding can be sampled. A proportion p < 1 passes the integer part of n p of the n series, none twice; p > 1 passes the integer part of n p with repetitions, 1 passes all, an integer z > 1 passes n z.", "quantifier": "every selection of samples", "why_tests_cant": "depends on the random selection", "anchors": ["convst/transformers/rdst.py:R_DST.fit"]}
{"id": "C40", "title": "normalize_output is honoured", "statement": "The documented effect of normalize_output (dividing argmin and match count by the number of windows) is absent: transform returns the same array for both values of the flag.", "quantifier": "every dataset, both flag values", "why_tests_cant": "an absence over all inputs", "anchors": ["convst/transformers/rdst.py:R_DST.transform", "convst/transformers/rdst.py:R_DST.__init__"]}
{"id": "C41", "title": "Constructor validation", "statement": "R_DST(...) raises for every parameter value outside the accepted kinds (non-boolean flags, non-numeric numbers, booleans given as numbers, bounds of a size other than 2, reduction >= 1, decreasing percentiles, unknown transform types) and otherwise stores each value unchanged in the attribute of the same name.", "quantifier": "all Python values in the modelled universe", "why_tests_cant": "unbounded argument space", "anchors": ["convst/transformers/rdst.py:R_DST.__init__", "convst/utils/checks_utils.py:check_is_numeric", "convst/utils/checks_utils.py:check_is_boolean"]}
{"id": "C42", "title": "Shape checks accept exactly the documented shapes", "statement": "check_array_3D accepts exactly non-empty 3-dimensional arrays with more than min_timestamps timestamps (and one feature if is_univariate) and returns them unchanged; check_array_2D, check_array_1D accept exactly the non-empty arrays of their dimension; everything else raises ValueError.", "quantifier": "every container and shape", "why_tests_cant": "all shapes", "anchors": ["convst/utils/checks_utils.py:check_array_3D", "convst/utils/checks_utils.py:check_array_2D", "convst/utils/checks_utils.py:check_array_1D"]}
{"id": "C43", "title": "n_jobs resolution", "statement": "check_n_jobs maps None to 1, 0<=k to min(k, cpus), -1 to cpus, -k to cpus+1-k; the result lies in [1,cpus] iff n_jobs is None, positive, or negative with -cpus <= n_jobs; booleans and non-integers are rejected.", "quantifier": "every value and every number of cpus", "why_tests_cant": "machine-dependent", "anchors": ["convst/utils/checks_utils.py:check_n_jobs"]}
{"id": "C44", "title": "Ensemble thread budget", "statement": "R_DST_Ensemble splits the resolved number of jobs into outer and inner jobs whose product never exceeds it, both at least 1, whenever it is at least 1; n_jobs=0 fails. Fitting again uses the already reduced number, so the second fit may use fewer threads.", "quantifier": "every n_jobs, number of cpus and of transformers", "why_tests_cant": "machine- and history-dependent", "anchors": ["convst/classifiers/rdst_ensemble.py:_manage_n_jobs"]}
{"id": "C45", "title": "Ensemble vote", "statement": "R_DST_Ensemble.predict returns, per sample, the first index maximising the weighted sum of the members' softmax outputs; if all members with positive weight rank the same class strictly first, that class wins. It returns the class index, not the class label: they agree only when labels are 0..k-1.", "quantifier": "every set of member decisions and weights", "why_tests_cant": "unbounded score space, ties", "anchors": ["convst/classifiers/rdst_ensemble.py:R_DST_Ensemble.predict", "convst/classifiers/rdst_ensemble.py:_internalRidgeCV.predict_proba"]}
{"id": "C46", "title": "Ensemble reproducibility across thread schedules", "statement": "The members of an ensemble share one random state, so the seed a member gets depends on the order in which members are fitted: executed in order, the result is a function of random_state; under another order the seeds are permuted.", "quantifier": "every order of the members' fits", "why_tests_cant": "schedule-dependent", "anchors": ["convst/classifiers/rdst_ensemble.py:R_DST_Ensemble.fit", "convst/transformers/rdst.py:_check_params"]}
{"id": "C47", "title": "Constant features are dropped consistently", "statement": "c_StandardScaler/c_MinMaxScaler keep exactly the columns with non-zero standard deviation on the training data, in order, and select the same columns for every later input; coefficient i of the classifier therefore belongs to feature usefull_atts[i]. In exact arithmetic these are exactly the non-constant columns; in binary64 a constant column can be kept.", "quantifier": "every training matrix and every later matrix", "why_tests_cant": "all matrices", "anchors": ["convst/transformers/_input_transformers.py:c_StandardScaler", "convst/transformers/_input_transformers.py:c_MinMaxScaler", "convst/interpreters/rdst_interpreter.py:_get_shp_importance"]}
{"id": "C48", "title": "Stratified resampling is a partition with the original class counts", "statement": "_resample returns a new train/test split in which every original (series, label) pair occurs exactly once, with the same number of samples of each class in train and test as originally; it fails with AssertionError exactly when train and test do not contain the same classes. True for every shuffle.", "quantifier": "every dataset and every shuffle", "why_tests_cant": "random permutations", "anchors": ["convst/utils/experiments_utils.py:_resample"]}
{"id": "C49", "title": "Cross-validation indices point to the right samples", "statement": "_sklearn_cv.split yields, for each resampled series, an index at which X contains a series sharing at least one whole channel with it. For univariate data without duplicates the indices are exactly the resampled ones and train and test are disjoint; with duplicates, or multivariate data sharing a channel, train and test indices can collide.", "quantifier": "every dataset", "why_tests_cant": "depends on coincidences in data", "anchors": ["convst/utils/experiments_utils.py:_sklearn_cv.split"]}
{"id": "C50", "title": "Dataset z-normalisation", "statement": "z_norm_3D, z_norm_3D_list and Z_normalizer normalise each feature of each sample independently, agree with each other, keep shapes; in exact arithmetic constant series become zeros and others get mean 0. In binary64 a constant series need not become zeros.", "quantifier": "every dataset", "why_tests_cant": "all numeric contents", "anchors": ["convst/utils/dataset_utils.py:z_norm_3D", "convst/utils/dataset_utils.py:z_norm_3D_list", "convst/transformers/_input_transformers.py:z_norm_all_samples"]}
{"id": "C51", "title": "Derivate computes finite differences", "statement": "Derivate(order=k) shortens each series by k (not below 0) and returns the k-th finite difference sum_j (-1)^(k-j) C(k,j) x[i+j]; it is linear, ignores offsets and annihilates polynomials of degree < k.", "quantifier": "every order, every series", "why_tests_cant": "all orders", "anchors": ["convst/transformers/_input_transformers.py:Derivate.transform"]}
{"id": "C52", "title": "Row-wise unique", "statement": "nb_unique returns the distinct rows (or columns) in lexicographic order, each with the index of its first occurrence in the input and its number of occurrences.", "quantifier": "every non-empty 2D array", "why_tests_cant": "LSD sort correctness depends on stability for all inputs", "anchors": ["convst/utils/numba_utils.py:nb_unique", "convst/utils/numba_utils.py:np_all"]}
{"id": "C53", "title": "Win/draw/loss counts partition the datasets", "statement": "In pairwise_plot, wins + draws + losses equals the number of datasets for every margin >= 0 in exact arithmetic; each dataset is counted in exactly one class. In binary64 the equality can fail.", "quantifier": "every pair of score vectors, every margin", "why_tests_cant": "rounding at the class boundaries", "anchors": ["convst/utils/plot_utils.py:pairwise_plot"]}
{"id": "C54", "title": "Holm correction", "statement": "_wilcoxon_holm tests each unordered pair of classifiers exactly once and marks the i-th smallest p-value significant iff all p_j <= alpha/(k-j) for j<=i: significant pairs form a prefix of the sorted list, all pairs are kept.", "quantifier": "every number of classifiers and every list of p-values", "why_tests_cant": "unbounded lists", "anchors": ["convst/utils/plot_utils.py:_wilcoxon_holm"]}
{"id": "C55", "title": "Interpreter shows the transform's best match", "statement": "Shapelet.plot_on_X marks exactly the points of the window whose distance is the transform's minimum (index argmin + i*dilation, wrapping only with phase invariance), and for a normalised shapelet rescales values with that window's mean and deviation. Shapelet.plot shows the shapelet's values, dilation, normalisation and threshold. Negative shapelet numbers count from the last one, other numbers outside the set raise IndexError. For multivariate models every plotting call fails.", "quantifier": "every series and shapelet", "why_tests_cant": "all indices", "anchors": ["convst/interpreters/rdst_interpreter.py:Shapelet.plot_on_X", "convst/interpreters/rdst_interpreter.py:RDST_interpreter._get_params"]}
{"id": "C56", "title": "Best shapelets per class", "statement": "visualize_best_shapelets_one_class selects min(n_shp, n_shapelets) distinct shapelets; a selected shapelet's best feature coefficient is at least that of any shapelet not selected; coefficients are attributed to the right shapelet after constant features were dropped (a dropped feature counts as 0). class_id is used both as the number of a class of the model and as a label, which agree only for labels 0..k-1: with labels {1,2}, class_id=1 shows the best shapelets of label 2.", "quantifier": "every coefficient matrix, class and n_shp", "why_tests_cant": "unbounded", "anchors": ["convst/interpreters/rdst_interpreter.py:visualize_best_shapelets_one_class", "convst/interpreters/rdst_interpreter.py:_get_shp_importance"]}
{"id": "C57", "title": "min_len of the loader protects train and test", "statement": "With min_len as returned by load_UCR_UEA_dataset_split, every shapelet fitted on the training series has at least one window on every train and test series, so transform never raises nor returns the -1 sentinel.", "quantifier": "every pair of train/test collections and every fit", "why_tests_cant": "depends on the shortest test series", "anchors": ["convst/utils/dataset_utils.py:load_UCR_UEA_dataset_split", "convst/transformers/_univariate_variable_length.py:U_VL_generate_shapelet", "convst/transformers/_univariate_variable_length.py:U_VL_apply_all_shapelets"]}
{"id": "C58", "title": "Raw features are well defined in binary64", "statement": "In IEEE binary64 arithmetic (without fast-math reordering), for finite inputs every un-normalised distance is a non-NaN non-negative number, so minimum/argmin/count have their mathematical meaning for the computed distances even if overflow gives infinities.", "quantifier": "every finite binary64 input", "why_tests_cant": "2^64 values per entry", "anchors": ["convst/transformers/_commons.py:manhattan", "convst/transformers/_commons.py:apply_one_shapelet_one_sample_univariate"]}
{"id": "C59", "title": "Feature-count mismatch at transform", "statement": "A fitted univariate model applied to multivariate data silently uses channel 0 only; a fitted multivariate model applied to data with too few channels reads out of range: transform does not check the number of features.", "quantifier": "every dataset", "why_tests_cant": "an absence of validation over all inputs", "anchors": ["convst/transformers/rdst.py:R_DST.transform", "convst/transformers/_multivariate_same_length.py:M_SL_apply_all_shapelets"]}
{"id": "C60", "title": "Parallel generation has no data race", "statement": "During fit, parallel iterations (one per distinct dilation) write disjoint cells of the output arrays and disjoint parts of the sampling mask; given the draws, the result is independent of their interleaving.", "quantifier": "every interleaving", "why_tests_cant": "schedules", "anchors": ["convst/transformers/_univariate_same_length.py:U_SL_generate_shapelet", "convst/transformers/_univariate_variable_length.py:U_VL_generate_shapelet", "convst/transformers/_multivariate_same_length.py:M_SL_generate_shapelet", "convst/transformers/_multivariate_variable_length.py:M_VL_generate_shapelet"]}
{"id": "C61", "title": "Ends of the proportion of normalised shapelets", "statement": "With p_norm <= 0 no fitted shapelet is normalised; with p_norm >= 1 every one is (the uniform draw is in [0,1) and compared with <).", "quantifier": "every dataset, generator and schedule", "why_tests_cant": "a draw equal to the bound has measure zero in a test", "anchors": ["convst/transformers/_univariate_same_length.py:U_SL_init_random_shapelet_params"]}
{"id": "C62", "title": "What the dataset loader returns", "statement": "load_UCR_UEA_dataset_split numbers the labels 0..k-1 in increasing order of the training labels and uses the same numbering for the test labels; a test label absent from training raises ValueError; min_len is the length of the shortest first channel over train and test; the series are unchanged without normalize and all z-normalised with it (an equal-length train part with an unequal-length test part raises TypeError).", "quantifier": "every pair of train/test collections and labels", "why_tests_cant": "all label sets and lengths", "anchors": ["convst/utils/dataset_utils.py:load_UCR_UEA_dataset_split"]}
{"id": "C63", "title": "What a cross-validation score measures", "statement": "cross_validate_UCR_UEA.score returns one row per fold, and row i holds the value of every scorer for the pipeline fitted on the training part of fold i alone, provided the pipeline's fit forgets earlier fits; the same pipeline object is reused for all folds, so for a pipeline whose fit depends on its history (R_DST itself) the rows depend on the fold order.", "quantifier": "every pipeline, dataset and number of folds", "why_tests_cant": "depends on the history of a mutable object", "anchors": ["convst/utils/experiments_utils.py:cross_validate_UCR_UEA.score"]}
{"id": "C64", "title": "Average ranks of the critical difference diagram", "statement": "On a complete comparison (one row per classifier and dataset) _wilcoxon_holm returns every classifier once with the mean over datasets of its place (one plus the number of better classifiers plus half the ties), worst first; the mean places lie in [1,m] and sum to m(m+1)/2; a classifier better on every dataset has a strictly smaller mean place. A duplicated row that hides a missing one is not detected.", "quantifier": "every complete table of accuracies over the reals", "why_tests_cant": "unbounded tables, all tie patterns", "anchors": ["convst/utils/plot_utils.py:_wilcoxon_holm"]}
{"id": "C65", "title": "Row order of the performance table", "statement": "The average ranks do not depend on the order of the rows of df_perf. The p-values pair accuracies by position: they compare dataset by dataset only if all classifiers' rows come in the same dataset order; otherwise p-values and significance depend on the row order.", "quantifier": "every complete table and every permutation of its rows", "why_tests_cant": "all permutations", "anchors": ["convst/utils/plot_utils.py:_wilcoxon_holm"]}
{"id": "C66", "title": "The graph of indistinguishable classifiers", "statement": "_form_cliques gives networkx a square 0/1 matrix with a 1 exactly at the cells (a,b), a<b, whose two classifiers form a pair that was not significant.", "quantifier": "every list of tested pairs and every order of the names", "why_tests_cant": "unbounded", "anchors": ["convst/utils/plot_utils.py:_form_cliques"]}
{"id": "C67", "title": "Weights of the ensemble members", "statement": "After R_DST_Ensemble.fit the weight of each member is its leave-one-out accuracy on the training data to the power a_w - when the labels are 0..k-1. The class numbers are compared with the raw labels: with labels {1,2} an ensemble whose members are all perfect gets only zero weights and then predicts 0 for every sample.", "quantifier": "every training set, member decisions and a_w", "why_tests_cant": "all label sets", "anchors": ["convst/classifiers/rdst_ensemble.py:get_loocv_train_acc", "convst/classifiers/rdst_ensemble.py:R_DST_Ensemble.fit"]}
{"id": "C68", "title": "What the interpreters accept", "statement": "RDST_interpreter accepts exactly fitted R_DST objects and RDST_Ridge_interpreter exactly R_DST_Ridge objects whose fit built a classifier, so any object on which fit completed is accepted and one only constructed is refused as not fitted. RDST_Ensemble_interpreter refuses every object, fitted ensembles included.", "quantifier": "every estimator object", "why_tests_cant": "all object states", "anchors": ["convst/interpreters/rdst_interpreter.py:RDST_interpreter.__init__", "convst/interpreters/rdst_interpreter.py:RDST_Ridge_interpreter.__init__", "convst/interpreters/rdst_interpreter.py:RDST_Ensemble_interpreter.__init__"]}
{"id": "C69", "title": "From the constructor to the features", "statement": "R_DST with default arguments fits every labelled dataset of at least 4 points per series (3D int64/float64 arrays, lists or object arrays of series) and transforms it into three features per series and shapelet. In general a successful fit stores at most n_shapelets shapelets, each a window of a training series on distinct channels with a length and dilation spanning at most min_len points and a threshold between the two percentiles of its distances to a series of its class; transform then returns the features of every series against every shapelet, or raises ValueError exactly when a shapelet does not fit in a series.", "quantifier": "every dataset, parameter set, generator and schedule of the parallel loop, over the reals", "why_tests_cant": "composition of the whole pipeline", "anchors": ["convst/transformers/rdst.py:R_DST.fit", "convst/transformers/rdst.py:R_DST.transform", "convst/transformers/rdst.py:R_DST.__init__"]}
{"id": "C70", "title": "What the critical difference diagram shows", "statement": "On a complete comparison draw_cd_diagram names every classifier exactly once, worst mean place first, with a line from the point of the axis at its mean place (the axis goes from m on the left to 1 on the right and carries the numbers 1..m) to its name, red exactly for the highlighted one. Every pair not found significantly different lies between the ends of one bar, the two classifiers at the ends of a bar are not significantly different, and no two bars are at the same height. A bar may however cover a classifier significantly different from its ends; with 17 or more classifiers the line of some name leaves the figure (never with at most 12); a path given by the caller is not written.", "quantifier": "every complete table of accuracies over the reals, every test and every clique enumeration", "why_tests_cant": "unbounded tables and all graphs of non-significant pairs", "anchors": ["convst/utils/plot_utils.py:draw_cd_diagram", "convst/utils/plot_utils.py:_graph_ranks", "convst/utils/plot_utils.py:_form_cliques"]}
{"id": "C71", "title": "Cloning the estimators", "statement": "sklearn.base.clone of any R_DST object raises RuntimeError, because its constructor stores another string object than the transform_type it is given; so R_DST cannot be used, alone or in a pipeline, with cross_val_score, GridSearchCV or scikit-learn's meta-estimators. clone of any R_DST_Ridge or R_DST_Ensemble object succeeds, the copy holds equal parameter values and shares no mutable object with the original. An R_DST_Ensemble can only be made with as many input transformers as values of proba_norm.", "quantifier": "every argument list the constructors accept", "why_tests_cant": "all argument types; object identity", "anchors": ["convst/transformers/rdst.py:R_DST.__init__", "convst/transformers/rdst.py:R_DST._validate_transform_type", "convst/classifiers/rdst_ridge.py:R_DST_Ridge.__init__", "convst/classifiers/rdst_ensemble.py:R_DST_Ensemble.__init__"]}
{"id": "C72", "title": "What a grid search measures", "statement": "On univariate series of one length without NaN or duplicates, the cell of cv_results_ for candidate c and fold i of grid_search_UCR_UEA.score is the score, on the test part of fold i, of a fresh pipeline with parameters c fitted on the training part of fold i (NaN if that raises), and it equals the row cross_validate_UCR_UEA gives for a pipeline whose fit forgets earlier fits. With a series present twice the reported score can be the score on the training series.", "quantifier": "every pipeline, grid, dataset and number of folds", "why_tests_cant": "depends on coincidences in the data", "anchors": ["convst/utils/experiments_utils.py:grid_search_UCR_UEA.score", "convst/utils/experiments_utils.py:_sklearn_cv.split"]}
{"id": "C73", "title": "R_DST_Ridge from the constructor to the predictions", "statement": "R_DST_Ridge() fits every labelled dataset of at least 4 points per series unless sklearn's scaler or ridge classifier refuses the features: these are the features of R_DST restricted to the columns that vary over the training series. predict on any dataset without shorter series then returns what that classifier says of the same columns of that dataset's features, and score is the proportion of agreeing labels (ValueError when the numbers of labels differ).", "quantifier": "every dataset, generator, schedule, scaler and ridge classifier, over the reals", "why_tests_cant": "composition of the whole pipeline", "anchors": ["convst/classifiers/rdst_ridge.py:R_DST_Ridge.fit", "convst/classifiers/rdst_ridge.py:R_DST_Ridge.predict", "convst/classifiers/rdst_ridge.py:R_DST_Ridge.score"]}
{"id": "C74", "title": "R_DST_Ensemble from the constructor to the predictions", "statement": "R_DST_Ensemble() on an int64 or float64 array of at least 6 points fails only where sklearn fails; its three members then hold shapelets of the series, of their first differences and of their periodograms, and predict gives each series the class with the largest weighted sum of softmax shares of the members' decisions, the smallest number on ties. On a list or an object array (the only way to pass series of different lengths, which its tags announce) fit always raises.", "quantifier": "every dataset, generator, order of the threads and ridge classifier, over the reals", "why_tests_cant": "composition of the whole pipeline and all thread orders", "anchors": ["convst/classifiers/rdst_ensemble.py:R_DST_Ensemble.fit", "convst/classifiers/rdst_ensemble.py:R_DST_Ensemble.predict", "convst/classifiers/rdst_ensemble.py:R_DST_Ensemble._more_tags"]}
{"id": "C75", "title": "What the input transformers give", "statement": "Derivate(order) turns an array of t points into the array of its differences of that order, t - order points, channel by channel; Periodigram turns each channel into its own periodogram (t // 2 + 1 points), independently of the other series, and raises on lists and object arrays; FastHankelTransform with use_optimal_offset computes the offset from dln and bias only, not from mu.", "quantifier": "every array and order", "why_tests_cant": "unbounded shapes; argument order of a scipy function", "anchors": ["convst/transformers/_input_transformers.py:Derivate.transform", "convst/transformers/_input_transformers.py:Periodigram.transform", "convst/transformers/_input_transformers.py:FastHankelTransform.transform"]}
{"id": "C76", "title": "A series is treated on its own", "statement": "The three features per shapelet that R_DST.transform gives a series, and the label that R_DST_Ridge and R_DST_Ensemble predict for it, are the same whatever the other series of the batch and its position among them: transform of a selection (with repetitions) of a batch returns the selected rows. The selection must hold a series of 3 points or more: a batch of series of at most 2 points is always refused, so such a series may be accepted among longer ones and refused alone.", "quantifier": "every fitted object, batch and selection, over the reals; for the labels, a scaler and a ridge classifier that treat rows separately", "why_tests_cant": "all batches", "anchors": ["convst/transformers/rdst.py:R_DST.transform", "convst/classifiers/rdst_ridge.py:R_DST_Ridge.predict", "convst/classifiers/rdst_ensemble.py:R_DST_Ensemble.predict"]}
{"id": "C77", "title": "The names of the classes do not matter", "statement": "Replacing the labels by others, different labels staying different, leaves R_DST.fit unchanged (same shapelets, attributes and state of the generator) and makes R_DST_Ridge predict the new names of what it predicted, with the same score. Merging two classes may change the features.", "quantifier": "every dataset, injective renaming, number type and schedule; a ridge classifier that only compares labels", "why_tests_cant": "all renamings", "anchors": ["convst/transformers/rdst.py:R_DST.fit", "convst/classifiers/rdst_ridge.py:R_DST_Ridge.fit"]}
{"id": "C78", "title": "The classifiers hand their parameters over", "statement": "After R_DST_Ridge.fit the attribute transformer is an R_DST with the transform_type, phase_invariance, alpha, n_samples, n_shapelets, shapelet_lengths, lengths_bounds, lengths_reduction, prime_dilations, proba_norm, percentiles, min_len and random_state of the classifier. After R_DST_Ensemble.fit model i holds input transformer i and an R_DST with those parameters, max_channels, the generator of the ensemble and the i-th value of proba_norm, in whatever order the members ran. The ridge classifiers get the ridge parameters and the features of the training data.", "quantifier": "every argument list, dataset and thread order", "why_tests_cant": "all arguments", "anchors": ["convst/classifiers/rdst_ridge.py:R_DST_Ridge._init_components", "convst/classifiers/rdst_ensemble.py:R_DST_Ensemble.fit", "convst/classifiers/rdst_ensemble.py:_parallel_fit"]}
{"id": "C79", "title": "fit and transform in binary64", "statement": "With numpy's and libm's functions accurate to 2^-45, R_DST.fit on series of 4 to 2^40 points does not fail and reads inside its arrays, whatever the values (infinities and NaN included), for percentiles of 100 or at most 99.9. Every stored shapelet that is not normalised is a bit-for-bit copy of the points t, t+d, ..., t+(l-1)d of a training series, a normalised one is the z-score of such a copy, and the threshold is a + (b - a) u, u in [0, 1), for the two percentiles a, b of the distances to a series of its class. transform then takes every series at least as long, and on finite data the features of shapelets that are not normalised are the smallest distance, its first position and the number of distances up to the threshold. A percentile of 100 - 2^-46 makes numba read beyond an array of two distances.", "quantifier": "every dataset of binary64 values, generator, schedule and libm accurate to 2^-45", "why_tests_cant": "rounding in all draws (dilations, primes, weighted choice, percentiles), unbounded lengths, special values", "anchors": ["convst/transformers/rdst.py:R_DST.fit", "convst/transformers/rdst.py:R_DST.transform", "convst/transformers/_univariate_same_length.py:U_SL_generate_shapelet", "convst/transformers/_univariate_same_length.py:U_SL_init_random_shapelet_params"]}
{"id": "C80", "title": "Rounding errors of distances and features", "statement": "For finite data of at most 2^960 in absolute value, every un-normalised distance computed in binary64 lies between (1 - 2^-53)^n and (1 + 2^-53)^n times the distance computed with real numbers, n = 1 + length + number of channels. So do the minima returned by transform; the position returned is one where the real distance is within these factors of the real minimum; the count includes every distance below the threshold by more than that and none above by more than that. Thresholds stored by fit are finite on such data. On integer data of at most b with 2 b length channels <= 2^53 the three features are exactly the real ones.", "quantifier": "every dataset of that range, shapelet, length, dilation and number of channels", "why_tests_cant": "rounding errors over all inputs", "anchors": ["convst/transformers/_commons.py:apply_one_shapelet_one_sample_univariate", "convst/transformers/_commons.py:apply_one_shapelet_one_sample_multivariate", "convst/transformers/rdst.py:R_DST.transform"]}
{"id": "C81", "title": "How the parameters of the shapelets are drawn", "statement": "Without prime dilations, a fit draws, from the seeded generator and in this order, one integer, then one number of [0, 1) per shapelet (then one integer per shapelet with several channels), then another number of [0, 1) per shapelet. Shapelet i has the length at the position given by integer i; with k = (m - 1) // (length - 1), m the smallest number of points, it has dilation e when the number lies in [log_k e, log_k (e + 1)); it has 1 + integer channels; it is normalised when the second number is below proba_norm. So the largest dilation that fits is never used unless it is 1. With prime dilations, one number per shapelet with more than one candidate (1 and the primes up to k, in increasing order) picks a candidate, the one of rank i with weight 2 ** -ln(i).", "quantifier": "every dataset, generator, schedule and parameters, over the reals", "why_tests_cant": "distribution of random choices; statistical tests cannot tell a dilation that never occurs from a rare one", "anchors": ["convst/transformers/_univariate_same_length.py:U_SL_init_random_shapelet_params", "convst/transformers/_multivariate_same_length.py:M_SL_init_random_shapelet_params"]}
{"id": "C82", "title": "How the window of a shapelet is drawn", "statement": "A shapelet is taken from the windows that overlap none of the earlier shapelets of its kind by more than alpha allows. On series of one length the series is drawn with one chance per free window and then one of its free windows, so that all free windows of all series have the same chance; with variable lengths the series is drawn with equal chances, so that a window of a series with fewer free windows has more chance than one of a series with more. The threshold is a + (b - a) u for the two percentiles of the distances to another series of the class, all of them having the same chance, or to the series itself if it is alone.", "quantifier": "every dataset, generator, schedule and parameters, over the reals", "why_tests_cant": "distribution of random choices depending on all earlier ones", "anchors": ["convst/transformers/_univariate_same_length.py:U_SL_generate_shapelet", "convst/transformers/_univariate_variable_length.py:U_VL_generate_shapelet", "convst/transformers/_multivariate_same_length.py:M_SL_generate_shapelet", "convst/transformers/_multivariate_variable_length.py:M_VL_generate_shapelet"]}
{"id": "C83", "title": "How the channels of a shapelet are drawn", "statement": "The channels of a multivariate shapelet are the first ones of an ordering of all channels, and every ordering is produced by exactly one sequence of the integers numba draws for it (below n, below n - 1, ..., below 2): with uniform integers, all sets of channels of the same size have the same chance.", "quantifier": "every number of channels and generator", "why_tests_cant": "distribution of random choices", "anchors": ["convst/transformers/_multivariate_same_length.py:M_SL_generate_shapelet", "convst/transformers/_multivariate_variable_length.py:M_VL_generate_shapelet"]}
{"id": "C84", "title": "Change of units", "statement": "Multiplying all values of the training data by c <> 0 and adding an offset per channel makes R_DST.fit return the same shapelets in the new units: same outcome, draws, number, channels, lengths, dilations and normalisations, converted values and thresholds multiplied by |c|. transform of data in the new units gives the same positions and counts and minima multiplied by |c| (with c = 1, the same table), and R_DST_Ridge predicts the same labels. The conditions are that c = 1 or no shapelet is normalised (a normalised one depends on the factor, C18), and for one channel that there is no offset, or all shapelets are normalised, or 0 is no value in either unit: univariate shapelets whose values are all 0 are thrown away, so that an offset can remove shapelets.", "quantifier": "every dataset, factor, offsets, generator, schedule and parameters, over the reals; for the labels, a scaler that undoes factors of non-constant columns", "why_tests_cant": "relation between two runs on all data and all factors", "anchors": ["convst/transformers/rdst.py:R_DST.fit", "convst/transformers/rdst.py:R_DST.transform", "convst/transformers/_univariate_same_length.py:U_SL_generate_shapelet", "convst/classifiers/rdst_ridge.py:R_DST_Ridge.predict"]}
{"id": "C85", "title": "Normalised shapelets in binary64", "statement": "For data of at most B in absolute value, 2^-400 <= B <= 2^400, and windows of l <= 2^40 points, the z-scores computed in binary64 are finite, at most 2 l, and differ from the real ones by at most 100 l^2 2^-53 B / (deviation + 10^-8). The normalised values stored by R_DST.fit obey this bound and their thresholds are finite; what transform returns for a normalised shapelet is never NaN, is the smallest distance, its first position and the number of distances at most the threshold, and agrees with the real distances up to the resulting tolerance and 1 + l + channels roundings. The bound is useless on constant windows: constant windows of 100000000.1 get z-scores of 0.6 or -0.6 depending on the length, instead of 0.", "quantifier": "every dataset of that range, shapelet, length, dilation, number of channels, generator and schedule", "why_tests_cant": "rounding errors and cancellation over all inputs", "anchors": ["convst/transformers/_commons.py:get_subsequence", "convst/transformers/_commons.py:apply_one_shapelet_one_sample_univariate", "convst/transformers/rdst.py:R_DST.fit", "convst/transformers/rdst.py:R_DST.transform"]}
{"id": "C86", "title": "Objects that are not fitted", "statement": "A new R_DST, and one on which every fit raised, raises NotFittedError at transform. A new R_DST_Ridge raises it at predict and score, a new R_DST_Ensemble, also after fits that raised, at predict. When fits on an R_DST that was fitted before all raise, transform returns what it returned before them; so does predict of an R_DST_Ensemble.", "quantifier": "every object, number of failed fits, their data and the exceptions they raise; for the ensemble, a ridge classifier with one row of leave-one-out values per sample", "why_tests_cant": "all ways in which a fit can fail half-way", "anchors": ["convst/transformers/rdst.py:R_DST.transform", "convst/transformers/rdst.py:R_DST.fit", "convst/classifiers/rdst_ridge.py:R_DST_Ridge.predict", "convst/classifiers/rdst_ensemble.py:R_DST_Ensemble.predict", "convst/classifiers/rdst_ensemble.py:R_DST_Ensemble.fit"]}
{"id": "C87", "title": "Noise on the data", "statement": "If every point of a series to transform moves by at most e, every un-normalised distance of a shapelet with l points and c channels moves by at most t = e l c; a normalised one by at most t = 4 e l c / (sd + 10^-8), where no window of the series has a deviation below sd. The minimum moves by at most t; the count lies between those at threshold - t and threshold + t, and is unchanged when no distance is that near the threshold; the position is unchanged when every other distance is more than 2 t above the minimum. A constant window has sd = 0: a change of one millionth of one of two equal points moves its normalised distance from 0 to over 1.9.", "quantifier": "every data, shapelets, noise, of the four transformers, over the reals", "why_tests_cant": "all perturbations of all inputs", "anchors": ["convst/transformers/_commons.py:apply_one_shapelet_one_sample_univariate", "convst/transformers/_commons.py:apply_one_shapelet_one_sample_multivariate", "convst/transformers/rdst.py:R_DST.transform"]}
{"id": "C88", "title": "Longer series", "statement": "Without phase invariance, points added before (p of them) and after (q) a series to transform can only lower the minimum and raise the count, the count by at most p + q; when the new best match lies in the old part it is the old one, p positions later; after appending only, an unchanged minimum keeps its position. For two series put one after the other the minimum is at most that of each, the count is the sum of both counts plus at most (l-1)d for a shapelet of length l and dilation d, and a best match that lies in one of the parts is the one found in that part alone. With phase invariance the minimum can rise.", "quantifier": "every data, shapelet that has at least one window in the shorter series, number of points added, of the four transformers, over the reals", "why_tests_cant": "all pairs of series", "anchors": ["convst/transformers/_commons.py:apply_one_shapelet_one_sample_univariate", "convst/transformers/_commons.py:apply_one_shapelet_one_sample_multivariate", "convst/transformers/rdst.py:R_DST.transform"]}
{"id": "C89", "title": "Fast-math", "statement": "The kernels are compiled with fastmath=True, so the compiler may add the terms of a distance in any order. For data of at most 2^960 and l c <= 2^53 terms (l points, c channels), shapelets that are not normalised: every sum is finite; every result is within one rounding per term of the real features; two executions that add in different orders return close minima, the same count when no real distance is within the rounding errors of the threshold, the same position when no other distance is that close to the minimum. On integer data every execution is exact. The order written in the code is one of the executions. Two executions can disagree: terms 2^53, 1, 1 give the counts 1 and 0.", "quantifier": "every data of that range, shapelet, order and parenthesisation of the sums", "why_tests_cant": "the compiler chooses the order per machine; tests see one", "anchors": ["convst/__init__.py:__USE_NUMBA_FASTMATH__", "convst/transformers/_commons.py:manhattan", "convst/transformers/_commons.py:apply_one_shapelet_one_sample_univariate", "convst/transformers/_commons.py:apply_one_shapelet_one_sample_multivariate"]}
{"id": "C90", "title": "Early abandoning", "statement": "The three searches of the closest window timed by early_vs_material.py (all windows, early abandoning, early abandoning in a random order) return the same number to the last bit, or raise the same exception, for any data. This number is the smallest distance, or 1e100 if none is below; below 1e100 it is the minimum that R_DST.transform returns for the same values as an un-normalised shapelet of dilation 1. When no window is below 1e100 they return 1e100 (refutation).", "quantifier": "every series (also with NaN and infinities), values and order of the windows, in binary64 with the sums in the order of the code", "why_tests_cant": "all data and all orders, bitwise", "anchors": ["PaperScripts/early_vs_material.py:apply_one_shapelet_one_sample", "PaperScripts/early_vs_material.py:apply_one_shapelet_one_sample_ea", "PaperScripts/early_vs_material.py:apply_one_shapelet_one_sample_ea_random"]}
{"id": "C91", "title": "Channels", "statement": "The channels that a multivariate shapelet does not use have no influence on its three features, and moving, adding or removing channels changes nothing as long as the shapelet looks at the same values (in any arithmetic, also binary64). The order in which a shapelet lists its channels does not matter. A shapelet without some of its channels is at least as close and matches at least as often. The minimum of a shapelet is at least the sum of the minima of two parts with disjoint channels, with equality at the same position when both parts are closest at the same position; matches of both parts are matches of the whole when the thresholds add up.", "quantifier": "every data, shapelets, split of the channels, of the multivariate transformers; the last three statements over the reals", "why_tests_cant": "relations between runs on all data", "anchors": ["convst/transformers/_multivariate_same_length.py:M_SL_apply_all_shapelets", "convst/transformers/_multivariate_variable_length.py:M_VL_apply_all_shapelets", "convst/transformers/_commons.py:apply_one_shapelet_one_sample_multivariate"]}
{"id": "C92", "title": "Machine integers", "statement": "Lengths, dilations, offsets and positions are int64 in numpy and numba, where overflows wrap around silently. For every well-formed call with arrays of at most 2^62 cells, at most 2^30 shapelets and no shapelet with (length-1)*dilation above 2^62, transform with int64 arithmetic returns what it returns with unbounded integers, exceptions included. The shapelets R_DST.fit finds on series of at most 2^40 points satisfy this. A hand-made dilation of 2^62 with length 5 wraps to a span of 0: the series that is too short is not refused and the code reads outside of it.", "quantifier": "every data, shapelets, of the four transformers, in every arithmetic of the values; for fitted shapelets binary64", "why_tests_cant": "overflow needs values no test uses", "anchors": ["convst/transformers/_commons.py:generate_strides_1D", "convst/transformers/_commons.py:generate_strides_2D", "convst/transformers/_univariate_same_length.py:U_SL_apply_all_shapelets", "convst/transformers/_univariate_variable_length.py:U_VL_apply_all_shapelets", "convst/transformers/_multivariate_same_length.py:M_SL_apply_all_shapelets", "convst/transformers/_multivariate_variable_length.py:M_VL_apply_all_shapelets"]}
{"id": "C93", "title": "Dilation and subsampling", "statement": "Without phase invariance, a shapelet with dilation d on a series behaves like the same shapelet without dilation on the d subsamples of the series (every d-th point, starting at 0, ..., d-1): its minimum is the smallest of their minima and lies at the corresponding position, its count is the sum of their counts.", "quantifier": "every data, shapelet, dilation, of the four transformers, over the reals", "why_tests_cant": "relation between d + 1 runs on all data", "anchors": ["convst/transformers/_commons.py:_generate_strides_1D", "convst/transformers/_commons.py:_generate_strides_2D", "convst/transformers/rdst.py:R_DST.transform"]}
{"id": "C94", "title": "Similar shapelets", "statement": "Two shapelets with the same channels, length, dilation, normalisation and threshold whose values differ by t in total (sum of absolute differences) have minima that differ by at most t; the count of one lies between the counts of the other at threshold - t and threshold + t, and is the same when no distance is that near the threshold; the position is the same when every other distance is more than 2 t above the minimum. Two shapelets that are closest at the same position differ by at most the sum of the minima; if they have together more matches than there are windows, they differ by at most the sum of the thresholds.", "quantifier": "every data, pair of shapelets, of the four transformers, with or without phase invariance, over the reals", "why_tests_cant": "all pairs of shapelets on all data", "anchors": ["convst/transformers/_commons.py:apply_one_shapelet_one_sample_univariate", "convst/transformers/_commons.py:apply_one_shapelet_one_sample_multivariate", "convst/transformers/rdst.py:R_DST.transform"]}
{"id": "C95", "title": "Time reversal", "statement": "Reading all series and all shapelets backwards changes neither the minima nor the counts. If a minimum occurs once only, its position is mirrored (with phase invariance, round the end of the series); without phase invariance the old and the new position add up to at most the number of windows minus 1.", "quantifier": "every data, shapelet, of the four transformers, normalised or not, with or without phase invariance, over the reals", "why_tests_cant": "relation between two runs on all data", "anchors": ["convst/transformers/_commons.py:generate_strides_1D", "convst/transformers/_commons.py:generate_strides_2D", "convst/transformers/rdst.py:R_DST.transform"]}
{"id": "C96", "title": "Interrupted experiments", "statement": "test_models.py is started with resume = False and restarted any number of times with resume = True and the same lists, each execution being stopped anywhere by an exception or the end of the process. Then every experiment is one of the dataset and model of its line; after an experiment with an accuracy other than 0 or NaN the line is not computed again; each line of the file has the labels and the scores of its last experiment, or is still to do if it has none; when the last execution comes to its end every line has had an experiment; with reproducible accuracies the final table does not depend on the interruptions and every experiment was made once. Refuted: experiments of accuracy 0 are repeated at every restart; after a change of the list of datasets the script ends without the experiments of the new ones; the ridge classifier is not compiled before the timings.", "quantifier": "every list of datasets and models, number and place of the interruptions, outcomes of the experiments; the file is not interrupted while it is written", "why_tests_cant": "all places at which a long run can stop", "anchors": ["PaperScripts/test_models.py:31-72"]}
{"id": "C97", "title": "Integer data", "statement": "On training and new data of integers of at most b in absolute value, with 2 * b * points * channels at most 2^53, R_DST.fit stores for every shapelet that is not normalised values of the training data and a finite threshold, and what R_DST.transform returns for it is exactly the minimum, its first position and the number of matches over the real numbers; every execution that adds the terms of the distances in another order (fast-math, another machine) returns the same three numbers.", "quantifier": "every integer dataset of that range, generator, schedule, parameters, of the four transformers, in binary64", "why_tests_cant": "all data, all machines and all orders of the sums", "anchors": ["convst/transformers/rdst.py:R_DST.fit", "convst/transformers/rdst.py:R_DST.transform", "convst/transformers/_commons.py:manhattan", "convst/__init__.py:__USE_NUMBA_FASTMATH__"]}
{"id": "C98", "title": "Other percentiles", "statement": "Two R_DST that differ only in percentiles, those of the second being between 0 and 100 and not below those of the first, do the same in fit on any data: the same outcome (an exception included) and the same random numbers drawn; shapelets of the same number, channels, values, lengths, dilations and normalisations, with thresholds that are not smaller. The two transforms of the same data both raise ValueError, or return the same minima and positions and counts that are not smaller. In any arithmetic, also binary64, and for any percentiles: when both fits come to their end, they differ in the thresholds only, and their transforms in the counts only.", "quantifier": "every data, parameters, generator, schedule, of the four transformers; the order of thresholds and counts over the reals, the rest in any arithmetic", "why_tests_cant": "relation between two randomised runs on all data", "anchors": ["convst/transformers/rdst.py:R_DST.fit", "convst/transformers/rdst.py:_validate_percentiles", "convst/transformers/_univariate_same_length.py:U_SL_generate_shapelet", "convst/transformers/_univariate_variable_length.py:U_VL_generate_shapelet", "convst/transformers/_multivariate_same_length.py:M_SL_generate_shapelet", "convst/transformers/_multivariate_variable_length.py:M_VL_generate_shapelet"]}
{"id": "C99", "title": "Seeds and generators", "statement": "R_DST(random_state=k) and R_DST(random_state=RandomState(k)) behave alike in any sequence of fits and transforms. Without n_samples a fit draws from, and changes, the generator of its object only, so objects with generators of their own can be fitted in any order with the same results. Not so for objects that share a generator (random_state=None); and an integer random_state makes neither a second fit of the same object repeat the first, nor (with n_samples) the result independent of numpy's global generator. For R_DST_Ridge the first fit with seed k and with RandomState(k) gives the same predictions; a second fit starts again with the seed but goes on with the generator.", "quantifier": "every parameters, data, generator, schedule, number type and sequence of fits", "why_tests_cant": "all sequences of calls on several objects", "anchors": ["convst/transformers/rdst.py:R_DST.__init__", "convst/transformers/rdst.py:R_DST.fit"]}
{"id": "C100", "title": "Missing values", "statement": "R_DST.transform accepts new series that are long enough, with missing values (NaN) and infinities, and does not raise. For a shapelet that is not normalised, fitted on finite data, the distance of a window is NaN exactly when a point it reads is missing; such windows are not matches, and when the first window of the series is complete the minimum and its first position are those of the complete windows. When a point of the first window is missing, the minimum is NaN and its position 0, for normalised shapelets too: an exact match later in the series is counted but not found. Whatever the data and the shapelet, the minimum is the first distance if this is NaN, otherwise the smallest of those that are not. fit does not refuse missing values either, and a shapelet that has got one returns NaN, 0 and 0 for every series.", "quantifier": "every data, parameters, generator, schedule, of the four transformers, in strict binary64 (__USE_NUMBA_FASTMATH__ = False; fast-math does not specify NaN)", "why_tests_cant": "all positions of missing values in all data and all shapelets", "anchors": ["convst/transformers/rdst.py:R_DST.transform", "convst/transformers/_commons.py:apply_one_shapelet_one_sample_univariate", "convst/transformers/_commons.py:apply_one_shapelet_one_sample_multivariate", "convst/transformers/_commons.py:manhattan", "convst/utils/checks_utils.py:check_array_3D"]}
