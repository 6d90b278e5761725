{"id": "C01", "title": "Sorted-array searches return the documented index", "statement": "For every sorted array and every searched value, the `le` search returns the index of the last element <= the value (or -1, or 0 in inclusive mode, if there is none) and the `ge`/`ge_lim` searches return the index of the first element >= the value inside the searched range (or the right end, or the last index in inclusive mode, if there is none); duplicates in the array are allowed and the search always terminates.", "quantifier": "all sorted finite arrays of any length including empty and with repetitions, all searched values (including NaN and +-inf), both modes, all index ranges", "why_tests_cant": "Binary search bugs (off-by-one at both ends, duplicates, empty arrays) live at boundaries of arbitrary-length inputs; tests sample a handful of arrays.", "anchors": ["cyclic_boosting/binning/_binary_search.py: le, ge, ge_lim"]}
{"id": "C02", "title": "Bin numbers are always usable as indices", "statement": "After BinNumberTransformer.fit, transform maps every value of a binned column either to -1 or to an integer b with 0 <= b < (number of learned boundaries - 1); no input value, missing, infinite or out of the training range, can produce any other number.", "quantifier": "all fitted columns (continuous and discrete, any flags), all values including NaN, +-inf, magic missing integers and values outside the training range", "why_tests_cant": "Downstream factor lookup indexes arrays with these numbers; only a for-all statement excludes an out-of-range index.", "anchors": ["cyclic_boosting/binning/bin_number_transformer.py: BinNumberTransformer._transform_one_feature", "cyclic_boosting/binning/ecdf_transformer.py: ECdfTransformer.fit"]}
{"id": "C03", "title": "Continuous binning is monotone and respects the learned boundaries", "statement": "For a continuous column transform is non-decreasing in the value, sends a value x to the first bin whose right boundary is >= x (up to the stored epsilon), values below the smallest boundary to bin 0 and values above the largest to the last bin.", "quantifier": "all fitted continuous columns and all pairs of finite values", "why_tests_cant": "Monotonicity relates all pairs of inputs; a test can check only some.", "anchors": ["cyclic_boosting/binning/bin_number_transformer.py: BinNumberTransformer._transform_one_feature", "cyclic_boosting/binning/_binary_search.py: ge, ge_multi"]}
{"id": "C04", "title": "Discrete binning separates categories and rejects unseen ones", "statement": "For an ordered/unordered column whose training weights are all non-zero, each distinct training value receives its own bin number (the rank of the value), two different training values never share a bin, and a value that is not within the stored epsilon of a training value is mapped to -1.", "quantifier": "all training columns with positive weights, all transformed values", "why_tests_cant": "Injectivity over all values and the unseen-value branch quantify over unbounded data.", "anchors": ["cyclic_boosting/binning/bin_number_transformer.py: BinNumberTransformer._transform_one_feature", "cyclic_boosting/binning/_binary_search.py: eq_multi, check_equal", "cyclic_boosting/binning/ecdf_transformer.py: ECdfTransformer.fit, calculate_cdf_from_weighted_data"]}
{"id": "C05", "title": "Missing values are always mapped to the missing bin", "statement": "transform maps NaN and +-inf of any binned column to -1; with the magic-integer-missing flag it also maps -9 and -999 to -1, and without that flag -9 and -999 are treated like any other number. A column without any usable training value is mapped to -1 as a whole.", "quantifier": "all columns, flags and values", "why_tests_cant": "Must hold for each flag combination and value, including values whose magic representation coincides with a learned category.", "anchors": ["cyclic_boosting/binning/bin_number_transformer.py: BinNumberTransformer._transform_one_feature", "cyclic_boosting/flags.py: has_magic_missing_set"]}
{"id": "C06", "title": "Adaptive bins: count, order and minimum weight", "statement": "For strictly increasing distinct values with a strictly increasing cdf ending at 1, the learned binning of a continuous column has at least one and at most n_bins bins, its boundaries and cumulative probabilities are strictly increasing from bin 1 on, it starts at the smallest value with probability 0, and every bin carries at least (1 - tolerance)/n_bins - epsilon of the total weight; fewer than two requested bins are rejected.", "quantifier": "all value/cdf sequences of any length, all n_bins >= 2, all tolerances in [0,1) and epsilons in [0,(1-tolerance)/n_bins)", "why_tests_cant": "The loop's bookkeeping (rest, tolerance, merge of the last bin) has corner cases for particular cdf layouts that random tests rarely hit.", "anchors": ["cyclic_boosting/binning/ecdf_transformer.py: reduce_cdf_and_boundaries_to_nbins"]}
{"id": "C07", "title": "The last learned boundary is the training maximum", "statement": "With exact comparisons (epsilon 0) the binning of a continuous column always ends at the largest training value with cumulative probability 1; with a positive epsilon the remaining probability above the last boundary is at most n_bins * epsilon.", "quantifier": "all value/cdf sequences and all parameters as in C06", "why_tests_cant": "An off-by-one in the loop's early exit only shows for special weight distributions.", "anchors": ["cyclic_boosting/binning/ecdf_transformer.py: reduce_cdf_and_boundaries_to_nbins"]}
{"id": "C08", "title": "Samples with weight zero do not influence the binning", "statement": "Fitting the binning on data that contains samples of weight zero gives the same result as fitting on the data without those samples (documented: values with weight zero are ignored).", "quantifier": "all columns and all non-negative weights", "why_tests_cant": "Needs a relation between two fits over all weightings.", "anchors": ["cyclic_boosting/binning/ecdf_transformer.py: calculate_cdf_from_weighted_data, ECdfTransformer.fit"]}
{"id": "C09", "title": "Empirical cdf: values, monotonicity and total", "statement": "For a column with positive weights, the learned cdf lists each distinct non-NaN value once in increasing order together with the share of total weight of samples <= that value; it is strictly increasing and ends at 1, and it does not depend on the order of the samples.", "quantifier": "all columns with positive weights, all permutations of the samples", "why_tests_cant": "Order independence and the closed form quantify over all permutations and weights.", "anchors": ["cyclic_boosting/binning/ecdf_transformer.py: calculate_cdf_from_weighted_data"]}
{"id": "C10", "title": "Quantile transform interpolates monotonically within [0,1]", "statement": "ECdfTransformer.transform of a continuous column returns NaN exactly for non-finite values, returns the learned probability at each boundary (where the first two boundaries coincide, that of the second), is non-decreasing in the value and always lies between 0 and 1; below the smallest boundary it is 0 and above the largest it is the last learned probability.", "quantifier": "all fitted continuous columns, all values", "why_tests_cant": "Monotone interpolation across all pairs of values and all boundary arrays.", "anchors": ["cyclic_boosting/binning/_binary_search.py: le_interp, le_interp_multi", "cyclic_boosting/binning/ecdf_transformer.py: ECdfTransformer.transform"]}
{"id": "C11", "title": "Narrowing of bin-number matrices is lossless", "statement": "When transform returns the smallest integer type for a numpy matrix, every bin number keeps its value.", "quantifier": "all matrices of integers below 2^63", "why_tests_cant": "Overflow depends on extreme entries of arbitrary matrices.", "anchors": ["cyclic_boosting/binning/bin_number_transformer.py: _as_int_array_of_minimum_dtype"]}
{"id": "C12", "title": "Lexicographic bin numbers are a bijection in row order", "statement": "For given numbers of bins per dimension, the combined number of a valid index tuple lies in [0, product), different tuples get different numbers, every number in the range is hit, numbers increase in lexicographic order, and the k-th row of the multi-dimensional range (the bin centres given to smoothers) is exactly the tuple with combined number k.", "quantifier": "all dimensions, all shapes, all valid tuples", "why_tests_cant": "Bijectivity over arbitrary dimension and shape is an inductive statement.", "anchors": ["cyclic_boosting/utils.py: multidim_binnos_to_lexicographic_binnos, bin_steps, arange_multi", "cyclic_boosting/features.py: Feature.bin_centers, Feature.bind_data"]}
{"id": "C13", "title": "Rows with missing or unseen bins go to the missing bin, whatever the rest of the batch", "statement": "A row of a feature group with a NaN, infinite, negative or too large bin number is assigned the combined number product(n_bins) (documented), independently of the other rows of the batch.", "quantifier": "all batches, all shapes, all rows", "why_tests_cant": "Batch independence is a relation between different batches; a bug appears only for batches without any valid row.", "anchors": ["cyclic_boosting/utils.py: multidim_binnos_to_lexicographic_binnos, not_seen_events"]}
{"id": "C14", "title": "Unseen-event mask", "statement": "The unseen-event mask marks a row exactly when the training weight of its bin is zero, rows with missing or out-of-range bin numbers being looked up in the missing bin, and is computed row by row.", "quantifier": "all weight vectors, all one- and multi-dimensional rows and batches", "why_tests_cant": "Row-wise meaning must hold for every batch composition.", "anchors": ["cyclic_boosting/utils.py: not_seen_events"]}
{"id": "C15", "title": "Feature-property flags: implications and consistency check", "statement": "MONOTONIC implies CONTINUOUS, MISSING_NOT_LEARNED and HAS_MAGIC_INT_MISSING imply HAS_MISSING; the consistency check accepts a value exactly if one and only one of continuous/ordered/unordered is set and not both of increasing/decreasing are set.", "quantifier": "all non-negative integers as flag values", "why_tests_cant": "All 2^13 combinations and all integers beyond.", "anchors": ["cyclic_boosting/flags.py: check_flags_consistency, is_*_set"]}
{"id": "C16", "title": "Every consistent flag value has a faithful textual form", "statement": "flags_to_string succeeds for every flag value built from the public flag constants, and the constants named in the returned text, or-ed together, give back the value.", "quantifier": "all values obtained by or-ing public flag constants", "why_tests_cant": "Quantifies over all subsets of flags.", "anchors": ["cyclic_boosting/flags.py: flags_to_string, _convert_flags_to_string"]}
{"id": "C17", "title": "Training terminates and the number of iterations is bounded", "statement": "fit always terminates: it either returns after at most max(maximal_iterations, hierarchical iterations + 1 if hierarchical groups are used) + 4 iterations or raises; the only training-loop exception caused by divergence is the convergence error.", "quantifier": "all data, losses and factor updates (arbitrary oracles), all settings", "why_tests_cant": "Unbounded number of possible loss histories, including oscillating divergence.", "anchors": ["cyclic_boosting/base.py: CyclicBoostingBase._fit_main, _check_stop_criteria, _check_convergence"]}
{"id": "C18", "title": "Training stops only for a documented reason", "statement": "When fit returns, at least one of the three stop criteria (iterations, factor change, loss change) held, the last loss was not diverging, and with hierarchical groups more than the configured number of hierarchical iterations were executed; without hierarchical groups and divergence no more than maximal_iterations iterations are executed.", "quantifier": "all training histories", "why_tests_cant": "All histories of losses and factor changes.", "anchors": ["cyclic_boosting/base.py: CyclicBoostingBase._check_stop_criteria, _fit_main"]}
{"id": "C19", "title": "predict on the training data reproduces the in-sample prediction", "statement": "Up to the last step of predict of classifiers (class decision, see C79) and of the Poisson location model (cut at zero), the prediction returned by the fit (fit_transform output) equals predict on the same rows, i.e. the incremental additions and removals of feature contributions during all iterations, roll-backs included, always sum up to the prior plus the stored factors of the row's bins.", "quantifier": "all training histories (any number of iterations, any factor updates, any divergence pattern), both aggregate modes, one- and multi-dimensional feature groups", "why_tests_cant": "The invariant ranges over all histories of adds, removes and roll-backs.", "anchors": ["cyclic_boosting/base.py: feature_iteration, visit_factors, remove_preds, _fit_main, predict_extended, _predict_factors", "cyclic_boosting/features.py: Feature.prepare_feature", "cyclic_boosting/smoothing/onedim.py: BinValuesSmoother", "cyclic_boosting/smoothing/multidim.py: BinValuesSmoother"]}
{"id": "C20", "title": "Learned factors stay within the documented limits", "statement": "For multiplicative models every learned factor stays within the per-feature limits ([0.01,1000] one-dimensional, [0.1,100] multi-dimensional, tighter for external columns) and changes by at most a factor 2 per iteration.", "quantifier": "all training histories with aggregation", "why_tests_cant": "Invariant over all histories.", "anchors": ["cyclic_boosting/base.py: visit_factors, _set_factors_per_feature"]}
{"id": "C21", "title": "Hierarchical training schedule", "statement": "With hierarchical feature groups, during the configured first iterations only those groups change their factors, and at the end every feature group has been trained at least once.", "quantifier": "all schedules and data", "why_tests_cant": "Quantifies over all histories and group subsets.", "anchors": ["cyclic_boosting/base.py: _fit_main, _check_stop_criteria"]}
{"id": "C22", "title": "Divergence is always reported as a convergence error or recovered", "statement": "If the loss keeps exceeding twice the initial loss, training ends with the convergence error on the fifth diverging iteration; an isolated divergence rolls the factors and the prediction back to the state before the diverging iteration.", "quantifier": "all loss histories, all settings", "why_tests_cant": "All histories; the roll-back touches every feature.", "anchors": ["cyclic_boosting/base.py: _check_convergence, remove_preds"]}
{"id": "C23", "title": "Prediction decomposes into independent row-wise contributions", "statement": "predict equals the inverse link of (linked prior + sum of the feature contributions); each contribution depends only on the row's own values of that feature group, so predicting a batch is predicting each row, in any order and any split.", "quantifier": "all fitted models, all batches", "why_tests_cant": "Relation over all batches and permutations.", "anchors": ["cyclic_boosting/base.py: predict_extended, get_feature_contributions, CBLinkPredictionsFactors"]}
{"id": "C24", "title": "Unseen and missing values are predicted neutrally where promised", "statement": "A feature group contributes the neutral element for a bin number outside the training range and, for categorical (discontinuous) features, for every bin that never occurred in training; it contributes the learned missing-bin value for missing values, and exactly the neutral element for missing values if missing values are declared not to be learned.", "quantifier": "all histories and all rows", "why_tests_cant": "All training histories; all out-of-range bins.", "anchors": ["cyclic_boosting/base.py: _predict_factors", "cyclic_boosting/features.py: Feature.update_factors, missing_not_learned"]}
{"id": "C25", "title": "Feature importances are a probability vector", "statement": "After fit, get_feature_importances returns for every feature group one non-negative number and they sum to one unless all learned factors are neutral.", "quantifier": "all fitted models, all feature-group names, any number of fits of the same estimator", "why_tests_cant": "Depends on names (key collisions) and on the history of fits.", "anchors": ["cyclic_boosting/base.py: set_feature_importances, get_feature_importances", "cyclic_boosting/utils.py: get_normalized_values"]}
{"id": "C26", "title": "Adding and removing a contribution are inverse and booked by category", "statement": "Including then removing the same contribution restores the link prediction; after any sequence of inclusions the link prediction minus the prior equals the sum of all contributions and, if categories are given, the sum of the category columns.", "quantifier": "all sequences of operations, all category assignments", "why_tests_cant": "All operation sequences.", "anchors": ["cyclic_boosting/base.py: UpdateMixin, get_influence_category"]}
{"id": "C27", "title": "Link functions are inverse to each other and order preserving", "statement": "Inverse link after link is the identity on the range accepted by is_in_range's interior, link after inverse link is the identity everywhere, both strictly increasing; multiplicative predictions are positive, classification scores lie strictly between 0 and 1.", "quantifier": "all real numbers in the respective ranges", "why_tests_cant": "Continuum of inputs.", "anchors": ["cyclic_boosting/link.py: LogLinkMixin, LogitLinkMixin, IdentityLinkMixin"]}
{"id": "C28", "title": "Classifier outputs are consistent", "statement": "predict_proba rows are non-negative and sum to one, predict returns 1 exactly if the second probability exceeds one half, and boosting weights lie strictly between 0 and 1 for probabilities in [0,1].", "quantifier": "all link-space scores, all targets", "why_tests_cant": "Continuum of scores including the clipped end points.", "anchors": ["cyclic_boosting/classification.py: CBClassifier.predict_proba, predict, boost_weights"]}
{"id": "C29", "title": "Poisson regression is the special case a=1, c=0 of the negative binomial regression", "statement": "For all data, weights, predictions and binnings the negative binomial regressor with a=1 and c=0 computes the same factors and uncertainties as the Poisson regressor.", "quantifier": "all data sets, weights, current predictions, bin assignments", "why_tests_cant": "Equality of two code paths on all inputs.", "anchors": ["cyclic_boosting/regression.py: CBNBinomRegressor.calc_parameters, CBPoissonRegressor.precalc_parameters, CBPoissonRegressor.calc_parameters"]}
{"id": "C30", "title": "Bin estimates are well-defined for every data set", "statement": "For non-negative targets, weights and predictions the multiplicative regressors produce for each bin (also an empty one) a posterior with positive parameters, hence a finite factor and a positive uncertainty that does not grow with more evidence; an empty bin gets the prior alone.", "quantifier": "all data with non-negative weights and targets", "why_tests_cant": "All data sets, in particular empty bins and zero weights.", "anchors": ["cyclic_boosting/regression.py: _calc_factors_and_uncertainties, get_gamma_priors"]}
{"id": "C31", "title": "Generic bin estimate is the minimiser of the regularised chi-square", "statement": "The generic factor computation returns per bin the unique minimiser of the weighted squared deviation plus prior term, which lies between the prior mean and the data of that bin, and a non-negative variance.", "quantifier": "all data, weights > 0, priors", "why_tests_cant": "Optimality over all real alternatives.", "anchors": ["cyclic_boosting/base.py: calc_factors_generic"]}
{"id": "C32", "title": "Location models: calibrated offsets sum to zero", "statement": "After calibration the weighted mean of the summands of a feature over the training data is zero (missing bin excluded from the shift target if it is not learned).", "quantifier": "all factors and weights with positive total", "why_tests_cant": "Continuum of factor vectors.", "anchors": ["cyclic_boosting/location.py: CBLocationRegressor.calibrate_to_weighted_mean"]}
{"id": "C33", "title": "Learning rates stay in (0,1] and end at 1", "statement": "constant, linear, half-linear and logistic learning rates are non-decreasing in the iteration, positive, at most 1 for iterations up to the maximum, and (except logistic, which reaches 1 - 1e-9) equal 1 in the last iteration.", "quantifier": "all iterations and maxima", "why_tests_cant": "All pairs of integers.", "anchors": ["cyclic_boosting/learning_rate.py"]}
{"id": "C34", "title": "Regularisation to the error-weighted mean is a shrinkage", "statement": "Each regularised value lies between the original value and the error-weighted mean (or given prior), the order of equally uncertain values is kept, and constant inputs are unchanged; the function rejects inputs of different length. One zero uncertainty makes all values of a non-constant vector NaN.", "quantifier": "all values, positive uncertainties (and the zero case as stated)", "why_tests_cant": "Continuum of vectors of any length.", "anchors": ["cyclic_boosting/utils.py: regularize_to_error_weighted_mean"]}
{"id": "C35", "title": "Regularisation to a prior expectation is a thresholded shrinkage", "statement": "Values less significant than the threshold are replaced by the prior expectation; others move towards it without crossing it, monotonically in the value.", "quantifier": "all values, positive uncertainties, thresholds", "why_tests_cant": "Continuum of inputs.", "anchors": ["cyclic_boosting/utils.py: regularize_to_prior_expectation"]}
{"id": "C36", "title": "Smoother choice follows the flags with fixed precedence", "statement": "For every feature group without explicit smoother, the chosen smoother is determined by the flags with precedence linear, seasonal, monotonic, continuous, ordered, unordered; explicitly given smoothers always win; interactions never fail to get a smoother.", "quantifier": "all flag values, all groups", "why_tests_cant": "All flag combinations and group sizes.", "anchors": ["cyclic_boosting/common_smoothers.py: SmootherChoice, _simplify_flags, determine_reg_type"]}
{"id": "C37", "title": "Pinball loss is non-negative and minimised by the quantile", "statement": "The quantile cost of predictions is non-negative, zero for perfect predictions, and among constant predictions it is minimised by the weighted quantile of the targets.", "quantifier": "all targets, weights, quantiles in (0,1), all alternative constants", "why_tests_cant": "Optimality over a continuum.", "anchors": ["cyclic_boosting/generic_loss.py: quantile_costs", "cyclic_boosting/utils.py: _weighted_quantile_of_dataframe"]}
{"id": "C38", "title": "Approximate continuous quantile lies within the data range", "statement": "The continuous quantile computed from (possibly discrete) targets lies between the smallest and the largest target.", "quantifier": "all targets, weights, quantiles", "why_tests_cant": "Fails only for ties at specific positions.", "anchors": ["cyclic_boosting/utils.py: continuous_quantile_from_discrete_pdf"]}
{"id": "C39", "title": "Weighted quantiles have the defining property", "statement": "The weighted quantile of a bin is a target value such that the weight of targets not above it is at least the requested share and the weight of strictly smaller targets is less than the share.", "quantifier": "all targets, non-negative weights with positive sum, quantiles in (0,1]", "why_tests_cant": "All vectors.", "anchors": ["cyclic_boosting/utils.py: _weighted_quantile_of_dataframe, _weighted_median_of_dataframe, calc_weighted_quantile"]}
{"id": "C40", "title": "Johnson quantile-parametrised distributions pass through the given quantiles", "statement": "For ordered symmetric-percentile quantiles the quantile function of the fitted distribution returns exactly the three given quantiles, is strictly increasing, respects the lower (and upper) bound, and cdf and quantile function are inverse to each other.", "quantifier": "all alpha in (0,1/2), all ordered quantile triples within the bounds", "why_tests_cant": "Continuum of parameters, including the symmetric special case.", "anchors": ["cyclic_boosting/quantile_matching.py: J_QPD_S, J_QPD_B, J_QPD_extended_U"]}
{"id": "C41", "title": "Quantile regressor chain returns ordered quantiles", "statement": "The three predicted quantiles of the chained quantile regression satisfy lower < median < upper and stay inside the given bounds for every input.", "quantifier": "all predictions of the chained estimators", "why_tests_cant": "All prediction values.", "anchors": ["cyclic_boosting/quantile_matching.py: QPD_RegressorChain, transform_from_bounds, transform_to_bounds"]}
{"id": "C42", "title": "Root finding keeps a bracket and terminates", "statement": "The Newton/bisection solver used for external-column factors always terminates, keeps every iterate in the bracketing interval and returns a positive inverse curvature.", "quantifier": "all gradient/curvature functions", "why_tests_cant": "All function oracles.", "anchors": ["cyclic_boosting/price.py: newton_bisect, _set_right_bound"]}
{"id": "C43", "title": "Interaction candidates are complete and duplicate-free", "statement": "The list of candidate interactions for n features up to order d contains every subset of 2..d features exactly once.", "quantifier": "all feature lists, all orders", "why_tests_cant": "Combinatorial over all n, d.", "anchors": ["cyclic_boosting/interaction_selection.py: create_interactions"]}
{"id": "C44", "title": "Pipelines forward the user's settings to the estimator", "statement": "A pipeline factory passes each setting relevant for the estimator on to it unchanged, and leaves estimator defaults in place for settings that are not given.", "quantifier": "all estimators and settings of the factory", "why_tests_cant": "All combinations of optional settings.", "anchors": ["cyclic_boosting/pipelines.py"]}
{"id": "C45", "title": "Default feature groups are all remaining columns", "statement": "Without explicit feature groups every column except the weight and prior-prediction column becomes a one-dimensional feature group, once and in order.", "quantifier": "all column lists and exclusions", "why_tests_cant": "All column name sets.", "anchors": ["cyclic_boosting/base.py: _init_default_feature_groups", "cyclic_boosting/binning/ecdf_transformer.py: get_feature_column_names_or_indices"]}
{"id": "C46", "title": "Two-dimensional neutralisation removes one-dimensional influence", "statement": "After neutralisation the weighted sums of both projections are zero (docstring: no net shift on any of the 2 projections); it terminates after at most four rounds, subtracts only row and column effects, so that interaction contrasts are kept, and leaves a table that is already neutral unchanged.", "quantifier": "all tables with positive weights", "why_tests_cant": "Continuum of tables of any shape.", "anchors": ["cyclic_boosting/utils.py: neutralize_one_dim_influence"]}
{"id": "C47", "title": "Generic-loss factors are assigned to the right bins", "statement": "In the loss-minimising modes the factor estimated from the samples of bin b is stored at position b and bins without samples get the neutral factor.", "quantifier": "all bin assignments and iteration orders", "why_tests_cant": "All sets of empty bins and orders.", "anchors": ["cyclic_boosting/generic_loss.py: calc_parameters"]}
{"id": "C48", "title": "Weighted linear regression recovers linear data", "statement": "If y = alpha + beta x exactly and the weighted x-variance is non-zero, the linear regression returns alpha and beta; in general it returns the unique minimiser of the weighted squared error.", "quantifier": "all vectors, positive weights", "why_tests_cant": "Continuum.", "anchors": ["cyclic_boosting/utils.py: linear_regression"]}
{"id": "C49", "title": "Non-finite training values are ignored by the binning", "statement": "NaN and infinite values of a training column do not influence the learned binning (documented: all non-finite values are ignored): fitting with and without them gives the same transform.", "quantifier": "all training columns and all transformed values", "why_tests_cant": "Continuum of training columns with non-finite values at any position.", "anchors": ["cyclic_boosting/binning/ecdf_transformer.py: calculate_cdf_from_weighted_data", "cyclic_boosting/binning/ecdf_transformer.py: ECdfTransformer.fit"]}
{"id": "C50", "title": "Feature contributions explain the prediction", "statement": "get_feature_contributions reports for every row one column per feature group, and the prediction is obtained from the prior by combining exactly these contributions in link space (the product with the global scale for multiplicative models; in the price model the contributions of the external groups multiply the prior exponent of the price effect).", "quantifier": "all models, all data sets, all feature-group names", "why_tests_cant": "Must hold for every row, every model and every naming of the columns.", "anchors": ["cyclic_boosting/base.py: CyclicBoostingBase.get_feature_contributions", "cyclic_boosting/base.py: CyclicBoostingBase.predict_extended"]}
{"id": "C51", "title": "Adaptive bins are as fine as the requested number allows", "statement": "Each boundary of the binning of a continuous column is the first training value whose cumulative probability reaches the one its bin aims at (the next multiple of 1/n_bins, or one share further when the previous boundary overshot by more than the tolerance); only the last boundary may be the maximum instead. So every bin but the last exceeds 1/n_bins by at most the probability of a single value.", "quantifier": "all value/cdf sequences and all parameters as in C06", "why_tests_cant": "A continuum of distributions; a coarser binning passes every test that only looks at order and minimum weight.", "anchors": ["cyclic_boosting/binning/ecdf_transformer.py: reduce_cdf_and_boundaries_to_nbins"]}
{"id": "C52", "title": "Baseline prediction", "statement": "Without feature contributions the model predicts the weighted mean of the training target plus 0.001; with a prior prediction column it predicts the prior scaled (in link space shifted) such that the weighted mean of the prior maps to that value, and the baseline for rows whose prior is not usable; if the mean prior itself has no finite link, the prior is announced to be ignored (no individualisation). The baseline is finite for every valid target and set of weights.", "quantifier": "all targets, weights and prior columns", "why_tests_cant": "Must hold for all data; the extreme targets are rarely tested.", "anchors": ["cyclic_boosting/base.py: CyclicBoostingBase._init_global_scale", "cyclic_boosting/base.py: CyclicBoostingBase._get_prior_predictions"]}
{"id": "C53", "title": "Classifier bin estimates match two quantiles of the Beta posterior", "statement": "For every bin (also an empty one) the classifier's value and uncertainty in link space are finite, the uncertainty is positive, and the Gaussian they define agrees with the Beta posterior of the bin (boosting-weighted hits and misses plus prior) at two quantiles half a unit of probability apart, kept away from 0 and 1 and shifted away from the crowded side; a bin without rows is neutral.", "quantifier": "all 0/1 targets, non-negative weights, predictions, binnings", "why_tests_cant": "Continuum of posteriors including extreme ones.", "anchors": ["cyclic_boosting/classification.py: CBClassifier.calc_parameters", "cyclic_boosting/base.py: gaussian_matching_by_quantiles"]}
{"id": "C54", "title": "Location-model bin estimates are finite", "statement": "For every real target and non-negative weights the location regressors return a finite summand with positive uncertainty for each bin: the regularised weighted mean residual, never larger in absolute value than the largest residual of the bin, and zero for a bin without rows.", "quantifier": "all targets, weights with positive total, predictions, binnings", "why_tests_cant": "Degenerate bins and targets are a corner of a continuum.", "anchors": ["cyclic_boosting/location.py: CBLocationRegressor.calc_parameters", "cyclic_boosting/location.py: CBLocPoissonRegressor.calc_parameters"]}
{"id": "C55", "title": "The location model leaves the mean prediction at the baseline", "statement": "After training the location regressor the weighted mean of the in-sample predictions equals that of the prior predictions (the weighted mean target plus 0.001 without prior column), and the summands of each feature group average to zero over the training data, whatever the number of iterations, smoothers, learning rate, aggregation mode or divergence.", "quantifier": "all training histories", "why_tests_cant": "All histories of the training loop.", "anchors": ["cyclic_boosting/location.py: CBLocationRegressor.calibrate_to_weighted_mean", "cyclic_boosting/base.py: CyclicBoostingBase._fit_main"]}
{"id": "C56", "title": "Regularisation to the neighbouring bins is a shrinkage", "statement": "For an ordered feature each bin is pulled towards the weighted mean of the bin and its two neighbours: the result lies between the bin's value and that mean, inside the range of the neighbouring values, and is the mean itself for a bin without usable uncertainty; constant values are unchanged (as with the regularisation to the overall mean).", "quantifier": "all profiles of any length, all uncertainties", "why_tests_cant": "Continuum of profiles; locally constant profiles are easily missed.", "anchors": ["cyclic_boosting/utils.py: regularize_to_error_weighted_mean_neighbors", "cyclic_boosting/smoothing/onedim.py: WeightedMeanSmootherNeighbors"]}
{"id": "C57", "title": "Features can be addressed by name, group or identifier", "statement": "Looking up a feature by its column, its tuple of columns, the one-element tuple or its feature identifier returns the feature of exactly that group, whatever the order of the groups, and raises KeyError for anything else.", "quantifier": "all feature lists with distinct groups, all keys", "why_tests_cant": "All lists of groups and all forms of keys.", "anchors": ["cyclic_boosting/features.py: FeatureList.__getitem__", "cyclic_boosting/features.py: create_feature_id"]}
{"id": "C58", "title": "Normalised smoothing is shift equivariant", "statement": "A normalising smoother hands its inner smoother targets with weighted mean zero and adds the mean back: adding a constant to all bin values adds it to every smoothed value; without any weight the inner smoother is used as it is. The combined normalisation and regression-type wrapper equals the two wrappers composed.", "quantifier": "all inner smoothers, bins, weights and constants", "why_tests_cant": "Quantifies over arbitrary smoothers.", "anchors": ["cyclic_boosting/smoothing/meta_smoother.py: NormalizationSmoother", "cyclic_boosting/smoothing/meta_smoother.py: NormalizationRegressionTypeSmoother"]}
{"id": "C59", "title": "Regression types decide exactly where a smoother is trusted", "statement": "Extrapolating smoothers are used everywhere; interpolating ones exactly between bin 0 and half a bin above the last training bin in every dimension; discontinuous ones exactly in the bins that had training weight. Elsewhere the result is missing (neutral).", "quantifier": "all inner smoothers, shapes of bins, weights and queries", "why_tests_cant": "All shapes and queries, with arbitrary smoothers inside.", "anchors": ["cyclic_boosting/smoothing/meta_smoother.py: RegressionType", "cyclic_boosting/smoothing/meta_smoother.py: RegressionTypeSmoother"]}
{"id": "C60", "title": "Section smoothing keeps its two sections apart", "statement": "The section smoother predicts each row by the smoother of its section, fitted to exactly the training rows of that section; rows of the other section have no effect, and a section without training rows yields the requested nan_representation.", "quantifier": "all split points, smoothers, training rows and queries", "why_tests_cant": "Non-interference over all data of the other section.", "anchors": ["cyclic_boosting/smoothing/meta_smoother.py: SectionSmoother"]}
{"id": "C61", "title": "Group-by smoothing keeps the groups apart", "statement": "The group-by smoother predicts each row by a smoother fitted to exactly the training rows of its group; other groups have no effect; unknown groups (and, in the cyclic-boosting version, groups without weight) give missing values.", "quantifier": "all groupings, smoothers, training rows and queries", "why_tests_cant": "Non-interference over all data of the other groups.", "anchors": ["cyclic_boosting/smoothing/multidim.py: GroupBySmoother", "cyclic_boosting/smoothing/multidim.py: GroupBySmootherCB"]}
{"id": "C62", "title": "Seasonal smoothing is periodic over the bins", "statement": "The seasonal smoothers predict a curve whose period is the number of training bins; with the offset set to zero the predictions of one period add up to zero; targets on a seasonal curve of the order are reproduced at their bins; when the fit is impossible or does not converge, the fallback value is predicted everywhere.", "quantifier": "all orders, bins, targets, uncertainties and queries; any curve fit meeting scipy's contract", "why_tests_cant": "All numbers of bins and targets, and every outcome of the external fit.", "anchors": ["cyclic_boosting/smoothing/onedim.py: SeasonalSmoother", "cyclic_boosting/smoothing/onedim.py: SeasonalLassoSmoother"]}
{"id": "C63", "title": "Polynomial and linear smoothers are weighted least-squares fits", "statement": "The polynomial smoother of degree k predicts the polynomial of degree k that minimises the squared residuals weighted with the inverse squared uncertainty; targets on such a polynomial are reproduced. A linear smoother with fallback_when_negative_slope never predicts a decreasing line.", "quantifier": "all degrees, distinct bin centres, targets and positive uncertainties", "why_tests_cant": "Optimality over all competing polynomials.", "anchors": ["cyclic_boosting/smoothing/onedim.py: PolynomialSmoother", "cyclic_boosting/smoothing/onedim.py: LinearSmoother"]}
{"id": "C64", "title": "The orthogonal-polynomial smoother is a weighted least-squares fit of adaptive degree", "statement": "The orthogonal-polynomial smoother predicts the weighted least-squares polynomial (weights inverse squared uncertainty) with the number of coefficients given by the documented significance rule, continued constantly outside the range of the training bins; missing values stay missing.", "quantifier": "all numbers of distinct bin centres, targets, positive uncertainties and queries", "why_tests_cant": "Optimality over all competing polynomials, for a recursion that never forms the polynomial.", "anchors": ["cyclic_boosting/smoothing/orthofit.py: fit_orthogonal_poly_", "cyclic_boosting/smoothing/orthofit.py: significant_parameters_", "cyclic_boosting/smoothing/orthofit.py: cy_apply_orthogonal_poly_fit_equidistant", "cyclic_boosting/smoothing/onedim.py: OrthogonalPolynomialSmoother"]}
{"id": "C65", "title": "The quantile regressor chain inverts its own transformations", "statement": "If an estimator of the chained quantile regression reproduces the targets it was trained on, the predicted quantile reproduces the original target of that row: the target transformation used in training is undone in prediction, for the median, the lower and the upper quantile.", "quantifier": "all targets within the bounds, all estimators that reproduce their training targets, both bound modes", "why_tests_cant": "Relates two separately written code paths (fit and predict) for all data and arbitrary estimators.", "anchors": ["cyclic_boosting/quantile_matching.py: QPD_RegressorChain.fit", "cyclic_boosting/quantile_matching.py: QPD_RegressorChain.predict"]}
{"id": "C66", "title": "The density of the sinh-logistic distribution is the derivative of its cdf", "statement": "The density of the base distribution with a shape parameter equals the derivative of its cumulative distribution function at every point and for every shape.", "quantifier": "all shapes and all real arguments", "why_tests_cant": "A derivative at every point cannot be tested.", "anchors": ["cyclic_boosting/quantile_matching.py: SinhLogistic"]}
{"id": "C67", "title": "The price model's Newton step uses the exact derivatives of the penalised loss", "statement": "For every bin with data and every positive parameter, gradient and curvature returned by the Newton step are the first and second derivative of the documented objective: squared errors over variance plus the mean penalty for leaving the prior exponent; the proposed parameter is l - gradient/curvature. In training the objective of a bin is the weighted squared error of the predictions of its rows, relative to the variance a*p + c*p*p of the present prediction p, plus that penalty, as a function of the factor on the exponents; rows without a price count for the penalty only.", "quantifier": "all rows, priors, variances, bins and positive parameters", "why_tests_cant": "Derivatives at every point, for sums over arbitrarily many rows.", "anchors": ["cyclic_boosting/price.py: newton_step"]}
{"id": "C68", "title": "Price model predictions have the documented exponential form", "statement": "The price model predicts exp(prior + standard contributions + prior exponent * exp(external contributions) * (x - 1)) for external value x, in any order of the features. A missing external value, and the value one, leave exactly the standard prediction. With a negative prior exponent (the default) predictions strictly decrease with the external value, with a positive one they increase.", "quantifier": "all priors, contributions, feature orders and external values; all trained models and data sets, raising the price of any one row", "why_tests_cant": "Strict monotonicity for all fitted contributions.", "anchors": ["cyclic_boosting/price.py: CBLinkPredictions", "cyclic_boosting/price.py: CBExponential.predict_extended", "cyclic_boosting/price.py: CBExponential._init_external_column"]}
{"id": "C69", "title": "Standard and external feature groups are combined without mixing them up", "statement": "The price model's list of features holds the standard groups in their order followed by the external ones, each typed accordingly; a group given with the wrong type is rejected.", "quantifier": "all lists of feature groups", "why_tests_cant": "All lists and all ways of writing a group.", "anchors": ["cyclic_boosting/price.py: combine_lists_of_feature_groups", "cyclic_boosting/price.py: _check_feature_groups"]}
{"id": "C70", "title": "The column of an interaction term distinguishes exactly the combinations of bins", "statement": "In the column built for an interaction term two rows get the same number if and only if they lie in the same bin of every feature of the term, or both lack a value of one of its features.", "quantifier": "all binned frames, all terms, all pairs of rows", "why_tests_cant": "Collisions depend on the bin numbers that occur in the data; a test has a few combinations only.", "anchors": ["cyclic_boosting/interaction_selection.py: build_binned_interaction_features", "cyclic_boosting/utils.py: multidim_binnos_to_lexicographic_binnos"]}
{"id": "C71", "title": "Interaction selection returns the best scored terms", "statement": "Selecting the k best interaction terms returns k of the candidate terms (all of them if there are fewer) in candidate order, and no term that is left out has a higher score than a selected one; terms without a score come last.", "quantifier": "all frames, feature lists, orders, numbers k and score functions with values that are missing or not negative", "why_tests_cant": "Ties, missing scores and k beyond the number of candidates are rarely covered by test data.", "anchors": ["cyclic_boosting/interaction_selection.py: select_interaction_terms_anova"]}
{"id": "C72", "title": "The dispersion step picks the best of a symmetric grid and never increases the loss", "statement": "When fitting the dispersion of negative binomial distributions, each bin of a feature gets the change of the (link space) prediction with the smallest penalised negative log-likelihood of its rows among a grid that contains no change, is symmetric and shrinks with the iterations; so the step does not increase the loss. With the Bayesian average the change stays in the range of the grid. Bins without data stay neutral. The reported uncertainty of a bin is one over the root of the number of its rows.", "quantifier": "all rows, bins, penalties, iterations and step numbers; any log-gamma function", "why_tests_cant": "Optimality and absence of increase over all data sets.", "anchors": ["cyclic_boosting/nbinom.py: CBNBinomC.calc_parameters", "cyclic_boosting/nbinom.py: get_new_c_link_for_iteration", "cyclic_boosting/nbinom.py: calc_parameters_nbinom_c", "cyclic_boosting/nbinom.py: bayes_result"]}
{"id": "C73", "title": "The dispersion model describes a negative binomial distribution with the predicted mean and variance mu + c mu^2", "statement": "For each row the parameters n and p used in the loss are valid and belong to the negative binomial distribution with the given mean prediction and variance mu + c mu^2 (numerically kept slightly above mu), and the loss is its negative log-likelihood plus the penalty on c; rows without finite likelihood count with a fixed large value. The reported loss is the mean of these losses.", "quantifier": "all mean predictions and dispersions", "why_tests_cant": "An identity between moments for all real parameters.", "anchors": ["cyclic_boosting/nbinom.py: binned_loss_nbinom_c", "cyclic_boosting/nbinom.py: loss_nbinom_c", "cyclic_boosting/nbinom.py: nbinom_log_pmf"]}
{"id": "C74", "title": "Background subtraction regression shrinks the mean residual towards zero", "statement": "In background subtraction regression the baseline is the constant with the smallest weighted squared error, and the estimate of a bin is the weighted mean residual of its rows shrunk towards zero, the more the larger regalpha; regalpha = 0 means no shrinkage; it minimises a penalised squared error, so applying it never increases the squared error of the bin. Fitting finite data gives finite results.", "quantifier": "all targets, non-negative weights, predictions, bins and non-negative regalpha", "why_tests_cant": "Optimality among all values, for all data.", "anchors": ["cyclic_boosting/GBSregression.py: CBGBSRegressor.calc_parameters", "cyclic_boosting/GBSregression.py: CBGBSRegressor.loss"]}
{"id": "C75", "title": "Uncertainties of loss-minimising modes are positive and finite and shrink with evidence", "statement": "For the modes that minimise a general loss, the uncertainty handed to the smoothers is a finite positive number for every bin, with or without rows; in the multiplicative mode further rows never increase it and it equals that of the Poisson mode; in the classification mode it equals that of the classifier for the same evidence.", "quantifier": "all targets in range and non-negative weights; any Beta quantile function and inverse error function with their monotonicity", "why_tests_cant": "All data, including empty and weightless bins.", "anchors": ["cyclic_boosting/generic_loss.py: uncertainty_gamma", "cyclic_boosting/generic_loss.py: uncertainty_gaussian", "cyclic_boosting/generic_loss.py: uncertainty_beta"]}
{"id": "C76", "title": "fit rejects targets outside the documented range and empty data", "statement": "Each estimator accepts exactly the targets in its documented range (0 <= y < infinity for multiplicative modes, finite for additive ones, 0 or 1 for classification) and rejects NaN, infinite and other targets, and empty data or targets, with a ValueError before any computation.", "quantifier": "all estimators, targets and data lengths", "why_tests_cant": "All targets incl. NaN and infinities, for every estimator.", "anchors": ["cyclic_boosting/base.py: CyclicBoostingBase._check_len_data", "cyclic_boosting/base.py: CyclicBoostingBase._init_fit", "cyclic_boosting/generic_loss.py: check_y_multiplicative", "cyclic_boosting/generic_loss.py: check_y_additive", "cyclic_boosting/generic_loss.py: check_y_classification"]}
{"id": "C77", "title": "Quantile regression starts from the training quantile", "statement": "Without feature contributions quantile regression predicts the requested quantile of the training target, and this starting point is finite for every accepted target.", "quantifier": "all targets, weights and quantiles", "why_tests_cant": "All data sets, in particular those where the quantile is on the edge of the range of the link.", "anchors": ["cyclic_boosting/generic_loss.py: CBQuantileRegressor.quantile_global_scale", "cyclic_boosting/generic_loss.py: CBQuantileRegressor._init_global_scale"]}
{"id": "C78", "title": "Binning a data frame keeps its shape and touches only the declared columns", "statement": "The binner returns a table with the same columns, rows and index; every declared feature column is the binned version of that column alone, every other column is unchanged; a table is accepted exactly if it has the declared columns; each row's result does not depend on the other rows; without the in-place option the caller's table is unchanged. The same holds for the conversion to empirical quantiles.", "quantifier": "all tables, column names, feature declarations and fitted binners", "why_tests_cant": "All tables and all column layouts, including failures in the middle of a table.", "anchors": ["cyclic_boosting/binning/bin_number_transformer.py: BinNumberTransformer.fit", "cyclic_boosting/binning/bin_number_transformer.py: BinNumberTransformer.transform", "cyclic_boosting/binning/ecdf_transformer.py: ECDFTransformer.transform"]}
{"id": "C79", "title": "fit_transform and transform add exactly the prediction column", "statement": "fit_transform and transform return the caller's frame with the predictions appended under the output column's name and all other columns unchanged; they fail without any change if no output column is defined or it already exists; fit_transform yields the same column as fit followed by transform.", "quantifier": "all estimators, frames, targets and learners", "why_tests_cant": "All frames and column names, for every estimator class.", "anchors": ["cyclic_boosting/base.py: CyclicBoostingBase.fit_transform", "cyclic_boosting/base.py: CyclicBoostingBase.transform", "cyclic_boosting/classification.py: CBClassifier.predict", "cyclic_boosting/location.py: CBLocPoissonRegressor.predict", "cyclic_boosting/nbinom.py: CBNBinomC.fit"]}
{"id": "C80", "title": "required_columns lists what fit and predict need", "statement": "fit and predict give the same result if the frame is reduced to the columns reported by required_columns, and fit fails if one of them is missing.", "quantifier": "all estimators with given feature groups and all frames", "why_tests_cant": "All frames and subsets of their columns.", "anchors": ["cyclic_boosting/base.py: CyclicBoostingBase.required_columns", "cyclic_boosting/price.py: CBExponential.required_columns"]}
{"id": "C81", "title": "Predicting before fitting is refused", "statement": "predict on an estimator that has not been fitted raises the documented not-fitted error, for every frame.", "quantifier": "all unfitted estimators and frames", "why_tests_cant": "All configurations of an unfitted estimator.", "anchors": ["cyclic_boosting/base.py: CyclicBoostingBase._check_fitted", "cyclic_boosting/base.py: CyclicBoostingBase.predict_extended"]}
{"id": "C82", "title": "fit and predict leave the caller's data unchanged", "statement": "After fit and predict the caller's frame has the same columns with the same values, whether they succeed or fail.", "quantifier": "all estimators and frames", "why_tests_cant": "All frames, including failing calls.", "anchors": ["cyclic_boosting/base.py: CyclicBoostingBase.fit", "cyclic_boosting/base.py: CyclicBoostingBase.predict", "cyclic_boosting/nbinom.py: CBNBinomC._get_prior_predictions"]}
{"id": "C83", "title": "Monotonic features keep their direction", "statement": "A column flagged as monotonic is smoothed by the best monotone fit to its bin estimates (least squares weighted with inverse variances), so that a column flagged as increasing (decreasing) has contributions that never fall (rise) from bin to bin after training, and a column without a given direction has contributions that are monotone in one direction.", "quantifier": "all estimators, losses, data, numbers of iterations and calibrations with non-negative learning rates; all columns flagged IS_MONOTONIC and not linear or seasonal, without explicit smoother", "why_tests_cant": "The order of the learned contributions has to hold for every data set and every history of the training, including divergence and clipping; the optimality is over all monotone sequences.", "anchors": ["cyclic_boosting/smoothing/onedim.py: IsotonicRegressor", "cyclic_boosting/common_smoothers.py: SmootherChoice.get_onedim_smoother", "cyclic_boosting/base.py: CyclicBoostingBase.visit_factors", "cyclic_boosting/features.py: Feature.update_factors"]}
{"id": "C84", "title": "The order of the training rows does not matter", "statement": "Training on the same rows in another order gives the same model (global scale, contributions, number of iterations, loss), for all estimators that estimate bin by bin, for quantile regression, user-supplied costs that treat rows alike, the dispersion estimator and the price model, with or without weights, prior predictions, hierarchical groups and missing values. The same holds for a whole pipeline, with the binning fitted on the shuffled data frame: all later predictions are the same.", "quantifier": "all data sets, permutations, estimators, pipelines, feature groups, smoothers on bin level, stopping criteria and learning rates; real arithmetic", "why_tests_cant": "All data sets and all their permutations, over whole training histories.", "anchors": ["cyclic_boosting/base.py: CyclicBoostingBase._fit_main", "cyclic_boosting/regression.py: CBBaseRegressor.calc_parameters", "cyclic_boosting/classification.py: CBClassifier.calc_parameters", "cyclic_boosting/location.py: CBLocationRegressor.calc_parameters", "cyclic_boosting/GBSregression.py: CBGBSRegressor.calc_parameters", "cyclic_boosting/generic_loss.py: CBGenericLoss.calc_parameters", "cyclic_boosting/nbinom.py: CBNBinomC.calc_parameters", "cyclic_boosting/price.py: CBExponential.calc_parameters"]}
{"id": "C85", "title": "Weights act as multiplicities", "statement": "A training row with weight n has the same effect as n copies of it with weight one; dividing the weight of a row among copies and removing rows of weight zero (in bins that occur otherwise) does not change the trained model.", "quantifier": "all data sets, divisions of weights, estimators, feature groups and settings", "why_tests_cant": "All data sets and all ways to split weights, over whole training histories.", "anchors": ["cyclic_boosting/base.py: CyclicBoostingBase._init_weight_column", "cyclic_boosting/base.py: CyclicBoostingBase._fit_main", "cyclic_boosting/location.py: CBLocationRegressor.calc_parameters", "cyclic_boosting/generic_loss.py: quantile_global_scale", "cyclic_boosting/nbinom.py: CBNBinomC.calc_parameters"]}
{"id": "C86", "title": "The location regressor moves with the target", "statement": "Adding a constant to all training targets adds exactly this constant to all predictions of the additive location regressor (also with a prior prediction column) and changes neither the contributions, nor the number of iterations, nor the loss, nor whether and how the training fails.", "quantifier": "all data sets, constants, feature groups, smoothers, settings and rows to predict", "why_tests_cant": "All data sets and constants, over whole training histories.", "anchors": ["cyclic_boosting/location.py: CBLocationRegressor", "cyclic_boosting/base.py: CyclicBoostingBase._init_global_scale", "cyclic_boosting/base.py: CyclicBoostingBase._fit_main"]}
{"id": "C87", "title": "The numbers of the categories do not matter", "statement": "For columns with unordered categories, renumbering the categories in the training data and in the rows to predict changes, with the smoothers chosen by default, no prediction, no baseline, no loss and no number of iterations; rows with missing or unknown categories included.", "quantifier": "all data sets, permutations of the category numbers of all columns of all feature groups, estimators, settings, and rows to predict; default smoothers, and explicit ones that treat all bins alike or all but the first (then for permutations that keep the first category)", "why_tests_cant": "All data sets and all permutations, over whole training histories.", "anchors": ["cyclic_boosting/utils.py: multidim_binnos_to_lexicographic_binnos", "cyclic_boosting/utils.py: regularize_to_error_weighted_mean", "cyclic_boosting/smoothing/onedim.py: WeightedMeanSmoother", "cyclic_boosting/base.py: CyclicBoostingBase._fit_main", "cyclic_boosting/base.py: CyclicBoostingBase.predict"]}
{"id": "C88", "title": "A clone has the settings of the original and shares nothing with it", "statement": "clone(estimator) gives an estimator of the same class with the settings the original was given, fitted or not, which has learned nothing and has no mutable object in common with the original except those that the class declares as shared (feature_properties); nested estimators and collections of them are cloned likewise; other objects are rejected.", "quantifier": "all estimators, settings, nestings of estimators, collections and other objects, before and after training", "why_tests_cant": "Holds over all object graphs and all combinations of settings.", "anchors": ["cyclic_boosting/utils.py: clone", "cyclic_boosting/base.py: CyclicBoostingBase.__init__", "cyclic_boosting/base.py: CyclicBoostingBase._init_fit", "cyclic_boosting/price.py: CBExponential.__init__"]}
{"id": "C89", "title": "Settings changed after construction act as settings given to the constructor", "statement": "set_params(name=value) on an estimator has the same effect on training and prediction as passing the value to the constructor; settings left out have their documented defaults.", "quantifier": "all estimators, settings, values and other settings", "why_tests_cant": "Holds over all combinations of estimators and settings; set_params is what parameter searches rely on.", "anchors": ["cyclic_boosting/base.py: CyclicBoostingBase.__init__", "cyclic_boosting/base.py: CyclicBoostingBase._fit_main", "cyclic_boosting/price.py: CBExponential.__init__"]}
{"id": "C90", "title": "Features do not share smoothers", "statement": "Every feature group is trained with a smoother object of its own, with the chosen settings and nothing learned before, even if the same smoother object is chosen (or passed by the user) for several groups; training changes neither the smoothers of other groups nor those of the user.", "quantifier": "all smoother choices, numbers of features, nested (meta) smoothers and states learned", "why_tests_cant": "A shared object would leak the state of one feature into another; must hold for all object graphs.", "anchors": ["cyclic_boosting/features.py: create_features", "cyclic_boosting/utils.py: clone"]}
{"id": "C91", "title": "The diagram of predictions against targets shows what it says", "statement": "calc_in_sample_histograms splits the range of the predictions into 100 equal parts and gives, for every part with rows and in ascending order, the weighted mean (or the requested weighted quantile) of the targets of exactly the rows predicted there, the middle of the part, the weight (the number of rows if all weights are equal), and the distances from the median to the 1 and 2 sigma quantiles, which enclose it; the lists have equal lengths. Errors are left out for targets 0/1 and for quantiles.", "quantifier": "all targets, predictions, weights and quantile levels", "why_tests_cant": "Boundaries of parts, ties and empty parts occur for specific data only; must hold for all data.", "anchors": ["cyclic_boosting/observers.py: calc_in_sample_histograms", "cyclic_boosting/utils.py: calc_linear_bins", "cyclic_boosting/utils.py: digitize", "cyclic_boosting/utils.py: calc_means_medians"]}
{"id": "C92", "title": "Smeared cdf values of a correct discrete distribution are uniform", "statement": "For a sample of a discrete random variable with the given cdf, smear_discrete_cdftruth is distributed uniformly on [0, 1], so that the histogram used for checking predicted distributions is flat; the value lies between the cdf of the sample and the cdf of the number before.", "quantifier": "all discrete distributions, samples and thresholds", "why_tests_cant": "A statement on the exact distribution of a random result, which samples cannot settle.", "anchors": ["cyclic_boosting/utils.py: smear_discrete_cdftruth", "cyclic_boosting/utils.py: smear_discrete_cdftruth_qpd"]}
{"id": "C93", "title": "Saving and loading a smoother does not change it", "statement": "A smoother with saved bin values that is pickled and loaded (or deep-copied, as plotting observers do) has the attributes of the original, bin by bin, NaN and zeros included; saving does not change the original; only entries other than zero are stored.", "quantifier": "all bin values, weights, numbers of bins and other attributes, fitted or not", "why_tests_cant": "Must hold for every array of bin values, with zeros and NaN anywhere.", "anchors": ["cyclic_boosting/smoothing/onedim.py: BinValuesSmoother.__getstate__", "cyclic_boosting/smoothing/multidim.py: BinValuesSmoother.__setstate__"]}
{"id": "C94", "title": "A plotting observer records every iteration once and keeps the requested state", "statement": "A PlottingObserver() passed to a training records the loss at the start and after every iteration and the change of the factors in every iteration, in order and once each, and keeps the final state; PlottingObserver(iteration=m) keeps the state after iteration m (documented: after the given iteration has been calculated) and the records up to it.", "quantifier": "all data, settings, numbers of iterations, divergences and requested iterations", "why_tests_cant": "The number of iterations and the way a training ends depend on data and settings.", "anchors": ["cyclic_boosting/observers.py: PlottingObserver", "cyclic_boosting/base.py: CyclicBoostingBase._fit_main"]}
{"id": "C95", "title": "A failed training leaves no half-trained model", "statement": "If fit raises, whatever the reason and wherever in the training it happens (in the checks of the data, the creation of the features, the global scale, the estimates of some feature in some iteration, or the detection of divergence), then predicting afterwards either raises an exception or gives the predictions of the model the estimator had before. A training that succeeds leaves exactly the trained model.", "quantifier": "all estimators, former models, data, feature estimates, smoothers and points of failure", "why_tests_cant": "The point of failure ranges over all iterations and features of all trainings; tests only exercise failures of the initial checks.", "anchors": ["cyclic_boosting/base.py:_fit_main", "cyclic_boosting/base.py:_init_fit", "cyclic_boosting/base.py:_predict_factors", "cyclic_boosting/base.py:_check_convergence", "cyclic_boosting/features.py:update_factors"]}
{"id": "C96", "title": "Data for plots match the bins of the features", "statement": "After training, the data that observers get for each feature group have one entry for each bin of the group and for missing values. The deviation shown for a bin is positive if the model predicts too much there (weighted sum of predictions above that of the targets; for quantile estimators mean prediction above the quantile of the targets), negative if it predicts too little, and zero if both agree or the bin has no rows; of two bins of the same weight the one with larger targets (predictions) shows the higher level of targets (predictions); a bin without rows shows levels equal to the overall level.", "quantifier": "all links, feature groups, rows, weights, targets and predictions", "why_tests_cant": "Depends on which of all combinations of bins are empty; plots are only inspected by eye.", "anchors": ["cyclic_boosting/base.py:prepare_plots", "cyclic_boosting/generic_loss.py:prepare_plots", "cyclic_boosting/plots/_2dplots.py:plot_factor_2d"]}
{"id": "C97", "title": "Predictions lie in the range of the target", "statement": "predict returns one value per row, and for every trained model and every data set, with missing or unseen values and with or without a prior prediction column, these values are positive for the multiplicative regressors, not negative for the Poisson location regressor and strictly between 0 and 1 for classifiers and for predicted dispersions.", "quantifier": "all models, data sets, prior prediction columns (also with values outside the range) and estimators of regression, classification, location and GBS regression, of the loss-minimising modes, of prices and of dispersions", "why_tests_cant": "Has to hold for every model that any training can produce and for every row.", "anchors": ["cyclic_boosting/base.py: CyclicBoostingBase.predict", "cyclic_boosting/base.py: CyclicBoostingBase._get_prior_predictions", "cyclic_boosting/link.py", "cyclic_boosting/generic_loss.py", "cyclic_boosting/nbinom.py: CBNBinomC.predict", "cyclic_boosting/price.py: CBExponential.predict"]}
{"id": "C98", "title": "Predicted dispersions start from the prior", "statement": "The dispersion estimator multiplies the odds c/(1-c) of the prior dispersion of a row by the contributions of its features: without learned contributions it returns the prior, and a larger prior gives a larger prediction. Rows without a prior start from one half.", "quantifier": "all training data, settings, rows to predict and priors in [0, 1] or missing", "why_tests_cant": "Has to hold for every trained model and every prior, including the ends of the interval.", "anchors": ["cyclic_boosting/nbinom.py: CBNBinomC._get_prior_predictions", "cyclic_boosting/nbinom.py: CBNBinomC._init_global_scale", "cyclic_boosting/link.py: LogitLinkMixin"]}
{"id": "C99", "title": "Without prices the price model is the negative binomial model", "statement": "If there are no external feature groups and the price of every row is missing or one, the price model trains to the same model as the negative binomial regressor with the same settings (or fails in the same way), and predicts the same values.", "quantifier": "all data sets, standard feature groups, variance parameters, prior predictions, stopping criteria and learning rates, and all lengths of training", "why_tests_cant": "Two implementations have to agree over whole training histories.", "anchors": ["cyclic_boosting/price.py: CBExponential.calc_parameters", "cyclic_boosting/price.py: CBExponential.fit", "cyclic_boosting/price.py: CBLinkPredictions", "cyclic_boosting/regression.py: CBNBinomRegressor.calc_parameters"]}
{"id": "C100", "title": "Training again forgets the earlier training", "statement": "After any sequence of trainings of an estimator, successful or not, fit on new data gives the same outcome, model, predictions, feature importances and observer records as fit of a newly constructed estimator with the same settings.", "quantifier": "all estimators, settings, histories of data sets and trainings, including failed ones, and all new data sets", "why_tests_cant": "Histories of calls of any length; tests fit an estimator once.", "anchors": ["cyclic_boosting/base.py: CyclicBoostingBase.fit", "cyclic_boosting/base.py: CyclicBoostingBase._init_fit", "cyclic_boosting/base.py: CyclicBoostingBase._fit_main", "cyclic_boosting/base.py: CyclicBoostingBase.set_feature_importances", "cyclic_boosting/observers.py: PlottingObserver"]}
{"id": "C101", "title": "The order of the columns does not matter", "statement": "Training and prediction with a data frame do not depend on the order of its columns.", "quantifier": "all data frames with distinct column names, all reorderings of the columns, estimators and settings", "why_tests_cant": "All permutations of all frames.", "anchors": ["cyclic_boosting/base.py: CyclicBoostingBase._init_default_feature_groups", "cyclic_boosting/utils.py: get_X_column", "cyclic_boosting/base.py: CyclicBoostingBase.fit"]}
{"id": "C102", "title": "Pipelines use the caller's weights and prior predictions", "statement": "A pipeline trains and predicts with the weights and the prior predictions of the caller's data frame, as the estimator alone does on the binned features.", "quantifier": "all data frames, weight and prior prediction columns, numbers of bins, feature properties, estimators and settings", "why_tests_cant": "Compares whole trainings of the pipeline and of the estimator on every data set.", "anchors": ["cyclic_boosting/pipelines.py: _pipeline_cb", "cyclic_boosting/binning/bin_transformers.py: BinNumberTransformer.get_feature_cols", "cyclic_boosting/base.py: CyclicBoostingBase._init_weights", "cyclic_boosting/base.py: CyclicBoostingBase._get_prior_predictions"]}
{"id": "C103", "title": "The unit of a continuous column does not matter", "statement": "If a continuous column is given in another unit and with another zero, in training and in prediction, the pipeline trains to the same estimator (or fails in the same way) and predicts the same values.", "quantifier": "all data frames, continuous columns with at most 10^8 bins, positive factors and offsets, estimators and settings, in exact arithmetic", "why_tests_cant": "All data sets and all affine maps.", "anchors": ["cyclic_boosting/binning/bin_transformers.py: BinNumberTransformer", "cyclic_boosting/binning/_binning.py", "cyclic_boosting/pipelines.py: _pipeline_cb"]}
{"id": "C104", "title": "Only the order of the values of a column matters", "statement": "A strictly increasing transformation of a continuous column gives the same trained estimator and the same predictions for rows with values that were seen in training or are missing, provided that different values are further apart than 10^-9 of the range, before and after the transformation. A strictly increasing recoding of the categories of a categorical column, too, gives the same trained estimator, whatever its smoothers, and the same predictions for known, new and missing categories.", "quantifier": "all data frames, columns with finite or missing values (continuous ones with at most 10^8 bins; new categories further from the known ones than the search tolerance), strictly increasing transformations, estimators and settings, in exact arithmetic", "why_tests_cant": "All data sets and all monotone maps.", "anchors": ["cyclic_boosting/binning/bin_transformers.py: BinNumberTransformer", "cyclic_boosting/binning/ecdf_transformer.py: ECDFTransformer", "cyclic_boosting/pipelines.py: _pipeline_cb"]}
{"id": "C105", "title": "Predictions of a pipeline are step functions of the row", "statement": "The prediction of a row depends on nothing but the row: not on the other rows, the index, or the order of the columns. As a function of a continuous column it changes at fewer than number_of_bins thresholds, which training fixes, so that rows that differ only in this column get at most number_of_bins + 1 predictions, counting the one for missing values.", "quantifier": "all trained pipelines, frames to predict, rows, and continuous columns with between 2 and 10^8 bins", "why_tests_cant": "All trained models and all values of a real column.", "anchors": ["cyclic_boosting/pipelines.py: _pipeline_cb", "cyclic_boosting/binning/bin_transformers.py: BinNumberTransformer.transform", "cyclic_boosting/base.py: CyclicBoostingBase.predict"]}
{"id": "C106", "title": "Predictions of a pipeline follow the declared direction of a column", "statement": "If a continuous column is declared monotonic and increasing (decreasing), is part of no interaction and is not the prior prediction, then raising its value in a row, and nothing else, never lowers (raises) the prediction of the pipeline, whatever the targets, the other columns and the learning rates, unless a training in log space with aggregation has diverged on the way.", "quantifier": "all pipelines whose smoothers are chosen by the library, training data, rows to predict and pairs of finite values of the column, 2 to 10^8 bins; infinite values in training count as missing and are excluded", "why_tests_cant": "All data sets, including those that contradict the declared direction, and all pairs of values of a real column.", "anchors": ["cyclic_boosting/pipelines.py: _pipeline_cb", "cyclic_boosting/common_smoothers.py: SmootherChoice", "cyclic_boosting/smoothing/onedim.py: IsotonicRegressor", "cyclic_boosting/base.py: CyclicBoostingBase.fit"]}
{"id": "C107", "title": "The reported training loss is the loss of the predictions", "statement": "After a training with aggregation (the default) on binned data, the loss that fit reports for the training data is the loss of predict on the same data: the weighted mean squared deviation for regressors, classifiers and the price model (for the background subtraction, relative to the weight of the rows with non-zero target), the mean costs for quantile regression and for costs given by the user, the negative-binomial loss for the dispersion estimator. In particular predict returns one number per row of the training data.", "quantifier": "all kinds of estimators, data sets with whole bin numbers, weights, prior predictions, feature groups, smoothers, learning rates and stopping criteria with which training succeeds", "why_tests_cant": "fit follows the predictions by adding one feature after the other to a running sum and predict recomputes them from the stored factors; that both agree after every history of iterations is an invariant of the training loop.", "anchors": ["cyclic_boosting/base.py: CyclicBoostingBase.fit", "cyclic_boosting/base.py: CyclicBoostingBase.predict", "cyclic_boosting/base.py: CyclicBoostingBase.predict_extended", "cyclic_boosting/base.py: CyclicBoostingBase.loss"]}
{"id": "C108", "title": "Of prior predictions only the ratios or differences matter", "statement": "In models with log link, multiplying all prior predictions by one positive number, in training and in prediction, changes nothing in the predictions; in models with identity link, adding one number to all of them changes nothing. The training also ends in the same way, with the same error or the same factors. A prior prediction that is the same in all rows has no effect at all, for every link.", "quantifier": "all estimators that take a prior prediction column (regressors, classifiers, quantile regression, costs of the user, price model; not the background subtraction and not the dispersion estimator), all data with a mean prior prediction that has a finite link, all weights, missing or infinite prior predictions in some rows, all smoothers and stopping criteria", "why_tests_cant": "All data sets and all factors; the baseline, the offset and the training loop have to work together.", "anchors": ["cyclic_boosting/base.py: CyclicBoostingBase._init_global_scale", "cyclic_boosting/base.py: CyclicBoostingBase._get_prior_predictions", "cyclic_boosting/base.py: CyclicBoostingBase.predict"]}
{"id": "C109", "title": "The stopping criteria decide nothing but when training stops", "statement": "Two trainings on the same data that differ only in maximal_iterations, minimal_factor_change and minimal_loss_change and need the same number of iterations give the same model. Larger maximal_iterations or smaller minimal changes never lead to fewer iterations. A limit for the iterations that training did not reach can be replaced by any other that it does not exceed, and the number of iterations that training took can be given as limit, without any effect on the model.", "quantifier": "all estimators, data, smoothers and criteria with which training succeeds; all learning rates that do not depend on maximal_iterations (the default without hierarchical feature groups does depend on it; the minimal changes can be varied for every learning rate)", "why_tests_cant": "All histories of iterations, including those that diverge and are taken back and those in which hierarchical groups postpone the stop.", "anchors": ["cyclic_boosting/base.py: CyclicBoostingBase._fit_main", "cyclic_boosting/base.py: CyclicBoostingBase._check_stop_criteria"]}
{"id": "C110", "title": "Mirrored targets give the mirrored model", "statement": "Training an additive model on negated targets (and negated prior predictions) gives the model whose baseline and contributions have the opposite sign, with the same number of iterations and the same loss, and all its predictions are negated; training the classifier with the two classes exchanged gives the complementary probabilities. Nothing in the training prefers one direction of the target.", "quantifier": "all data sets with non-negative weights, feature groups, smoothers that respect the sign (among them the default for categories), stopping criteria, learning rates and rows to predict; real arithmetic", "why_tests_cant": "Two whole training histories have to run in step, for all data; tests train on one sign of the target.", "anchors": ["cyclic_boosting/base.py: CyclicBoostingBase._init_global_scale", "cyclic_boosting/location.py: CBLocationRegressor", "cyclic_boosting/GBSregression.py: CBGBSRegressor", "cyclic_boosting/classification.py: CBClassifier", "cyclic_boosting/utils.py: regularize_to_error_weighted_mean"]}
{"id": "C111", "title": "The codes of the categories in the data frame do not matter", "statement": "Giving the categories of a categorical column other codes, one to one, in the training frame and in the frames to predict, changes nothing in a pipeline: binning and training end with the same error or the same baseline, number of iterations and loss, and all predictions are the same, also for missing values and for categories that did not occur in training. This holds with the smoothers chosen by default and with all that treat the bins of a column alike.", "quantifier": "all pipelines (CBGBSRegressor without prior predictions), data frames, recodings, feature groups (in interactions every category occurs together with known values of the other columns) and frames to predict whose new categories differ from the known ones by more than the search tolerance", "why_tests_cant": "All data sets and all one-to-one recodings; the order of the bins changes with the codes, so every step of binning, training and prediction has to be insensitive to it.", "anchors": ["cyclic_boosting/pipelines.py: _pipeline_cb", "cyclic_boosting/binning/ecdf_transformer.py: ECdfTransformer.fit", "cyclic_boosting/binning/bin_number_transformer.py: BinNumberTransformer.transform", "cyclic_boosting/base.py: CyclicBoostingBase.fit", "cyclic_boosting/utils.py: regularize_to_error_weighted_mean"]}
{"id": "C112", "title": "The fitted shape parameter improves the quantile-parametrised distribution", "statement": "fit_sinhlogistic_shape returns a shape with which the extended Johnson distribution through the three quantiles of the observations is at least as close to their quantile function as with the shapes 0 and 1 from which the search starts. What the search compares are the distributions a user gets by constructing them with the candidate shape. The shape never moves the three quantiles themselves. Only an unknown kind of bound is refused.", "quantifier": "all observations, lower quantiles, bounds and kinds of bound, with any optimiser that does not end at a worse value than its start values", "why_tests_cant": "The search changes two attributes of one object instead of constructing new ones; that nothing else in it depends on the shape has to hold for all data.", "anchors": ["cyclic_boosting/quantile_matching.py: fit_sinhlogistic_shape", "cyclic_boosting/quantile_matching.py: J_QPD_extended_U", "cyclic_boosting/quantile_matching.py: BaseDist"]}
{"id": "C113", "title": "Distributions fitted to quantiles are the closest ones", "statement": "quantile_fit_gaussian returns the Gaussian with the least squared deviation from the given quantiles; it is unique and increasing if the quantile values increase, and quantiles that stem from a Gaussian give back that Gaussian. Quantiles of a gamma distribution lie on the curve of quantile_fit_gamma, points of a negative binomial cdf on that of quantile_fit_nbinom, whose distribution has the fitted mean and variance. The modes ppf, dist and cdf return the same distribution, another mode is refused.", "quantifier": "all lists of quantiles between 0 and 1 and of values, all modes, with any curve_fit that finds the closest parameters when they exist", "why_tests_cant": "All numbers and positions of quantiles; tests compare a few quantiles up to a tolerance.", "anchors": ["cyclic_boosting/quantile_matching.py: quantile_fit_gaussian", "cyclic_boosting/quantile_matching.py: quantile_fit_gamma", "cyclic_boosting/quantile_matching.py: quantile_fit_nbinom"]}
{"id": "C114", "title": "Spline-interpolated quantile functions do not decrease", "statement": "quantile_fit_spline returns a curve that passes through the given quantiles, keeps its boundary values outside of [0, 1] and, like every quantile function, does not decrease when the given values do not.", "quantifier": "all increasing lists of quantiles and all lists of values", "why_tests_cant": "All values; the tests draw from one smooth distribution.", "anchors": ["cyclic_boosting/quantile_matching.py: quantile_fit_spline"]}
{"id": "C115", "title": "The order of the columns within a feature group does not matter", "statement": "Naming the columns of an interaction in another order, such as (b, a) instead of (a, b), changes nothing but names: training ends with the same error or the same baseline, number of iterations and loss, and predictions of all frames are the same. This holds with the smoothers chosen by default for interactions.", "quantifier": "all pipelines and estimators (CBGBSRegressor without prior predictions), data frames, feature groups, permutations of the columns of each group, settings and frames to predict, with smoothers that give a bin the same value whatever the order of the columns", "why_tests_cant": "All data sets and permutations, over whole training histories; the numbering of the bins changes with the order of the columns, and tests do not compare models with reordered groups.", "anchors": ["cyclic_boosting/utils.py: multidim_binnos_to_lexicographic_binnos", "cyclic_boosting/features.py: Feature.bind_data", "cyclic_boosting/base.py: CyclicBoostingBase.fit", "cyclic_boosting/common_smoothers.py: SmootherChoiceWeightedMean.get_raw_smoother", "cyclic_boosting/smoothing/multidim.py: WeightedMeanSmoother"]}
{"id": "C116", "title": "The price model learns exponents only from rows with a price", "statement": "In one step of the training of the price model, for given predictions, the parameters and smoothed values of a feature group with external_feature_groups do not depend on targets and weights of the rows whose value in the external column is missing; a bin of such a group in which no row with a price has a weight gets the neutral parameter one before the gamma prior (as many units expected as observed).", "quantifier": "all training data, predictions, feature groups, smoothers and prior exponents", "why_tests_cant": "All combinations of missing prices with targets, weights and bins; unit tests look at a few rows.", "anchors": ["cyclic_boosting/price.py: CBExponential._init_features, _calc_parameters_exponent, newton_bisect, newton_step", "cyclic_boosting/base.py: CyclicBoostingBase._init_features"]}
{"id": "C117", "title": "In the first iterations hierarchical feature groups are trained as if they were alone", "statement": "With hierarchical feature groups, up to the end of the first training_iterations_hierarchical_features iterations the predictions, the loss, the progress of the training and the parameters of the hierarchical groups are those of a training with these groups alone (same data and settings, same learning rates per group). Conversely, a training of these groups alone is, as long as it does not diverge, the beginning of every training with further groups.", "quantifier": "all estimator kinds, feature groups, data, settings, learning rates and iterations up to training_iterations_hierarchical_features", "why_tests_cant": "Compares two whole histories of training for all data and groups; unit tests look at final models of a few data sets.", "anchors": ["cyclic_boosting/base.py: CyclicBoostingBase._fit_main, cb_features, _check_stop_criteria, remove_preds, _update_loss", "cyclic_boosting/features.py: create_features"]}
{"id": "C118", "title": "Rows of weight zero have no influence on training", "statement": "Removing the rows of weight zero from prepared training data does not change the trained model, the number of iterations, the reported loss or whether and how the training fails, provided that every bin of every feature group occurs in a row with a weight.", "quantifier": "all estimators, feature groups, smoothers, settings, learning rates and data sets", "why_tests_cant": "Whether a row without weight leaks into a mean, a variance, a count or a stop criterion shows only for particular data; all data and all iterations are quantified.", "anchors": ["cyclic_boosting/base.py: CyclicBoostingBase._fit_main, _init_global_scale, _fit_feature, _update_loss", "cyclic_boosting/regression.py", "cyclic_boosting/classification.py", "cyclic_boosting/location.py", "cyclic_boosting/GBSregression.py", "cyclic_boosting/generic_loss.py: CBGenericLoss.calc_parameters", "cyclic_boosting/nbinom.py: CBNBinomC.calc_parameters", "cyclic_boosting/price.py", "cyclic_boosting/utils.py: continuous_quantile_from_discrete_pdf"]}
{"id": "C119", "title": "Observers follow a training without influencing it", "statement": "A training with observers gives the same model, fails in the same way and stops after the same number of iterations as without them. Every observer is called at the start of each iteration, after each feature group trained in it and once at the end, in this order; each call shows the loss of the predictions it shows; while only hierarchical feature groups are trained only these are shown; the last call shows the loss and all parameters of the trained model. What one observer is shown does not depend on the others. Any observer with the documented interface can be used.", "quantifier": "all lists of observers, estimators, feature groups, settings and data sets, all iterations", "why_tests_cant": "Whether an observer changes a training, or misses an iteration, a skipped group or the end, depends on the number of iterations, the hierarchical phase and divergences; tests watch one training.", "anchors": ["cyclic_boosting/base.py: CyclicBoostingBase._call_observe_iterations, _call_observe_feature_iterations, get_state, _fit_main", "cyclic_boosting/generic_loss.py: CBQuantileRegressor._call_observe_iterations", "cyclic_boosting/observers.py: BaseObserver, PlottingObserver"]}
{"id": "C120", "title": "Numbers declared to mean missing are treated like NaN by the binning", "statement": "In a column with HAS_MAGIC_INT_MISSING, where -9 and -999 stand for missing values, writing NaN instead of them in the training data changes no bin of any other value.", "quantifier": "all columns, weights, feature properties, numbers of bins and values", "why_tests_cant": "All combinations of such codes with other values and weights; tests check only that the codes themselves are put in the missing bin.", "anchors": ["cyclic_boosting/binning/ecdf_transformer.py: ECdfTransformer.fit", "cyclic_boosting/binning/bin_number_transformer.py: BinNumberTransformer._transform_one_feature", "cyclic_boosting/flags.py: HAS_MAGIC_INT_MISSING"]}
{"id": "C121", "title": "In a pipeline a row with weight n counts like n rows", "statement": "Training a pipeline on a data frame whose weight column holds whole numbers, and training it on the data frame in which every row is written out as often as its weight says, with weight one and in any order, give the same estimator and the same predictions for every data frame, or fail in the same way.", "quantifier": "all data frames, whole-numbered weights, orders of the copies, feature properties, estimators, settings and data frames to predict", "why_tests_cant": "Weights pass through the binning, the baseline, every bin estimate and the loss; whether all of them count copies the same way depends on the data, on ties and on the bins.", "anchors": ["cyclic_boosting/pipelines.py: pipeline_CB", "cyclic_boosting/binning/bin_number_transformer.py: BinNumberTransformer", "cyclic_boosting/base.py: CyclicBoostingBase._init_weight_column, _fit_main", "cyclic_boosting/regression.py", "cyclic_boosting/classification.py"]}
{"id": "C122", "title": "The boundaries and labels shown for a column describe its bins", "statement": "For a column learned by a binning, get_bin_bounds reports the boundaries learned by the last of the given binnings that knows the column, and nothing if that one found no usable values or none knows it; a binning without a fit is an error. The boundaries describe the bins: a present value of a continuous column is in bin k exactly if, within epsilon, it lies above boundary k (or k is the first bin) and not above boundary k + 1 (or k is the last). Every bin holds a row of the training. On the axis of a plot each bin has one label, the label of a category is its value, and the label of a bin of a continuous column lies in that bin and stands at its factor.", "quantifier": "all binnings, training tables, columns and values; the labels for bins whose centre has at most five decimals or that are wider than about 10^-5", "why_tests_cant": "whether a label falls into its bin depends on the distances of all training values; tests look at a few columns", "anchors": ["cyclic_boosting/utils.py:get_bin_bounds", "cyclic_boosting/binning/bin_number_transformer.py:BinNumberTransformer.get_feature_bin_boundaries", "cyclic_boosting/plots/_1dplots.py:_get_x_axis", "cyclic_boosting/plots/_1dplots.py:_plot_axes"]}
{"id": "C123", "title": "The vertical axis of a factor plot shows what is drawn", "statement": "The plot of the factors of a feature can always be drawn. Its vertical axis contains every factor, smoothed factor, target and prediction of the plot, and with ylimits_include_errors (documented as showing the error bars completely) every error bar. The axis has 12 to 21 ticks at equal distances from one end to the other. The number at a tick is its position up to 0.01, and the numbers increase along the axis.", "quantifier": "all finite factors, smoothed factors, uncertainties, targets and predictions; any number of bins", "why_tests_cant": "Tests look at a few plots with small uncertainties. Whether an error bar is cut off depends on which bin has it and on the relation of the factors to each other, and the number of ticks on the range of the values.", "anchors": ["cyclic_boosting/plots/_1dplots.py:plot_factor_1d", "cyclic_boosting/plots/_1dplots.py:_get_y_axis", "cyclic_boosting/plots/_1dplots.py:_get_optimal_number_of_ticks", "cyclic_boosting/plots/_1dplots.py:_format_tick"]}
{"id": "C124", "title": "Training never makes the background subtraction regressor worse on its training data", "statement": "In a training of the background subtraction regressor the loss on the training data never rises from one pass to the next, training is never ended for divergence, and the predictions of the trained model for the training data deviate from the targets at most as much as the constant baseline does.", "quantifier": "all training data with non-negative weights, numbers of groups and bins, non-negative strengths of the regularisation, learning rates between 0 and 1, numbers of passes, smoothers that move the estimate of a bin only towards 0", "why_tests_cant": "Tests see the course of the loss on single data sets; that no pass of any training raises it needs an argument for all data, and the default smoothing breaks it for special data only.", "anchors": ["cyclic_boosting/GBSregression.py:CBGBSRegressor", "cyclic_boosting/base.py:CyclicBoostingBase._fit_main", "cyclic_boosting/smoothing/onedim.py:WeightedMeanSmoother", "cyclic_boosting/smoothing/onedim.py:BinValuesSmoother"]}
{"id": "C125", "title": "Meta-smoothers: interactions without effects of single columns, prior expectations on top", "statement": "A smoother wrapped into Neutralize2DMetaSmoother is fitted to interactions from which the effects of the single columns have been removed: adding an effect of one of the two columns to the values of the bins does not change its predictions, and these carry no effect of a single column. A smoother wrapped into PriorExpectationMetaSmoother predicts the prior expectation where the inner prediction is not significantly different from it, and otherwise a value between both.", "quantifier": "all feature groups of two columns with any numbers of bins, values, positive uncertainties and inner smoothers", "why_tests_cant": "The tests use equal uncertainties of all bins, for which the removal is exact; correlated columns need an argument for all uncertainties.", "anchors": ["cyclic_boosting/smoothing/multidim.py:Neutralize2DMetaSmoother", "cyclic_boosting/smoothing/multidim.py:PriorExpectationMetaSmoother", "cyclic_boosting/smoothing/onedim.py:PriorExpectationMetaSmoother", "cyclic_boosting/utils.py:neutralize_one_dim_influence"]}
{"id": "C126", "title": "A single feature group learns the mean target of each bin", "statement": "A background subtraction regressor with one feature group and without smoothing predicts for a training row a value between the baseline and the weighted mean target of the rows in the same bin; the distance that is left is known from the learning rates, the weight of the bin and the number of passes, and vanishes with more of them. Bins without weight, and rows with a missing value in a group that does not learn missing values, get the baseline. The parameter regalpha shrinks the result.", "quantifier": "all training data with non-negative weights and any number of bins and columns in the group, all learning rates, numbers of passes and regularisations", "why_tests_cant": "The value is the limit of a recursion over the passes, for every number of passes and every division of the rows into bins.", "anchors": ["cyclic_boosting/GBSregression.py:CBGBSRegressor", "cyclic_boosting/base.py:CyclicBoostingBase._fit_main", "cyclic_boosting/base.py:CyclicBoostingBase.feature_iteration", "cyclic_boosting/base.py:CyclicBoostingBase.predict"]}
{"id": "C127", "title": "A trained model is at most twice as bad as the baseline on its training data", "statement": "When fit returns, the mean squared deviation of the predictions for the training data is at most twice that of predicting the constant baseline. So a target that is the same for all rows is predicted up to the small constant that the baseline adds; the background subtraction regressor predicts it exactly, without divergence and for all rows if its smoothers leave zeros alone. A constant target can be learned by the other estimators as well.", "quantifier": "all training data with non-negative weights, all estimators without prior prediction column, all feature groups, smoothers, learning rates and settings of the loop with aggregation", "why_tests_cant": "The bound is the outcome of the divergence checks over the whole history of passes, steps taken back and groups switched off, for all data.", "anchors": ["cyclic_boosting/base.py:CyclicBoostingBase._fit_main", "cyclic_boosting/base.py:CyclicBoostingBase._check_convergence", "cyclic_boosting/base.py:CyclicBoostingBase.visit_factors", "cyclic_boosting/base.py:CyclicBoostingBase._init_global_scale", "cyclic_boosting/GBSregression.py:CBGBSRegressor"]}
{"id": "C128", "title": "A Poisson regressor with a single feature group learns the mean target of each bin", "statement": "A Poisson regressor with one feature group and without smoothing never fails to converge if the targets are not almost constant and every bin weighs at least as much as one row. Its prediction for a training row lies between the baseline and the weighted mean target of the rows in the same bin, and with enough passes it comes to that mean, as far as the documented limits of the factors allow; in both cases up to 0.012 divided by the weight of the bin. The prior of the bin estimates only delays this. Rows with a missing value in a group that does not learn missing values get the baseline.", "quantifier": "all training data with non-negative weights and targets and any number of bins and columns in the group, all learning rates, numbers of passes and stopping criteria", "why_tests_cant": "The claim is about the limit of arbitrarily many passes, for all data and learning rates, and about all histories of the divergence check.", "anchors": ["cyclic_boosting/regression.py:CBPoissonRegressor", "cyclic_boosting/regression.py:_calc_factors_from_posterior", "cyclic_boosting/regression.py:get_gamma_priors", "cyclic_boosting/base.py:CyclicBoostingBase._fit_main", "cyclic_boosting/base.py:CyclicBoostingBase.visit_factors", "cyclic_boosting/base.py:CyclicBoostingBase._set_factors_per_feature"]}
{"id": "C129", "title": "A feature group without any value in the training data has no influence", "statement": "A feature group that does not learn missing values and whose entry is missing in every training row has no influence: the training without the group ends in the same way, after the same passes, with the same loss and the same factors of the other groups, and the trained estimators predict the same for all rows, also for rows that have a value in the group.", "quantifier": "all training data, all estimators, all other feature groups and their smoothers, all learning rates, all settings of the loop, all rows to predict", "why_tests_cant": "The claim compares two whole trainings pass by pass, through divergences, steps taken back and groups switched off, for all data.", "anchors": ["cyclic_boosting/base.py:CyclicBoostingBase._fit_main", "cyclic_boosting/base.py:CyclicBoostingBase.visit_factors", "cyclic_boosting/base.py:_factors_deviation", "cyclic_boosting/features.py:Feature.bind_data", "cyclic_boosting/features.py:Feature.update_factors"]}
{"id": "C130", "title": "A constant dispersion of the negative binomial regressor acts like a divisor of the weights", "statement": "With c = 0, training the negative binomial regressor with parameter a > 0 gives the same result (failure or the same model, number of passes, loss and predictions) as training the Poisson regressor with all weights divided by a, provided that the smoothers look only at the ratios of the weights of the bins, as the default smoother of unordered columns does. So a single feature group without smoothing learns the mean target of each bin, up to 0.012 a divided by the weight of the bin.", "quantifier": "all training data, all a > 0, with and without prior predictions, all feature groups, smoothers of that sort, learning rates and settings of the loop", "why_tests_cant": "The claim equates whole trainings of two estimators on all data, through divergence and roll-back; the limit is one of unboundedly many passes.", "anchors": ["cyclic_boosting/regression.py:CBNBinomRegressor.calc_parameters", "cyclic_boosting/regression.py:CBPoissonRegressor.calc_parameters", "cyclic_boosting/base.py:CyclicBoostingBase._init_global_scale", "cyclic_boosting/base.py:CyclicBoostingBase.loss"]}
{"id": "C131", "title": "A negative binomial regressor with a single feature group learns the mean target of each bin", "statement": "A negative binomial regressor with variance a m + c m^2 (a > 0, c >= 0), one feature group and without smoothing never fails to converge if the targets are not almost constant and every bin weighs enough for the dispersion of the largest target. Its prediction for a training row lies between the baseline and the weighted mean target of the rows in the same bin, and with enough passes it comes to that mean, as far as the documented limits of the factors allow; in both cases up to 0.012 times the dispersion of the largest target plus one, divided by the weight of the bin. The dispersion, which changes with the predictions from pass to pass, only delays this. Rows with a missing value in a group that does not learn missing values get the baseline.", "quantifier": "all a > 0 and c >= 0, all training data with non-negative weights, bounded non-negative targets and any number of bins and columns in the group, all learning rates, numbers of passes and stopping criteria", "why_tests_cant": "The estimates of a pass depend on the predictions of the pass before through the dispersion; that this feedback never prevents convergence is a claim about unboundedly many passes on all data.", "anchors": ["cyclic_boosting/regression.py:CBNBinomRegressor.calc_parameters", "cyclic_boosting/regression.py:_calc_factors_from_posterior", "cyclic_boosting/base.py:CyclicBoostingBase._fit_main", "cyclic_boosting/base.py:CyclicBoostingBase.cb_feature_iteration"]}
{"id": "C132", "title": "A classifier with a single feature group learns the frequency of the class in each bin", "statement": "A binary classifier with one feature group and without smoothing never fails to converge, and trains if less than 99.9 percent of the weight lies on the class 1. The probability it predicts for a training row lies between the baseline and the weighted frequency of the class 1 among the rows in the same bin, so the model never fits the training data worse than the baseline; with enough passes it comes arbitrarily close to that frequency, with no trace of the prior of the estimates, and the predicted class is the majority class of the bin. Rows with a missing value in a group that does not learn missing values get the baseline.", "quantifier": "all training data with targets 0 and 1, non-negative weights and any number of bins and columns in the group, all learning rates, numbers of passes and stopping criteria", "why_tests_cant": "Every pass fits a beta distribution with a prior to weights that depend on the predictions of the pass before; that the prior disappears in the limit and no pass overshoots is a claim about unboundedly many passes on all data.", "anchors": ["cyclic_boosting/classification.py:CBClassifier.calc_parameters", "cyclic_boosting/classification.py:boost_weights", "cyclic_boosting/base.py:gaussian_matching_by_quantiles", "cyclic_boosting/base.py:CyclicBoostingBase._fit_main"]}
{"id": "C133", "title": "The plot of a feature group of two columns shows what was learned", "statement": "The plot of the factors of two columns can always be drawn. Its pictures show the smoothed factor, and the deviation of predictions and targets, of each pair of bins at its place, in colours between two limits that are symmetric to the neutral factor and contain all values; boxes show the values for missing values. The two diagrams show for each bin of a column the weighted mean of the factors of the training rows in that bin, and everything drawn is on the axis. Drawing does not change the recorded data, and drawing again gives the same plot.", "quantifier": "all finite factors, deviations, targets and predictions; any numbers of bins; any training rows with non-negative weights", "why_tests_cant": "Plots are inspected by eye, usually for data in which every pair of bins occurs. Whether a value is on the axis or within the colours depends on all values together.", "anchors": ["cyclic_boosting/plots/_2dplots.py:plot_factor_2d", "cyclic_boosting/plots/_2dplots.py:_imshow_factors_2d"]}
{"id": "C134", "title": "A single feature group of the location regressor learns the mean target of each bin", "statement": "Training the location regressor with a single feature group without smoothing, on rows of positive weight whose targets are not almost constant, makes as many passes as allowed and never diverges. With enough passes the prediction for a training row comes arbitrarily close to the weighted mean target of its bin plus a known excess. The excess is 0.001 in the weighted mean over the rows and at most 0.001 times one plus a hundredth of the variance of the bin over its weight. If the missing values of the group are not learned, the prediction for a row with a value comes as close to the mean target of its bin as well.", "quantifier": "all training data, all bins, all learning rates in [rho, 1], all settings of the loop, every accuracy", "why_tests_cant": "The claim is about the limit of an iteration, for all data and all learning rates; a test sees the result of a few passes on one data set.", "anchors": ["cyclic_boosting/location.py:CBLocationRegressor.calc_parameters", "cyclic_boosting/location.py:CBLocationRegressor.precalc_parameters", "cyclic_boosting/location.py:CBLocationRegressor.calibrate_to_weighted_mean", "cyclic_boosting/base.py:CyclicBoostingBase._fit_main", "cyclic_boosting/base.py:CyclicBoostingBase._init_global_scale"]}
{"id": "C135", "title": "maximal_iterations is only a limit", "statement": "A training that stops before its maximal_iterations gives the same model with any larger maximal_iterations.", "quantifier": "all estimators, data, feature groups, smoothers, learning rates and settings of the loop", "why_tests_cant": "The claim compares trainings under all limits; the dependence of the learning rate on the limit shows only if both stop early.", "anchors": ["cyclic_boosting/base.py:CyclicBoostingBase.__init__", "cyclic_boosting/base.py:CyclicBoostingBase.learning_rate", "cyclic_boosting/base.py:CyclicBoostingBase._check_stop_criteria", "cyclic_boosting/learning_rate.py:half_linear_learn_rate"]}
{"id": "C136", "title": "A single feature group of the Poisson-like location regressor learns the mean target of each bin", "statement": "With a single feature group and without smoothing, CBLocPoissonRegressor approaches the mean target of each bin: every pass removes a fixed share of the remaining distance, which depends on the weights in the bin and the spread of the targets only, so more passes never make the predictions for the training rows worse, and training does not diverge. Rows without a value get the baseline if missing values are not learned.", "quantifier": "all finite targets that are not all the same, positive weights, binned rows, learning rates up to 1 and numbers of passes", "why_tests_cant": "The claim is about the limit of arbitrarily many passes and about arbitrary bins and weights; a test sees single trainings.", "anchors": ["cyclic_boosting/location.py:CBLocPoissonRegressor.calc_parameters", "cyclic_boosting/location.py:CBLocPoissonRegressor._regularize_summands", "cyclic_boosting/location.py:CBLocPoissonRegressor._check_y", "cyclic_boosting/location.py:CBLocPoissonRegressor.predict", "cyclic_boosting/base.py:CyclicBoostingBase._fit_main"]}
{"id": "C137", "title": "Explicit smoothers are checked and reach exactly their feature groups", "statement": "A smoother choice refuses a dictionary of explicit smoothers unless all keys are tuples of strings and all values are smoothers. Of an accepted dictionary, every entry is used for the feature group of exactly its columns in this order, an entry for a single column also within group-by smoothers whose innermost column it is, and every other feature group gets the smoother it gets without a dictionary. Every feature group can be given an explicit smoother.", "quantifier": "all dictionaries, feature groups of any number of columns, feature properties and settings of the smoother choice", "why_tests_cant": "Tests try single dictionaries; that no other feature group is affected is a statement about all groups and all dictionaries.", "anchors": ["cyclic_boosting/common_smoothers.py:SmootherChoice.__init__", "cyclic_boosting/common_smoothers.py:SmootherChoice._validate_explicit_smoothers", "cyclic_boosting/common_smoothers.py:SmootherChoice.choice_fct", "cyclic_boosting/common_smoothers.py:SmootherChoice.get_onedim_smoother", "cyclic_boosting/common_smoothers.py:SmootherChoiceGroupBy.get_raw_smoother"]}
{"id": "C138", "title": "The unit of the target does not matter", "statement": "Giving the target of an additive regressor in another unit changes nothing but the unit of the model: if all targets, all prior predictions and the minimal factor change are multiplied by a positive number, training makes the same passes, the loss is multiplied by the square of the number, and the baseline, the contributions and all predictions are multiplied by the number. A training that fails, fails in the same way.", "quantifier": "all data with non-negative weights in which two rows of equal bins differ in the target, all feature groups, smoothers that work in every unit, settings, learning rates and positive numbers", "why_tests_cant": "Tests train in one unit; the property compares two whole trainings for every data set and every change of the unit.", "anchors": ["cyclic_boosting/GBSregression.py:CBGBSRegressor.calc_parameters", "cyclic_boosting/GBSregression.py:CBGBSRegressor.loss", "cyclic_boosting/base.py:CyclicBoostingBase._fit_main", "cyclic_boosting/base.py:CyclicBoostingBase._check_stop_criteria", "cyclic_boosting/base.py:CyclicBoostingBase._init_global_scale", "cyclic_boosting/utils.py:regularize_to_error_weighted_mean", "cyclic_boosting/location.py:CBLocationRegressor"]}
{"id": "C139", "title": "Spline smoothers are weighted least-squares fits", "statement": "The least-squares spline smoother refuses degrees over five and degrees not below the number of bins. Otherwise it learns, among all splines of its degree with its knots, one with the least sum of squared deviations from the values of the bins, every bin counted according to its weight, and so reproduces values that lie on such a spline. A fit that fails leaves it as it was, and it predicts only after a fit. The smoothing spline keeps this sum within the smoothing factor and passes through all values if the factor is zero.", "quantifier": "all bins, values, weights, knots, degrees and smoothing factors, and all functions that follow the documentation of scipy", "why_tests_cant": "Tests compare single fits with stored numbers; a least sum is a statement about all splines, and for all weights.", "anchors": ["cyclic_boosting/smoothing/onedim.py:LSQUnivariateSpline.fit", "cyclic_boosting/smoothing/onedim.py:LSQUnivariateSpline.predict", "cyclic_boosting/smoothing/onedim.py:UnivariateSplineSmoother.fit", "cyclic_boosting/smoothing/onedim.py:UnivariateSplineSmoother.predict"]}
{"id": "C140", "title": "A constant column has no influence", "statement": "If a column (or feature group) has the same bins in all training rows, the regressor trains as without it: the training ends in the same way, after as many passes and with the same loss, and all predictions for rows with these bins are those of the estimator trained without the column.", "quantifier": "all training data of positive weights, numbers of feature groups, smoothers, learning rates, stopping criteria, prior predictions and rows to predict", "why_tests_cant": "Tests train with a few informative columns; that a constant one drops out of every later pass and every prediction is a statement about all trainings.", "anchors": ["cyclic_boosting/location.py:CBLocationRegressor", "cyclic_boosting/location.py:CBLocationRegressor.calibrate_to_weighted_mean", "cyclic_boosting/base.py:CyclicBoostingBase.cb_features", "cyclic_boosting/base.py:CyclicBoostingBase.predict", "cyclic_boosting/GBSregression.py:CBGBSRegressor.calc_parameters"]}
