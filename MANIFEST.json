{
 "claims": [
  {
   "property": "C01",
   "status": "proved",
   "theorems": [
    "C01_le_last_element_le",
    "C01_le_inclusive_never_negative",
    "C01_ge_first_element_ge",
    "C01_ge_inclusive_at_most_last",
    "C01_ge_lim_first_in_range",
    "C01_ge_lim_inclusive",
    "C01_last_le_determined",
    "C01_first_ge_determined"
   ],
   "note": "le, ge and ge_lim, inclusive and exclusive, for arrays over rationals with infinities; searched value may be NaN."
  },
  {
   "property": "C02",
   "status": "proved",
   "theorems": [
    "C02_bin_numbers_in_range"
   ],
   "note": "Every fit that does not raise, any flags accepted by the consistency check, any weights (also zero), any transformed values."
  },
  {
   "property": "C03",
   "status": "proved",
   "theorems": [
    "C03_continuous_monotone",
    "C03_first_boundary_not_below",
    "C03_outside_values_in_end_bins"
   ],
   "note": "Monotonicity, the exact bin (first right boundary >= x - epsilon) and the end bins, for every fitted continuous column."
  },
  {
   "property": "C04",
   "status": "partial",
   "theorems": [
    "C04_training_value_gets_its_rank_partial",
    "C04_no_shared_bins_partial",
    "C04_boundaries_are_training_values",
    "C04_other_values_missing",
    "C04_infinite_training_value_refuted"
   ],
   "note": "Refuted for training columns containing an infinity (stored epsilon becomes infinite). Proved for columns of finite values and NaN; ranks via increasing boundaries; the rejection of other values holds without restriction."
  },
  {
   "property": "C05",
   "status": "proved",
   "theorems": [
    "C05_missing_values_to_missing_bin",
    "C05_continuous_only_missing_values",
    "C05_column_without_values"
   ],
   "note": "Exact characterisation of the missing bin for continuous columns; for discrete columns missing values are mapped to -1 and present training values are not (C04)."
  },
  {
   "property": "C06",
   "status": "proved",
   "theorems": [
    "C06_adaptive_bins",
    "C06_fitted_column",
    "C06_too_few_bins_rejected"
   ],
   "note": "For the reduction function on any distribution and for the whole fit from the samples on."
  },
  {
   "property": "C07",
   "status": "partial",
   "theorems": [
    "C07_last_boundary_is_maximum",
    "C07_remaining_probability_partial",
    "C07_remaining_probability_refuted"
   ],
   "note": "Exact for epsilon 0. With positive epsilon refuted as stated (n_bins=3, tolerance=0.9, epsilon=0.03); proved when epsilon*n_bins < (1-tolerance)/n_bins."
  },
  {
   "property": "C08",
   "status": "partial",
   "theorems": [
    "C08_zero_weights_ignored_partial",
    "C08_discrete_fit_raises_refuted",
    "C08_continuous_boundaries_refuted"
   ],
   "note": "Refuted: a value occurring only with weight zero stays in the list of values but not in the cdf. Proved if each zero-weight value also occurs with positive weight."
  },
  {
   "property": "C09",
   "status": "proved",
   "theorems": [
    "C09_ecdf_values",
    "C09_never_fails",
    "C09_strictly_increasing_to_one",
    "C09_order_of_samples_irrelevant",
    "C09_transform_independent_of_row_order"
   ],
   "note": "Values, shares, strict monotonicity, end at 1, permutation invariance of the cdf and of the resulting transform."
  },
  {
   "property": "C10",
   "status": "proved",
   "theorems": [
    "C10_quantile_transform"
   ],
   "note": "From the samples on, for finite training values (and NaN), positive weights and epsilon below (1-tolerance)/n_bins. Where the first two boundaries coincide, the probability of the second is returned."
  },
  {
   "property": "C11",
   "status": "proved",
   "theorems": [
    "C11_narrowing_lossless"
   ],
   "note": "Two's-complement wrap of the chosen type is the identity on the matrix."
  },
  {
   "property": "C12",
   "status": "proved",
   "theorems": [
    "C12_number_in_range",
    "C12_lexicographic_order_injective",
    "C12_arange_multi_enumerates",
    "C12_shape_from_data"
   ],
   "note": "Any number of dimensions; range, injectivity, lexicographic order, arange_multi enumeration, and the shape taken from the data."
  },
  {
   "property": "C13",
   "status": "partial",
   "theorems": [
    "C13_invalid_row_to_missing_bin_partial",
    "C13_valid_row_batch_independent",
    "C13_invalid_row_to_missing_bin_refuted"
   ],
   "note": "Refuted: in a batch without any valid row, invalid rows get number 0 instead of product(n_bins). Proved for batches with at least one valid row, and batch independence of valid rows."
  },
  {
   "property": "C14",
   "status": "partial",
   "theorems": [
    "C14_unseen_mask_partial",
    "C14_unseen_mask_refuted"
   ],
   "note": "Refuted for multi-dimensional batches without valid rows (too large entries are judged by bin 0). Proved for everything else, including one-dimensional features and rows with missing entries."
  },
  {
   "property": "C15",
   "status": "proved",
   "theorems": [
    "C15_predicates_read_their_bits",
    "C15_flag_implications",
    "C15_consistency_check_exact",
    "C15_consistency_errors"
   ],
   "note": "Bit-level characterisation of every predicate, of the implications and of both errors of the consistency check."
  },
  {
   "property": "C16",
   "status": "partial",
   "theorems": [
    "C16_text_total_refuted",
    "C16_text_faithful",
    "C16_text_domain_partial",
    "C16_text_listed_partial"
   ],
   "note": "Refuted: flags_to_string raises for values containing HAS_MAGIC_INT_MISSING, INCREASING or DECREASING. Proved instead: exact domain of the conversion and faithfulness of every returned text."
  },
  {
   "property": "C17",
   "status": "partial",
   "theorems": [
    "C17_terminates",
    "C17_only_convergence_error_partial",
    "C17_hierarchical_without_divergence_partial",
    "C17_hierarchical_type_error_refuted",
    "C17_zero_iterations_refuted"
   ],
   "note": "Termination and the bound hold for all settings and oracles. That divergence only raises the convergence error is refuted: with hierarchical groups a divergence in the first iterations raises TypeError (remove_preds on an unfitted group), and maximal_iterations=0 always raises TypeError. Proved without hierarchical groups, and with them when nothing diverges."
  },
  {
   "property": "C18",
   "status": "proved",
   "theorems": [
    "C18_stop_reason",
    "C18_iterations_without_divergence",
    "C18_criteria_values"
   ],
   "note": "For every returned fit, all oracles; plus what the two change criteria are measured on."
  },
  {
   "property": "C19",
   "status": "partial",
   "theorems": [
    "C19_predict_is_insample_partial",
    "C19_without_aggregation_refuted",
    "C19_fractional_bins_refuted"
   ],
   "note": "Proved with aggregation for every divergence pattern, without aggregation when nothing diverged, for any number of rows and groups of any dimension. Refuted without aggregation after a divergence (factors are taken back twice) and for fractional one-dimensional bin numbers (floor in training, rint in prediction)."
  },
  {
   "property": "C20",
   "status": "partial",
   "theorems": [
    "C20_factors_within_limits_partial",
    "C20_limits_restored_partial",
    "C20_step_at_most_two_partial",
    "C20_after_divergence_refuted"
   ],
   "note": "Proved for histories without divergence and for accepted iterations that do not directly follow the first divergence. Refuted after the first divergence: clipping around the unsmoothed factors ignores the limits."
  },
  {
   "property": "C21",
   "status": "proved",
   "theorems": [
    "C21_others_untouched",
    "C21_all_trained_at_the_end"
   ],
   "note": "All schedules; groups that are not hierarchical are neutral and unfitted until the configured iterations are done, all groups are fitted when fit returns."
  },
  {
   "property": "C22",
   "status": "partial",
   "theorems": [
    "C22_fifth_divergence",
    "C22_rollback_partial",
    "C22_rollback_without_aggregation_refuted"
   ],
   "note": "Convergence error exactly at the fifth diverging iteration. Rollback proved with aggregation; refuted without aggregation."
  },
  {
   "property": "C23",
   "status": "proved",
   "theorems": [
    "C23_rowwise",
    "C23_split",
    "C23_any_order",
    "C23_contribution_of_a_group"
   ],
   "note": "Any unlink function, any prior column, any batch; splitting, selecting and reordering rows; contribution of each group characterised."
  },
  {
   "property": "C24",
   "status": "partial",
   "theorems": [
    "C24_out_of_range_and_missing",
    "C24_unseen_category_neutral_partial",
    "C24_missing_not_learned_neutral_partial",
    "C24_missing_not_learned_refuted"
   ],
   "note": "Out-of-range bins and missing values proved for every fit. Neutrality of unseen categories and of missing values declared not to be learned proved for histories without divergence (or models that are not multiplicative with aggregation); the latter refuted after a divergence."
  },
  {
   "property": "C25",
   "status": "partial",
   "theorems": [
    "C25_importances_partial",
    "C25_second_fit_refuted",
    "C25_joined_names_refuted",
    "C25_small_contributions_refuted",
    "C25_integer_columns_refuted"
   ],
   "note": "Proved for a single fit with distinct joined group names: shares of the mean absolute contributions, non-negative, sum 1 above the rounding threshold. Refuted: refit keeps old entries, colliding joined names, totals up to 5e-7, integer column names."
  },
  {
   "property": "C26",
   "status": "partial",
   "theorems": [
    "C26_sum_of_contributions",
    "C26_price_link_prediction",
    "C26_include_then_remove",
    "C26_category_column_partial",
    "C26_categories_sum_up",
    "C26_reserved_category_refuted",
    "C26_first_removal_refuted"
   ],
   "note": "Sums of contributions and include/remove proved for all operation sequences with category names other than the frame's own columns; category columns proved unless a category is first touched by a removal (refuted)."
  },
  {
   "property": "C27",
   "status": "proved",
   "theorems": [
    "C27_inverse_after_link",
    "C27_link_after_inverse",
    "C27_link_finite",
    "C27_link_increasing",
    "C27_inverse_increasing",
    "C27_prediction_ranges"
   ],
   "note": "Links over the reals; finite exactly in the interior of the accepted range, mutually inverse and increasing there."
  },
  {
   "property": "C28",
   "status": "proved",
   "theorems": [
    "C28_probabilities_and_classes",
    "C28_boost_weights"
   ],
   "note": ""
  },
  {
   "property": "C29",
   "status": "proved",
   "theorems": [
    "C29_poisson_is_nbinom",
    "C29_whole_training"
   ],
   "note": "Poisson and negative binomial regressors compute equal factors and uncertainties for a=1, c=0, for every gamma-median oracle."
  },
  {
   "property": "C30",
   "status": "proved",
   "theorems": [
    "C30_estimates_well_defined",
    "C30_more_evidence"
   ],
   "note": "Negative binomial (and, by C29, Poisson) regressor; the scipy gamma median is any function that is positive on positive numbers."
  },
  {
   "property": "C31",
   "status": "proved",
   "theorems": [
    "C31_minimises_chi_square"
   ],
   "note": "Uniqueness, convexity bound and the variance formula are part of the theorem."
  },
  {
   "property": "C32",
   "status": "proved",
   "theorems": [
    "C32_calibrated_mean_zero"
   ],
   "note": "Also shows that calibration is a common shift."
  },
  {
   "property": "C33",
   "status": "proved",
   "theorems": [
    "C33_rates_non_decreasing",
    "C33_rates_in_range",
    "C33_rates_end_at_one",
    "C33_logistic_end",
    "C33_rates_of_the_loop",
    "C33_half_linear_full"
   ],
   "note": ""
  },
  {
   "property": "C34",
   "status": "proved",
   "theorems": [
    "C34_shrinkage",
    "C34_amount",
    "C34_constant_unchanged",
    "C34_different_lengths",
    "C34_zero_uncertainty"
   ],
   "note": "Uncertainties must be positive; the zero case is stated separately."
  },
  {
   "property": "C35",
   "status": "proved",
   "theorems": [
    "C35_insignificant",
    "C35_significant",
    "C35_monotone"
   ],
   "note": ""
  },
  {
   "property": "C36",
   "status": "partial",
   "theorems": [
    "C36_one_dimensional",
    "C36_determined",
    "C36_unusable",
    "C36_any_flags_refuted",
    "C36_explicit",
    "C36_explicit_refuted",
    "C36_interaction",
    "C36_interaction_group_by",
    "C36_interaction_group_by_explicit",
    "C36_unsmoothed"
   ],
   "note": "All three smoother choices with their regression-type and normalisation wrappers. _refuted: INCREASING (2048) alone makes the warning's flags_to_string raise ValueError; SmootherChoice without smoothing ignores explicit smoothers. C36_unusable says exactly which flags raise."
  },
  {
   "property": "C37",
   "status": "proved",
   "theorems": [
    "C37_nonnegative",
    "C37_zero",
    "C37_minimised",
    "C37_optima",
    "C37_quantile_splits"
   ],
   "note": "Finite targets and predictions; exact arithmetic."
  },
  {
   "property": "C38",
   "status": "partial",
   "theorems": [
    "C38_no_ties_partial",
    "C38_unit_weights_partial",
    "C38_above_refuted",
    "C38_below_refuted"
   ],
   "note": "Refuted for ties: y=(0,0,1) with unit weights at 2/3 gives 2; y=(0,0,1,1) with weights 1/10 at 1 gives -1 (row numbers are compared with sums of weights), so the baseline of a multiplicative quantile model can be the logarithm of a negative number. Proved without ties, and with the bound +2 for unit weights."
  },
  {
   "property": "C39",
   "status": "proved",
   "theorems": [
    "C39_quantile",
    "C39_median",
    "C39_range",
    "C39_monotone",
    "C39_bins",
    "C39_binned",
    "C39_bin_rows"
   ],
   "note": "For every sort by target. Exact sums: with floats the last running sum can stay below the cutoff for levels near 1, and the code then returns the minimum."
  },
  {
   "property": "C40",
   "status": "partial",
   "theorems": [
    "C40_semibounded_partial",
    "C40_bounded_partial",
    "C40_lower_end",
    "C40_both_ends",
    "C40_extended_unbounded_partial",
    "C40_extended_semibounded_partial",
    "C40_extended_bounded_partial",
    "C40_logistic",
    "C40_sinh_logistic",
    "C40_symmetric_semibounded_refuted",
    "C40_symmetric_bounded_refuted",
    "C40_symmetric_extended_refuted",
    "C40_at_bound_refuted",
    "C40_decreasing_cdf_refuted",
    "C40_cdf_below_refuted",
    "C40_samples",
    "C40_outer",
    "C40_inner"
   ],
   "note": "Proved for triplets with skewness in the internal space, for every base distribution meeting the contract (the logistic and sinh-logistic ones are proved to meet it). Refuted: triplets without skewness give NaN (J_QPD_S, J_QPD_B) or miss the outer quantiles (extended versions: sinh(1) is not 1); a quantile at the bound is moved by 1e-12; the cdf is NaN below the lower bound."
  },
  {
   "property": "C41",
   "status": "proved",
   "theorems": [
    "C41_semibounded",
    "C41_bounded"
   ],
   "note": "For arbitrary finite predictions of the three chained estimators."
  },
  {
   "property": "C42",
   "status": "partial",
   "theorems": [
    "C42_terminates",
    "C42_bracket",
    "C42_bracket_finite",
    "C42_progress",
    "C42_stops",
    "C42_variance_partial",
    "C42_nan_refuted",
    "C42_exponents"
   ],
   "note": "For all gradient and curvature functions. Bins without finite results are set to 1, which can lie outside the bracket given by the caller (the price model's brackets contain 1). Positive inverse curvature is refuted for curvatures that are no number (the result is NaN); for the price model itself this cannot happen (C42_exponents). The right ends are found with the module's own newton_step whatever step function is passed."
  },
  {
   "property": "C43",
   "status": "proved",
   "theorems": [
    "C43_candidates",
    "C43_exactly_once",
    "C43_only_sets"
   ],
   "note": ""
  },
  {
   "property": "C44",
   "status": "partial",
   "theorems": [
    "C44_forward_partial",
    "C44_same_as_direct_partial",
    "C44_works_like_direct",
    "C44_binner",
    "C44_defaults_changed_always_refuted",
    "C44_dropped_always_refuted",
    "C44_forward_refuted",
    "C44_defaults_refuted",
    "C44_required_refuted"
   ],
   "note": "Settings given to a pipeline reach the estimator, except a and c of CBExponential; several defaults differ (exact list in Spec/PipelineSpec.v) and missing required settings become None: refuted by C44_forward_refuted, C44_defaults_refuted, C44_required_refuted."
  },
  {
   "property": "C45",
   "status": "partial",
   "theorems": [
    "C45_fit_groups",
    "C45_default_groups",
    "C45_features",
    "C45_features_fail",
    "C45_given_groups",
    "C45_first_fit",
    "C45_refit_refuted"
   ],
   "note": "_refuted: the default groups found in the first fit are kept by the estimator, so a refit on data with other columns uses the stale groups."
  },
  {
   "property": "C46",
   "status": "partial",
   "theorems": [
    "C46_column_influence_removed",
    "C46_neutral_unchanged",
    "C46_row_influence_refuted"
   ],
   "note": "Refuted for the row projection: iteration stops after four rounds, whatever the remaining influence. Proved: column projection exactly zero, at most four rounds, row influence at most 0.01 in total if it stops earlier, only row and column effects are subtracted, neutral tables unchanged."
  },
  {
   "property": "C47",
   "status": "partial",
   "theorems": [
    "C47_bins_partial",
    "C47_order_refuted",
    "C47_empty",
    "C47_neutral",
    "C47_classifier_refuted",
    "C47_nonnegative",
    "C47_optimal_factor",
    "C47_optimal_summand",
    "C47_logarithm",
    "C47_additive"
   ],
   "note": "The order in which Python iterates over the set of empty bins is unspecified; proved for ascending order, refuted for others. scipy.minimize is universally quantified with a stated contract. Refuted for the classifier: start 1/2 becomes factor ln(1/2)."
  },
  {
   "property": "C48",
   "status": "proved",
   "theorems": [
    "C48_unique_minimiser",
    "C48_recovers_linear_data",
    "C48_degenerate",
    "C48_extrapolation"
   ],
   "note": ""
  },
  {
   "property": "C49",
   "status": "partial",
   "theorems": [
    "C49_nan_training_values_ignored_partial",
    "C49_infinite_training_values_refuted"
   ],
   "note": "Refuted for infinities ([1, inf] discrete); proved for NaN."
  },
  {
   "property": "C50",
   "status": "partial",
   "theorems": [
    "C50_contributions_explain_prediction_partial",
    "C50_external_columns_apart",
    "C50_colliding_names_refuted",
    "C50_price_contributions"
   ],
   "note": "Proved for groups with distinct names, for the price model including the groups that act on the external column; refuted for colliding names."
  },
  {
   "property": "C51",
   "status": "proved",
   "theorems": [
    "C51_boundaries_placed",
    "C51_bins_not_coarse"
   ],
   "note": "Exact arithmetic."
  },
  {
   "property": "C52",
   "status": "partial",
   "theorems": [
    "C52_baseline",
    "C52_prior_column",
    "C52_baseline_exists_partial",
    "C52_all_ones_refuted",
    "C52_unusable_prior_mean_refuted"
   ],
   "note": "Refuted: an all-ones target of the classifier has no finite baseline, and an unusable mean prior does not switch off the individualisation."
  },
  {
   "property": "C53",
   "status": "proved",
   "theorems": [
    "C53_classifier_estimates",
    "C53_empty_bin_neutral"
   ],
   "note": "scipy's beta.ppf and erfinv are arbitrary functions with the monotonicity (and for the neutrality: symmetry) they are documented to have."
  },
  {
   "property": "C54",
   "status": "partial",
   "theorems": [
    "C54_location_estimates_partial",
    "C54_weightless_bin_refuted",
    "C54_locpoisson_estimates_partial",
    "C54_constant_target_refuted"
   ],
   "note": "Refuted for a bin whose rows all have weight zero (NaN in the location model) and for a constant target (NaN everywhere in the Poisson-like location model); proved otherwise."
  },
  {
   "property": "C55",
   "status": "proved",
   "theorems": [
    "C55_location_mean_kept"
   ],
   "note": "For arbitrary bin estimates, smoothers, rate and loss; uses the calibration as modelled from location.py."
  },
  {
   "property": "C56",
   "status": "partial",
   "theorems": [
    "C56_shrinkage",
    "C56_constant_window",
    "C56_constant_unchanged_refuted",
    "C56_few_bins"
   ],
   "note": "Refuted for locally constant values: the spread of the window is 0 and the result is NaN. Proved whenever two weighted values of the window differ."
  },
  {
   "property": "C57",
   "status": "proved",
   "theorems": [
    "C57_found",
    "C57_only_that",
    "C57_unknown",
    "C57_forms"
   ],
   "note": "FeatureList lookup; groups and ids modelled, feature objects abstract."
  },
  {
   "property": "C58",
   "status": "proved",
   "theorems": [
    "C58_centred",
    "C58_shift",
    "C58_weightless",
    "C58_combined"
   ],
   "note": "Any inner smoother (state, fit, predict)."
  },
  {
   "property": "C59",
   "status": "partial",
   "theorems": [
    "C59_extrapolating",
    "C59_interpolating",
    "C59_discontinuous",
    "C59_clamped_refuted"
   ],
   "note": "The two cut theorems are for inner smoothers that leave the passed array unchanged. C59_clamped_refuted: OrthogonalPolynomialSmoother.predict clamps the array in place, so the interpolating cut applied afterwards never sees a row outside the range and the row keeps a prediction."
  },
  {
   "property": "C60",
   "status": "partial",
   "theorems": [
    "C60_sections",
    "C60_isolated",
    "C60_representation_refuted"
   ],
   "note": "_refuted: nan_representation is never stored (meta_smoother.py:264), so an empty section yields NaN."
  },
  {
   "property": "C61",
   "status": "proved",
   "theorems": [
    "C61_groups",
    "C61_isolated"
   ],
   "note": "Any row-wise inner smoother."
  },
  {
   "property": "C62",
   "status": "partial",
   "theorems": [
    "C62_periodic",
    "C62_zero_mean",
    "C62_reproduces",
    "C62_fallback",
    "C62_no_convergence_refuted",
    "C62_lasso_period_refuted"
   ],
   "note": "curve_fit and LassoLarsIC are universally quantified; fits_curve states the scipy contract. Refuted: RuntimeError (no convergence) is not caught although the fallback is announced for it; the lasso variant has the number of the last bin as period."
  },
  {
   "property": "C63",
   "status": "partial",
   "theorems": [
    "C63_reproduces",
    "C63_least_squares_partial",
    "C63_weights_refuted",
    "C63_monotone",
    "C63_linear"
   ],
   "note": "numpy.polyfit by its documented contract. Proved in full for exact data and for equal uncertainties; refuted for unequal ones: weights 1/sigma^2 are applied to unsquared residuals."
  },
  {
   "property": "C64",
   "status": "proved",
   "theorems": [
    "C64_least_squares",
    "C64_errors_exist",
    "C64_reproduces",
    "C64_each_degree"
   ],
   "note": "Exact arithmetic over R."
  },
  {
   "property": "C65",
   "status": "partial",
   "theorems": [
    "C65_median",
    "C65_lower_partial",
    "C65_upper_refuted",
    "C65_bounded_fit_refuted",
    "C65_bounded_only_above"
   ],
   "note": "The median is inverted. Lower quantile: proved for positive medians (with a negative lower bound and a negative median the rows above the median are selected). Refuted for the upper quantile: fit divides by (median - lower quantile), predict does not multiply back; in bounded mode fit raises unless all targets are above the median because the upper bounds are not masked (quantile_matching.py:804)."
  },
  {
   "property": "C66",
   "status": "proved",
   "theorems": [
    "C66_density"
   ],
   "note": ""
  },
  {
   "property": "C67",
   "status": "proved",
   "theorems": [
    "C67_training",
    "C67_newton_step"
   ],
   "note": ""
  },
  {
   "property": "C68",
   "status": "proved",
   "theorems": [
    "C68_trained_falls",
    "C68_trained_rises",
    "C68_trained_others",
    "C68_trained_form",
    "C68_form",
    "C68_missing",
    "C68_at_one",
    "C68_decreasing",
    "C68_increasing"
   ],
   "note": "The docstring promises a ValueError for non-positive external values; the code accepts them."
  },
  {
   "property": "C69",
   "status": "proved",
   "theorems": [
    "C69_accepted",
    "C69_rejected"
   ],
   "note": ""
  },
  {
   "property": "C70",
   "status": "proved",
   "theorems": [
    "C70_column"
   ],
   "note": ""
  },
  {
   "property": "C71",
   "status": "proved",
   "theorems": [
    "C71_selection"
   ],
   "note": "sklearn's SelectKBest is modelled by its documented contract (stable argsort, NaN scores replaced by the smallest float); the score function is arbitrary."
  },
  {
   "property": "C72",
   "status": "partial",
   "theorems": [
    "C72_candidates",
    "C72_grid",
    "C72_best",
    "C72_no_worse",
    "C72_reported_loss",
    "C72_uncertainty",
    "C72_frozen",
    "C72_bayes_bounds",
    "C72_bayes_empty",
    "C72_empty_bin_always_refuted",
    "C72_empty_bin_refuted"
   ],
   "note": "Holds except that without the Bayesian average a bin without data gets the most negative candidate instead of staying neutral (C72_empty_bin_refuted and, for all data, C72_empty_bin_always_refuted). log-gamma is universally quantified."
  },
  {
   "property": "C73",
   "status": "proved",
   "theorems": [
    "C73_parameters",
    "C73_moments",
    "C73_loss",
    "C73_invalid_loss",
    "C73_zero_mean",
    "C73_reported_loss"
   ],
   "note": ""
  },
  {
   "property": "C74",
   "status": "partial",
   "theorems": [
    "C74_ridge",
    "C74_estimate",
    "C74_shrinkage",
    "C74_no_regularization_always_refuted",
    "C74_no_regularization_refuted",
    "C74_baseline",
    "C74_no_uncertainty_always_refuted",
    "C74_finite_refuted",
    "C74_loss",
    "C74_loss_zero_targets"
   ],
   "note": "Shrinkage, ridge optimality and the loss statements are proved. Refuted: regalpha = 0 still shrinks (the prior adds 1 to the denominator); a bin whose rows are predicted exactly or that is empty gets uncertainty 0, and the default smoother of a categorical feature then returns NaN for every bin."
  },
  {
   "property": "C75",
   "status": "partial",
   "theorems": [
    "C75_gamma",
    "C75_gamma_more_evidence",
    "C75_gamma_as_poisson",
    "C75_gaussian_partial",
    "C75_gaussian_unit",
    "C75_gaussian_empty",
    "C75_weightless_always_refuted",
    "C75_weightless_refuted",
    "C75_beta"
   ],
   "note": "Refuted for the additive mode: rows of total weight zero give NaN."
  },
  {
   "property": "C76",
   "status": "partial",
   "theorems": [
    "C76_accepts",
    "C76_rejects_nan_partial",
    "C76_rejects_out_of_range_partial",
    "C76_accepted_targets",
    "C76_infinite_refuted",
    "C76_gbs_refuted",
    "C76_empty_partial",
    "C76_empty_target_refuted"
   ],
   "note": "Refuted: +infinity is accepted by all multiplicative modes; the background subtraction accepts anything; the length check is a chained comparison and misses an empty target."
  },
  {
   "property": "C77",
   "status": "partial",
   "theorems": [
    "C77_baseline_partial",
    "C77_zero_quantile_always_refuted",
    "C77_zero_quantile_refuted"
   ],
   "note": "Proved for distinct targets; with ties the starting point is the continuous approximation of C38. Refuted: a quantile of 0 gives an infinite start in the multiplicative mode."
  },
  {
   "property": "C78",
   "status": "partial",
   "theorems": [
    "C78_columns",
    "C78_accepted",
    "C78_missing_column",
    "C78_rows",
    "C78_input_kept",
    "C78_inplace",
    "C78_inplace_failure_refuted",
    "C78_quantile_columns",
    "C78_quantile_input_kept",
    "C78_quantile_overwrites_always_refuted",
    "C78_quantile_index_always_refuted"
   ],
   "note": "Proved for the table and for every accepted frame; refuted: a failing in-place transform leaves the caller's table half converted, and the quantile conversion overwrites the caller's float frame and always renumbers the index."
  },
  {
   "property": "C79",
   "status": "partial",
   "theorems": [
    "C79_fit_transform_partial",
    "C79_transform_partial",
    "C79_transform_works",
    "C79_guard",
    "C79_twice",
    "C79_agree_partial",
    "C79_agree_additive_partial",
    "C79_additive_refuted",
    "C79_classifier_always_refuted",
    "C79_dispersion_always_refuted",
    "C79_dispersion_fitted_always_refuted",
    "C79_price_always_refuted",
    "C79_stale_means_refuted",
    "C79_zero_name_refuted"
   ],
   "note": "Proved for all estimators but the dispersion model, which may also clip the prior column; agreement of fit_transform and transform proved for regressors; refuted for classifiers (probabilities against classes), negative additive predictions, the dispersion model and the price model with external features (always an error), and for the column name 0."
  },
  {
   "property": "C80",
   "status": "partial",
   "theorems": [
    "C80_predict",
    "C80_fit_partial",
    "C80_needed",
    "C80_dispersion_always_refuted"
   ],
   "note": "predict: all estimators; fit: all but the dispersion model, whose column of means is not listed (refuted)."
  },
  {
   "property": "C81",
   "status": "partial",
   "theorems": [
    "C81_features_partial",
    "C81_error_always_refuted",
    "C81_prior_always_refuted"
   ],
   "note": "An estimator with features fails, but never with the documented error (refuted); without features the prior column is returned."
  },
  {
   "property": "C82",
   "status": "partial",
   "theorems": [
    "C82_kept_partial",
    "C82_dispersion_always_refuted",
    "C82_dispersion_refuted"
   ],
   "note": "Proved for all estimators except the dispersion model with a prior column, which clips the caller's column (refuted)."
  },
  {
   "property": "C83",
   "status": "partial",
   "theorems": [
    "C83_best_fit",
    "C83_best_fit_unique",
    "C83_monotone",
    "C83_auto_direction",
    "C83_training_partial",
    "C83_calibrations",
    "C83_auto_refuted",
    "C83_divergence_refuted"
   ],
   "note": "Proved: optimality and uniqueness of the isotonic fit, monotonicity and range everywhere, and the direction of the learned contributions when a direction is flagged. Refuted: without a flagged direction (direction is chosen per iteration) and after a divergence with a log link (contributions are clipped to raw estimates)."
  },
  {
   "property": "C84",
   "status": "proved",
   "theorems": [
    "C84_loss_modes",
    "C84_dispersion",
    "C84_price",
    "C84_pipeline",
    "C84_row_order"
   ],
   "note": "For all six bin-wise estimators, the loss-minimising modes, the dispersion estimator, the price model and whole pipelines (C84_pipeline, binning included); floating-point rounding is not modelled."
  },
  {
   "property": "C85",
   "status": "partial",
   "theorems": [
    "C85_dispersion_refuted",
    "C85_dispersion_copies_refuted",
    "C85_quantile_refuted",
    "C85_price_refuted",
    "C85_unsmoothed_partial",
    "C85_gbs_refuted",
    "C85_locpoisson_refuted",
    "C85_weights_partial",
    "C85_copies",
    "C85_location_refuted"
   ],
   "note": "Proved for the Poisson, negative binomial and binary models, and for the location and the GBS model where the smoothers do not look at the uncertainties. False for the location and the GBS model with uncertainty-weighted smoothers, for the LocPoisson model, for quantile regression (baseline), for the dispersion estimator (weights unused) and for external groups of the price model: see the refutations."
  },
  {
   "property": "C86",
   "status": "proved",
   "theorems": [
    "C86_location_shift"
   ],
   "note": ""
  },
  {
   "property": "C87",
   "status": "proved",
   "theorems": [
    "C87_relabelling",
    "C87_bin_values",
    "C87_prior_expectation",
    "C87_weighted_mean_with_prior",
    "C87_normalised",
    "C87_default",
    "C87_explicit_mean",
    "C87_explicit_mean_depends_on_first"
   ],
   "note": "Proved for the default smoother and all others that treat bins alike. An explicit WeightedMeanSmoother without prior prediction and normalisation singles out category 0: proved for renumberings that keep it, with a witness that others change the training."
  },
  {
   "property": "C88",
   "status": "partial",
   "theorems": [
    "C88_clone_objects",
    "C88_clone_disjoint",
    "C88_clone_works",
    "C88_clone_refuses",
    "C88_settings",
    "C88_fitted_partial",
    "C88_fitted_refuted"
   ],
   "note": "Objects are trees with identities. Proved: settings, nothing learned, no sharing but the declared one, for clone on all object trees, and equality of all settings for all estimators. Refuted for fitted estimators without feature groups: the groups found in the data stay."
  },
  {
   "property": "C89",
   "status": "partial",
   "theorems": [
    "C89_set_later_partial",
    "C89_hierarchical_refuted",
    "C89_price_groups_refuted",
    "C89_price_external_groups_refuted",
    "C89_learn_rate_refuted",
    "C89_default_learn_rate_refuted"
   ],
   "note": "Proved for all settings but the hierarchical groups and the feature groups of the price model, values other than None for settings with default objects, and learning rates without hierarchical groups. The rest is refuted, as is the documented default learning rate."
  },
  {
   "property": "C90",
   "status": "proved",
   "theorems": [
    "C90_own_smoothers"
   ],
   "note": "Proved for all choices of smoothers; that smoother classes declare no shared parameters is read off the source."
  },
  {
   "property": "C91",
   "status": "partial",
   "theorems": [
    "C91_diagram_partial",
    "C91_quantile_partial",
    "C91_zero_weight_refuted"
   ],
   "note": "Positive weights; with zero weights entries and centres differ in number (refuted). Floats are real numbers."
  },
  {
   "property": "C92",
   "status": "partial",
   "theorems": [
    "C92_uniform_partial",
    "C92_finite_partial",
    "C92_determined_partial",
    "C92_between_partial",
    "C92_negative_refuted"
   ],
   "note": "Distributions on the natural numbers; refuted for negative values. The random number is uniform on [0, 1] by holds_below."
  },
  {
   "property": "C93",
   "status": "proved",
   "theorems": [
    "C93_round_trip",
    "C93_sparse"
   ],
   "note": "Attributes are arrays, None or opaque values; -0.0 and 0.0 are identified. scipy's csr format is modelled as the list of entries other than zero."
  },
  {
   "property": "C94",
   "status": "partial",
   "theorems": [
    "C94_last_partial",
    "C94_chosen_partial",
    "C94_final_iteration_refuted"
   ],
   "note": "Refuted for the last iteration. Features kept are those of the state; predictions passed after a diverging pass are those before factors were taken back."
  },
  {
   "property": "C95",
   "status": "partial",
   "theorems": [
    "C95_early_partial",
    "C95_first_pass_partial",
    "C95_success_partial",
    "C95_late_refuted",
    "C95_diverged_refuted"
   ],
   "note": "Failures before the passes and in the first pass are proved safe (except for data whose rows all lack the last feature), and success leaves the trained model. Refuted after the first pass: the estimator answers with a half-trained model."
  },
  {
   "property": "C96",
   "status": "partial",
   "theorems": [
    "C96_deviation_partial",
    "C96_levels_partial",
    "C96_quantile_partial",
    "C96_quantile_column_partial",
    "C96_quantile_refuted",
    "C96_level_refuted"
   ],
   "note": "Deviations proved for regressions and classification, and for bins with rows of quantile estimators with positive weights. Refuted: number of entries for quantile estimators, levels of empty bins."
  },
  {
   "property": "C97",
   "status": "proved",
   "theorems": [
    "C97_loss_modes",
    "C97_dispersion",
    "C97_price",
    "C97_range"
   ],
   "note": "Real arithmetic: a float prediction can round to 0, 1 or overflow."
  },
  {
   "property": "C98",
   "status": "partial",
   "theorems": [
    "C98_prior_partial",
    "C98_larger_prior_partial",
    "C98_returns_prior_partial",
    "C98_no_prior_column",
    "C98_ends_refuted"
   ],
   "note": "Proved for priors strictly between 0 and 1 and for missing priors. At 0 and 1 (and beyond, after clipping) the prior is replaced by one half: C98_ends_refuted."
  },
  {
   "property": "C99",
   "status": "proved",
   "theorems": [
    "C99_training",
    "C99_prediction"
   ],
   "note": ""
  },
  {
   "property": "C100",
   "status": "partial",
   "theorems": [
    "C100_history_partial",
    "C100_any_state_partial",
    "C100_whole_partial",
    "C100_default_groups_always_refuted",
    "C100_new_column_refuted",
    "C100_gone_column_refuted",
    "C100_records_always_refuted",
    "C100_importances_always_refuted"
   ],
   "note": "Proved for given feature groups: outcome, baseline, iterations, loss and all predictions do not depend on earlier trainings, whatever state they left. Refuted: default feature groups, importances and observer records carry over."
  },
  {
   "property": "C101",
   "status": "partial",
   "theorems": [
    "C101_fit_partial",
    "C101_predict",
    "C101_default_groups_refuted"
   ],
   "note": "Proved for prediction, and for training with given feature groups. Refuted for default feature groups."
  },
  {
   "property": "C102",
   "status": "partial",
   "theorems": [
    "C102_train_partial",
    "C102_predict_partial",
    "C102_weights_refuted",
    "C102_weights_always_refuted",
    "C102_priors_always_refuted"
   ],
   "note": "Proved for columns that feature_properties does not name (C102_train_partial, C102_predict_partial). Without feature_properties the weights and prior predictions are binned: C102_weights_refuted, C102_weights_always_refuted, C102_priors_always_refuted."
  },
  {
   "property": "C103",
   "status": "proved",
   "theorems": [
    "C103_units"
   ],
   "note": "In exact arithmetic; continuous columns are those binned by quantiles (no magic integer for missing values)."
  },
  {
   "property": "C104",
   "status": "proved",
   "theorems": [
    "C104_order",
    "C104_categories"
   ],
   "note": "In exact arithmetic. The tolerance 10^-9 of the range is the one of ECDFTransformer; values closer than this share a bin, and which do changes with the scale."
  },
  {
   "property": "C105",
   "status": "proved",
   "theorems": [
    "C105_rows",
    "C105_steps",
    "C105_count"
   ],
   "note": ""
  },
  {
   "property": "C106",
   "status": "proved",
   "theorems": [
    "C106_monotone"
   ],
   "note": ""
  },
  {
   "property": "C107",
   "status": "partial",
   "theorems": [
    "C107_loss_partial",
    "C107_counts_refuted",
    "C107_costs",
    "C107_dispersion",
    "C107_price"
   ],
   "note": "For CBLocPoissonRegressor only if all predictions on the training data are positive; refuted otherwise: predict cuts at 0, the training loss does not."
  },
  {
   "property": "C108",
   "status": "proved",
   "theorems": [
    "C108_ratios",
    "C108_ratios_costs",
    "C108_ratios_price",
    "C108_constant",
    "C108_constant_costs",
    "C108_constant_price"
   ],
   "note": ""
  },
  {
   "property": "C109",
   "status": "proved",
   "theorems": [
    "C109_criteria",
    "C109_criteria_costs",
    "C109_criteria_dispersion",
    "C109_criteria_price"
   ],
   "note": ""
  },
  {
   "property": "C110",
   "status": "partial",
   "theorems": [
    "C110_background_subtraction",
    "C110_location_partial",
    "C110_classifier_partial",
    "C110_from_the_baseline",
    "C110_location_refuted",
    "C110_classifier_refuted",
    "C110_smoothers"
   ],
   "note": "Proved for the background subtraction regressor; for the location regressor and the classifier from the baseline on, where the 0.001 added to the mean refutes the full statement."
  },
  {
   "property": "C111",
   "status": "proved",
   "theorems": [
    "C111_recoding",
    "C111_explicit_mean_depends_on_first"
   ],
   "note": "Proved for the default smoother and all others that treat bins alike; for explicit smoothers that single out the first bin if the smallest code stays, with a witness otherwise."
  },
  {
   "property": "C112",
   "status": "partial",
   "theorems": [
    "C112_shape_partial",
    "C112_three_quantiles",
    "C112_refused",
    "C112_ties_refuted"
   ],
   "note": "Missing: samples in which two of the three quantiles agree (refuted: C112_ties_refuted). minimize_scalar is a contract."
  },
  {
   "property": "C113",
   "status": "partial",
   "theorems": [
    "C113_gaussian",
    "C113_gaussian_recovered",
    "C113_gamma_reproduced",
    "C113_nbinom_reproduced",
    "C113_nbinom_moments",
    "C113_nbinom_invalid",
    "C113_modes",
    "C113_inverse",
    "C113_constant_refuted"
   ],
   "note": "Refuted for equal quantile values only. curve_fit is a contract; gamma and negative binomial are only shown to reproduce attainable quantiles."
  },
  {
   "property": "C114",
   "status": "partial",
   "theorems": [
    "C114_points_partial",
    "C114_decreasing_refuted"
   ],
   "note": "Points and constant continuation proved; monotonicity is refuted."
  },
  {
   "property": "C115",
   "status": "proved",
   "theorems": [
    "C115_column_order",
    "C115_estimators",
    "C115_default",
    "C115_smoothers"
   ],
   "note": "Proved; smoothers that single out a column (group-by smoothers use the last column) are outside the quantifier."
  },
  {
   "property": "C116",
   "status": "proved",
   "theorems": [
    "C116_estimates",
    "C116_smoothing",
    "C116_neutral"
   ],
   "note": ""
  },
  {
   "property": "C117",
   "status": "proved",
   "theorems": [
    "C117_other_groups_ignored",
    "C117_other_groups_may_be_added"
   ],
   "note": ""
  },
  {
   "property": "C118",
   "status": "partial",
   "theorems": [
    "C118_training_partial",
    "C118_costs",
    "C118_quantile_refuted",
    "C118_dispersion_refuted",
    "C118_dispersion_uncertainty_refuted",
    "C118_price_refuted"
   ],
   "note": ""
  },
  {
   "property": "C119",
   "status": "partial",
   "theorems": [
    "C119_no_influence_partial",
    "C119_calls",
    "C119_documented_interface_refuted"
   ],
   "note": ""
  },
  {
   "property": "C120",
   "status": "partial",
   "theorems": [
    "C120_categories_partial",
    "C120_like_nan_refuted"
   ],
   "note": ""
  },
  {
   "property": "C121",
   "status": "partial",
   "theorems": [
    "C121_copies_partial",
    "C121_continuous_refuted",
    "C121_written_bins"
   ],
   "note": ""
  },
  {
   "property": "C122",
   "status": "partial",
   "theorems": [
    "C122_reported",
    "C122_unknown_columns",
    "C122_unfitted_binner",
    "C122_boundaries_describe_bins",
    "C122_one_label_per_bin",
    "C122_no_empty_bin",
    "C122_labels_partial",
    "C122_category_labels",
    "C122_narrow_bins_refuted",
    "C122_linear_categories_refuted",
    "C122_ticks_always_refuted"
   ],
   "note": ""
  },
  {
   "property": "C123",
   "status": "partial",
   "theorems": [
    "C123_shown_partial",
    "C123_error_bars_refuted",
    "C123_missing_error_bar_refuted",
    "C123_single_factor",
    "C123_ticks",
    "C123_labels",
    "C123_labels_increase",
    "C123_ticks_collapse_refuted"
   ],
   "note": ""
  },
  {
   "property": "C124",
   "status": "partial",
   "theorems": [
    "C124_never_rises_partial",
    "C124_never_worse_partial",
    "C124_smoothers",
    "C124_default_smoothing_refuted"
   ],
   "note": ""
  },
  {
   "property": "C125",
   "status": "partial",
   "theorems": [
    "C125_no_second_effect_partial",
    "C125_effects_ignored_partial",
    "C125_second_effect_refuted",
    "C125_inner_smoother_refuted",
    "C125_one_column",
    "C125_three_columns_refuted",
    "C125_prior_expectation"
   ],
   "note": ""
  },
  {
   "property": "C126",
   "status": "partial",
   "theorems": [
    "C126_learned_mean",
    "C126_missing",
    "C126_between",
    "C126_limit",
    "C126_regularisation_refuted"
   ],
   "note": ""
  },
  {
   "property": "C127",
   "status": "partial",
   "theorems": [
    "C127_at_most_twice",
    "C127_constant_targets",
    "C127_background",
    "C127_background_everywhere",
    "C127_smoothers",
    "C127_training_refuted"
   ],
   "note": ""
  },
  {
   "property": "C128",
   "status": "proved",
   "theorems": [
    "C128_trains",
    "C128_never_diverges",
    "C128_between",
    "C128_limit",
    "C128_missing",
    "C128_full_cells"
   ],
   "note": ""
  },
  {
   "property": "C129",
   "status": "partial",
   "theorems": [
    "C129_same_training_partial",
    "C129_same_passes_partial",
    "C129_poisson_partial",
    "C129_factor_change_refuted"
   ],
   "note": "Proved for all estimators with an additive link, and for the multiplicative ones as long as no pass counts as divergence (after one, the bin of the missing values of such a group gets a factor other than 1, see C24). The criterion minimal_factor_change must not be in use for the trainings to end alike: refuted with it; for equal numbers of passes the estimators agree in any case."
  },
  {
   "property": "C130",
   "status": "proved",
   "theorems": [
    "C130_divisor",
    "C130_default_smoother",
    "C130_limit"
   ],
   "note": ""
  },
  {
   "property": "C131",
   "status": "proved",
   "theorems": [
    "C131_trains",
    "C131_never_diverges",
    "C131_between",
    "C131_limit",
    "C131_missing",
    "C131_heavy_cells"
   ],
   "note": ""
  },
  {
   "property": "C132",
   "status": "proved",
   "theorems": [
    "C132_trains",
    "C132_never_diverges",
    "C132_between",
    "C132_never_worse",
    "C132_limit",
    "C132_majority",
    "C132_missing"
   ],
   "note": "The two bounds on the estimate of a bin (between_evidence) are hypotheses on scipy's beta quantiles and inverse error function; they were checked numerically on a grid, not proved."
  },
  {
   "property": "C133",
   "status": "partial",
   "theorems": [
    "C133_drawn",
    "C133_pictures",
    "C133_box",
    "C133_colours_partial",
    "C133_first_colours_refuted",
    "C133_first_box_refuted",
    "C133_axes",
    "C133_samples",
    "C133_marginal_range",
    "C133_marginal_means_partial",
    "C133_empty_bins_refuted",
    "C133_weights_partial",
    "C133_again",
    "C133_weights_refuted",
    "C133_curves",
    "C133_single_curve"
   ],
   "note": ""
  },
  {
   "property": "C134",
   "status": "partial",
   "theorems": [
    "C134_limit",
    "C134_excess",
    "C134_near",
    "C134_above",
    "C134_passes",
    "C134_unlearned",
    "C134_unlearned_refuted"
   ],
   "note": "C134_limit, C134_excess, C134_near, C134_above and C134_passes prove the claim if the group learns missing values or has none; C134_unlearned and C134_unlearned_refuted show that it fails for groups whose missing values are not learned."
  },
  {
   "property": "C135",
   "status": "partial",
   "theorems": [
    "C135_limit_partial",
    "C135_default_refuted",
    "C135_given_unused"
   ],
   "note": "C135_limit_partial proves the claim for learning rates that do not depend on the limit and with hierarchical feature groups; C135_default_refuted shows that it fails with the default learning rate."
  },
  {
   "property": "C136",
   "status": "partial",
   "theorems": [
    "C136_mean_partial",
    "C136_limit_partial",
    "C136_passes_partial",
    "C136_better_partial",
    "C136_negative_refuted"
   ],
   "note": "Proved for targets that are not negative (closed form, limit, number of passes); refuted for negative targets, which the regressor accepts: training ends with a ConvergenceError. Missing: smoothing, several feature groups, a bin of negative mean target next to a training that stops early."
  },
  {
   "property": "C137",
   "status": "partial",
   "theorems": [
    "C137_rejected",
    "C137_obeyed_partial",
    "C137_innermost",
    "C137_untouched",
    "C137_untouched_mean",
    "C137_numbered_refuted"
   ],
   "note": "Proved for the columns of data frames: acceptance, use of each entry (also within group-by smoothers) and independence of the other groups. Refuted for the numbered columns of arrays, which no accepted dictionary can reach; NoSmootherChoice ignores the dictionary (C36_explicit_refuted)."
  },
  {
   "property": "C138",
   "status": "partial",
   "theorems": [
    "C138_unit_partial",
    "C138_smoothers_partial",
    "C138_smoothing_refuted",
    "C138_location_refuted"
   ],
   "note": "Proved for the background subtraction regressor with smoothers that work in every unit and minimal_factor_change in the same unit; refuted for the weighted-mean smoother (absolute tolerance) and for the baseline of the location regressor (0.001 is added)."
  },
  {
   "property": "C139",
   "status": "partial",
   "theorems": [
    "C139_degree",
    "C139_history",
    "C139_reproduced_partial",
    "C139_equal_partial",
    "C139_smoothing_partial",
    "C139_weights_refuted"
   ],
   "note": "C139_degree, C139_history and, for exact values and for equal weights, the least-squares claim are proved; the limit of smoothing splines for weights of at least one. Refuted for unequal weights: scipy squares them. scipy by its documented contract, knots distinct."
  },
  {
   "property": "C140",
   "status": "partial",
   "theorems": [
    "C140_location_partial",
    "C140_training_partial",
    "C140_passes_partial",
    "C140_factor_change_refuted",
    "C140_background_refuted"
   ],
   "note": "Proved for CBLocationRegressor: predictions for every training, the course of the training unless the criterion of the factor change is used. Refuted for that criterion, and for the background subtraction regressor, which does not centre its values."
  }
 ]
}