# A Rocq model of cyclic-boosting: design

Properties are listed in `properties.jsonl` (C01, C02, ...). `MANIFEST.json` maps each
property to the theorems that prove it. This file says what is modelled, how each property
is proved, what is trusted, and where the code was found to violate a property.

## 1. Layout

    rocq/theories/Model/*.v    executable or declarative model, one file per area, no proofs.
                               Each definition cites the file and lines of /repo it models.
    rocq/theories/Spec/*.v     small independent specifications used in property statements.
    rocq/theories/Proofs/*.v   lemmas.
    rocq/theories/Props/*.v    only the property theorems, each closed by `exact`, with a
                               non-vacuity `Example` next to it and `Print Assumptions` below.
    seeded/LOG.jsonl           wrong programs tried against the theorems, one line each.

Naming: `Cnn_...` proves property Cnn or a clause of it; `Cnn_..._partial` proves a stated
part under a restriction; `Cnn_..._refuted` exhibits a witness on which the code violates the
property as stated; `Cnn_..._always_refuted` shows the violation for all inputs of a kind. A
property with a partial or refuted theorem has the status `partial` in the manifest.

## 2. Modelling conventions

* **Numbers.** float64 values are modelled by exact numbers: `Q` wherever the code can be
  executed in the model (binning, searching, lexicographic numbers, data frames), `R` where
  exp/log/sqrt/sinh occur or where the training loop and the estimators compute with
  factors. NaN and the infinities are explicit constructors (`fnum := Fin q | PInf | NInf |
  NaN`, `rfloat` in Price.v) or `None` in `option R` where the code branches on them or
  where a division by zero or logarithm can produce them. Rounding, overflow and underflow
  of float64 are not modelled.
* **Integers** are `Z`; array lengths and positions are `nat` or `Z` as in the code.
* **Exceptions** are values (`option` or result types with constructors for the errors).
* **Arrays** are lists; in-place writes return the new list. Where aliasing matters for a
  property (C59, C78, C82) the caller's object after the call is part of the result.
* **Loops** are structural recursion, folds, or recursion on explicit fuel. Running out of
  fuel is a separate result, and the theorems show it is never reached or exclude it.
* **Other libraries** are universally quantified functions (Section variables) or are
  replaced by their documented contract; see section 6.
* Logging, warnings, drawing, numba compilation and type annotations are not modelled. Of
  pickling the state that is kept is modelled (`Pickle.v`), of plotting the data offered to
  the plots (`PlotData.v`) and the axes of the plots of one-dimensional features
  (`BinBounds.v`, `PlotAxis.v`).

## 3. Properties

The column "model" names files in `Model/`, the column "theorems in" files in `Props/`.

| id | property | status | model | theorems in | how it is proved; what is missing |
|----|----------|--------|-------|-------------|-----------------------------------|
| C01 | Sorted-array searches return the documented index | proved | BinarySearch | SearchProps | Loop invariant over fuel recursion against "last index with element <= x". le, ge and ge_lim, inclusive and exclusive, for arrays over rationals with infinities; searched value may be NaN. |
| C02 | Bin numbers are always usable as indices | proved | BinTransform | BinningProps | Case analysis on top of C01. Every fit that does not raise, any flags accepted by the consistency check, any weights (also zero), any transformed values. |
| C03 | Continuous binning is monotone and respects the learned boundaries | proved | BinTransform, Ecdf | BinningProps | Monotonicity from the specification of the search. Monotonicity, the exact bin (first right boundary >= x - epsilon) and the end bins, for every fitted continuous column. |
| C04 | Discrete binning separates categories and rejects unseen ones | partial | BinTransform, Ecdf | BinningProps | Rank of a value among the boundaries. Refuted for training columns containing an infinity (stored epsilon becomes infinite). Proved for columns of finite values and NaN; ranks via increasing boundaries; the rejection of other values holds without restriction. |
| C05 | Missing values are always mapped to the missing bin | proved | BinTransform | BinningProps | Case analysis on the flags. Exact characterisation of the missing bin for continuous columns; for discrete columns missing values are mapped to -1 and present training values are not (C04). |
| C06 | Adaptive bins: count, order and minimum weight | proved | Ecdf | BinningProps | Invariant of the reduction loop on the previous cdf and its multiple of the share. For the reduction function on any distribution and for the whole fit from the samples on. |
| C07 | The last learned boundary is the training maximum | partial | Ecdf | BinningProps | As C06; witness for large epsilon. Exact for epsilon 0. With positive epsilon refuted as stated (n_bins=3, tolerance=0.9, epsilon=0.03); proved when epsilon*n_bins < (1-tolerance)/n_bins. |
| C08 | Samples with weight zero do not influence the binning | partial | Ecdf | BinningProps | Comparison with the reduced sample list; witnesses. Refuted: a value occurring only with weight zero stays in the list of values but not in the cdf. Proved if each zero-weight value also occurs with positive weight. |
| C09 | Empirical cdf: values, monotonicity and total | proved | Ecdf | BinningProps | Comparison with a direct specification of the cdf. Values, shares, strict monotonicity, end at 1, permutation invariance of the cdf and of the resulting transform. |
| C10 | Quantile transform interpolates monotonically within [0,1] | proved | BinarySearch, Ecdf | BinningProps | Field reasoning over Q. From the samples on, for finite training values (and NaN), positive weights and epsilon below (1-tolerance)/n_bins. Where the first two boundaries coincide, the probability of the second is returned. |
| C11 | Narrowing of bin-number matrices is lossless | proved | BinTransform | BinningProps | Modular arithmetic. Two's-complement wrap of the chosen type is the identity on the matrix. |
| C12 | Lexicographic bin numbers are a bijection in row order | proved | LexBins | LexProps | Induction on the dimensions. Any number of dimensions; range, injectivity, lexicographic order, arange_multi enumeration, and the shape taken from the data. |
| C13 | Rows with missing or unseen bins go to the missing bin, whatever the rest of the batch | partial | LexBins | LexProps | Witness for the batch dependence. Refuted: in a batch without any valid row, invalid rows get number 0 instead of product(n_bins). Proved for batches with at least one valid row, and batch independence of valid rows. |
| C14 | Unseen-event mask | partial | LexBins | LexProps | Witness. Refuted for multi-dimensional batches without valid rows (too large entries are judged by bin 0). Proved for everything else, including one-dimensional features and rows with missing entries. |
| C15 | Feature-property flags: implications and consistency check | proved | Flags | FlagProps | Bitwise reasoning (N.testbit). Bit-level characterisation of every predicate, of the implications and of both errors of the consistency check. |
| C16 | Every consistent flag value has a faithful textual form | partial | Flags | FlagProps | Exact domain of the conversion; witness. Refuted: flags_to_string raises for values containing HAS_MAGIC_INT_MISSING, INCREASING or DECREASING. Proved instead: exact domain of the conversion and faithfulness of every returned text. |
| C17 | Training terminates and the number of iterations is bounded | partial | Train | TrainProps | Measure and invariant over iterations. Termination and the bound hold for all settings and oracles. That divergence only raises the convergence error is refuted: with hierarchical groups a divergence in the first iterations raises TypeError (remove_preds on an unfitted group), and maximal_iterations=0 always raises TypeError. Proved without hierarchical groups, and with them when nothing diverges. |
| C18 | Training stops only for a documented reason | proved | Train | TrainProps | Induction over iterations. For every returned fit, all oracles; plus what the two change criteria are measured on. |
| C19 | predict on the training data reproduces the in-sample prediction | partial | Train, Predict | PredictProps | Invariant linking factors and in-sample prediction. Proved with aggregation for every divergence pattern, without aggregation when nothing diverged, for any number of rows and groups of any dimension. Refuted without aggregation after a divergence (factors are taken back twice) and for fractional one-dimensional bin numbers (floor in training, rint in prediction). |
| C20 | Learned factors stay within the documented limits | partial | Train | TrainProps | Invariant over accepted iterations. Proved for histories without divergence and for accepted iterations that do not directly follow the first divergence. Refuted after the first divergence: clipping around the unsmoothed factors ignores the limits. |
| C21 | Hierarchical training schedule | proved | Train | TrainProps | Schedule invariant. All schedules; groups that are not hierarchical are neutral and unfitted until the configured iterations are done, all groups are fitted when fit returns. |
| C22 | Divergence is always reported as a convergence error or recovered | partial | Train | TrainProps | Invariant of the rollback. Convergence error exactly at the fifth diverging iteration. Rollback proved with aggregation; refuted without aggregation. |
| C23 | Prediction decomposes into independent row-wise contributions | proved | Predict | PredictProps | Algebra over rows. Any unlink function, any prior column, any batch; splitting, selecting and reordering rows; contribution of each group characterised. |
| C24 | Unseen and missing values are predicted neutrally where promised | partial | Predict, Train | PredictProps | Invariant: factors of empty bins. Out-of-range bins and missing values proved for every fit. Neutrality of unseen categories and of missing values declared not to be learned proved for histories without divergence (or models that are not multiplicative with aggregation); the latter refuted after a divergence. |
| C25 | Feature importances are a probability vector | partial | Importance | ContributionProps | Sums over R; witnesses. Proved for a single fit with distinct joined group names: shares of the mean absolute contributions, non-negative, sum 1 above the rounding threshold. Refuted: refit keeps old entries, colliding joined names, totals up to 5e-7, integer column names. |
| C26 | Adding and removing a contribution are inverse and booked by category | partial | Predict | ContributionProps | Induction over operation sequences. Sums of contributions and include/remove proved for all operation sequences with category names other than the frame's own columns; category columns proved unless a category is first touched by a removal (refuted). |
| C27 | Link functions are inverse to each other and order preserving | proved | Link | LinkProps | Real analysis. Links over the reals; finite exactly in the interior of the accepted range, mutually inverse and increasing there. |
| C28 | Classifier outputs are consistent | proved | Link | LinkProps | Range of the logistic function. |
| C29 | Poisson regression is the special case a=1, c=0 of the negative binomial regression | proved | Estimators | EstimatorProps, LighterProps | Equality of formulas. Poisson and negative binomial regressors compute equal factors and uncertainties for a=1, c=0, for every gamma-median oracle. |
| C30 | Bin estimates are well-defined for every data set | proved | Estimators | EstimatorProps | Positivity of posterior parameters. Negative binomial (and, by C29, Poisson) regressor; the scipy gamma median is any function that is positive on positive numbers. |
| C31 | Generic bin estimate is the minimiser of the regularised chi-square | proved | Estimators | EstimatorProps | Convexity. Uniqueness, convexity bound and the variance formula are part of the theorem. |
| C32 | Location models: calibrated offsets sum to zero | proved | Estimators | EstimatorProps | Sums. Also shows that calibration is a common shift. |
| C33 | Learning rates stay in (0,1] and end at 1 | proved | Train | LinkProps | Order reasoning. |
| C34 | Regularisation to the error-weighted mean is a shrinkage | proved | Regularize | RegularizeProps | Convex combinations. Uncertainties must be positive; the zero case is stated separately. |
| C35 | Regularisation to a prior expectation is a thresholded shrinkage | proved | Regularize | RegularizeProps | Square-root monotonicity. |
| C36 | Smoother choice follows the flags with fixed precedence | partial | SmootherChoice | SmootherProps | Decision table. All three smoother choices with their regression-type and normalisation wrappers. _refuted: INCREASING (2048) alone makes the warning's flags_to_string raise ValueError; SmootherChoice without smoothing ignores explicit smoothers. C36_unusable says exactly which flags raise. |
| C37 | Pinball loss is non-negative and minimised by the quantile | proved | Quantile | QuantileProps | Subgradient inequality. Finite targets and predictions; exact arithmetic. |
| C38 | Approximate continuous quantile lies within the data range | partial | Quantile | QuantileProps | Sorted prefixes; witnesses. Refuted for ties: y=(0,0,1) with unit weights at 2/3 gives 2; y=(0,0,1,1) with weights 1/10 at 1 gives -1 (row numbers are compared with sums of weights), so the baseline of a multiplicative quantile model can be the logarithm of a negative number. Proved without ties, and with the bound +2 for unit weights. |
| C39 | Weighted quantiles have the defining property | proved | Quantile | QuantileProps | Sorted prefixes. For every sort by target. Exact sums: with floats the last running sum can stay below the cutoff for levels near 1, and the code then returns the minimum. |
| C40 | Johnson quantile-parametrised distributions pass through the given quantiles | partial | Qpd | QpdProps | Monotone bijections of R; base distributions by contract. Proved for triplets with skewness in the internal space, for every base distribution meeting the contract (the logistic and sinh-logistic ones are proved to meet it). Refuted: triplets without skewness give NaN (J_QPD_S, J_QPD_B) or miss the outer quantiles (extended versions: sinh(1) is not 1); a quantile at the bound is moved by 1e-12; the cdf is NaN below the lower bound. |
| C41 | Quantile regressor chain returns ordered quantiles | proved | Qpd | QpdProps | Order reasoning. For arbitrary finite predictions of the three chained estimators. |
| C42 | Root finding keeps a bracket and terminates | partial | Price | PriceProps | Invariant of the loop, arbitrary gradients. For all gradient and curvature functions. Bins without finite results are set to 1, which can lie outside the bracket given by the caller (the price model's brackets contain 1). Positive inverse curvature is refuted for curvatures that are no number (the result is NaN); for the price model itself this cannot happen (C42_exponents). The right ends are found with the module's own newton_step whatever step function is passed. |
| C43 | Interaction candidates are complete and duplicate-free | proved | Interactions | InteractionProps | Induction over combinations. |
| C44 | Pipelines forward the user's settings to the estimator | partial | Pipelines | PipelineProps | Finite case analysis over settings. Settings given to a pipeline reach the estimator, except a and c of CBExponential; several defaults differ (exact list in Spec/PipelineSpec.v) and missing required settings become None: refuted by C44_forward_refuted, C44_defaults_refuted, C44_required_refuted. |
| C45 | Default feature groups are all remaining columns | partial | LexBins, Lifecycle | LifecycleProps, SmootherProps | List reasoning. _refuted: the default groups found in the first fit are kept by the estimator, so a refit on data with other columns uses the stale groups. |
| C46 | Two-dimensional neutralisation removes one-dimensional influence | partial | Regularize | RegularizeProps | Matrix sums. Refuted for the row projection: iteration stops after four rounds, whatever the remaining influence. Proved: column projection exactly zero, at most four rounds, row influence at most 0.01 in total if it stops earlier, only row and column effects are subtracted, neutral tables unchanged. |
| C47 | Generic-loss factors are assigned to the right bins | partial | Quantile | QuantileProps | Induction over inserted positions. The order in which Python iterates over the set of empty bins is unspecified; proved for ascending order, refuted for others. scipy.minimize is universally quantified with a stated contract. Refuted for the classifier: start 1/2 becomes factor ln(1/2). |
| C48 | Weighted linear regression recovers linear data | proved | Regularize | RegularizeProps | Field reasoning. |
| C49 | Non-finite training values are ignored by the binning | partial | Ecdf | BinningProps | Filtering. Refuted for infinities ([1, inf] discrete); proved for NaN. |
| C50 | Feature contributions explain the prediction | partial | Predict | ContributionProps, PriceContributionProps | Sums of contributions. Proved for groups with distinct names, for the price model including the groups that act on the external column; refuted for colliding names. |
| C51 | Adaptive bins are as fine as the requested number allows | proved | Ecdf | BinningProps | Invariant of the reduction loop. Exact arithmetic. |
| C52 | Baseline prediction | partial | Link | LinkProps | Algebra; witnesses. Refuted: an all-ones target of the classifier has no finite baseline, and an unusable mean prior does not switch off the individualisation. |
| C53 | Classifier bin estimates match two quantiles of the Beta posterior | proved | Estimators | EstimatorProps | Monotone oracles. scipy's beta.ppf and erfinv are arbitrary functions with the monotonicity (and for the neutrality: symmetry) they are documented to have. |
| C54 | Location-model bin estimates are finite | partial | Estimators | EstimatorProps | Positivity; witnesses. Refuted for a bin whose rows all have weight zero (NaN in the location model) and for a constant target (NaN everywhere in the Poisson-like location model); proved otherwise. |
| C55 | The location model leaves the mean prediction at the baseline | proved | Estimators, Train | EstimatorProps | Sum over rows of calibrated shifts. For arbitrary bin estimates, smoothers, rate and loss; uses the calibration as modelled from location.py. |
| C56 | Regularisation to the neighbouring bins is a shrinkage | partial | Regularize | RegularizeProps | Convex combination; witness. Refuted for locally constant values: the spread of the window is 0 and the result is NaN. Proved whenever two weighted values of the window differ. |
| C57 | Features can be addressed by name, group or identifier | proved | LexBins, SmootherChoice | SmootherProps | List lookup. FeatureList lookup; groups and ids modelled, feature objects abstract. |
| C58 | Normalised smoothing is shift equivariant | proved | MetaSmoothers | MetaProps | Shift invariance. Any inner smoother (state, fit, predict). |
| C59 | Regression types decide exactly where a smoother is trusted | partial | MetaSmoothers | MetaProps | Row-wise reasoning; witness. The two cut theorems are for inner smoothers that leave the passed array unchanged. C59_clamped_refuted: OrthogonalPolynomialSmoother.predict clamps the array in place, so the interpolating cut applied afterwards never sees a row outside the range and the row keeps a prediction. |
| C60 | Section smoothing keeps its two sections apart | partial | MetaSmoothers | MetaProps | Sections; witness. _refuted: nan_representation is never stored (meta_smoother.py:264), so an empty section yields NaN. |
| C61 | Group-by smoothing keeps the groups apart | proved | MetaSmoothers | MetaProps | Grouping by key. Any row-wise inner smoother. |
| C62 | Seasonal smoothing is periodic over the bins | partial | OneDim | OneDimProps | Periodicity; witnesses. curve_fit and LassoLarsIC are universally quantified; fits_curve states the scipy contract. Refuted: RuntimeError (no convergence) is not caught although the fallback is announced for it; the lasso variant has the number of the last bin as period. |
| C63 | Polynomial and linear smoothers are weighted least-squares fits | partial | OneDim | OneDimProps | Normal equations. numpy.polyfit by its documented contract. Proved in full for exact data and for equal uncertainties; refuted for unequal ones: weights 1/sigma^2 are applied to unsquared residuals. |
| C64 | The orthogonal-polynomial smoother is a weighted least-squares fit of adaptive degree | proved | Orthofit | OneDimProps | Gram-Schmidt invariant. Exact arithmetic over R. |
| C65 | The quantile regressor chain inverts its own transformations | partial | Qpd | QpdProps | Algebra; witnesses. The median is inverted. Lower quantile: proved for positive medians (with a negative lower bound and a negative median the rows above the median are selected). Refuted for the upper quantile: fit divides by (median - lower quantile), predict does not multiply back; in bounded mode fit raises unless all targets are above the median because the upper bounds are not masked (quantile_matching.py:804). |
| C66 | The density of the sinh-logistic distribution is the derivative of its cdf | proved | Qpd | QpdProps | Derivatives (derivable_pt_lim). |
| C67 | The price model's Newton step uses the exact derivatives of the penalised loss | proved | Price.v, PriceFit.v | PriceFitProps, PriceProps | Derivatives; the columns that training passes to the Newton step are identified with those of the objective. |
| C68 | Price model predictions have the documented exponential form | proved | Price.v, PriceFit.v | PriceFitProps, PriceProps | Algebra; for trained models by decomposing predictions row by row. The docstring promises a ValueError for non-positive external values; the code accepts them. |
| C69 | Standard and external feature groups are combined without mixing them up | proved | Price | PriceProps | List reasoning. |
| C70 | The column of an interaction term distinguishes exactly the combinations of bins | proved | Interactions | InteractionProps | From C12. |
| C71 | Interaction selection returns the best scored terms | proved | Interactions | InteractionProps | Sorted selection. sklearn's SelectKBest is modelled by its documented contract (stable argsort, NaN scores replaced by the smallest float); the score function is arbitrary. |
| C72 | The dispersion step picks the best of a symmetric grid and never increases the loss | partial | Dispersion | DispersionProps | Minimum over a list. Holds except that without the Bayesian average a bin without data gets the most negative candidate instead of staying neutral (C72_empty_bin_refuted and, for all data, C72_empty_bin_always_refuted). log-gamma is universally quantified. |
| C73 | The dispersion model describes a negative binomial distribution with the predicted mean and variance mu + c mu^2 | proved | Dispersion | DispersionProps | Algebra. |
| C74 | Background subtraction regression shrinks the mean residual towards zero | partial | Gbs | GbsProps | Quadratic forms. Shrinkage, ridge optimality and the loss statements are proved. Refuted: regalpha = 0 still shrinks (the prior adds 1 to the denominator); a bin whose rows are predicted exactly or that is empty gets uncertainty 0, and the default smoother of a categorical feature then returns NaN for every bin. |
| C75 | Uncertainties of loss-minimising modes are positive and finite and shrink with evidence | partial | LossModes | LossModeProps | Monotonicity. Refuted for the additive mode: rows of total weight zero give NaN. |
| C76 | fit rejects targets outside the documented range and empty data | partial | Targets | TargetProps | Case analysis. Refuted: +infinity is accepted by all multiplicative modes; the background subtraction accepts anything; the length check is a chained comparison and misses an empty target. |
| C77 | Quantile regression starts from the training quantile | partial | LossModes | LossModeProps | From C38. Proved for distinct targets; with ties the starting point is the continuous approximation of C38. Refuted: a quantile of 0 gives an infinite start in the multiplicative mode. |
| C78 | Binning a data frame keeps its shape and touches only the declared columns | partial | Frames | FrameProps | Induction over the columns. Proved for the table and for every accepted frame; refuted: a failing in-place transform leaves the caller's table half converted, and the quantile conversion overwrites the caller's float frame and always renumbers the index. |
| C79 | fit_transform and transform add exactly the prediction column | partial | Lifecycle | LifecycleProps | Case analysis; arbitrary learner. Proved for all estimators but the dispersion model, which may also clip the prior column; agreement of fit_transform and transform proved for regressors; refuted for classifiers (probabilities against classes), negative additive predictions, the dispersion model and the price model with external features (always an error), and for the column name 0. |
| C80 | required_columns lists what fit and predict need | partial | Lifecycle | LifecycleProps | Reads of columns. predict: all estimators; fit: all but the dispersion model, whose column of means is not listed (refuted). |
| C81 | Predicting before fitting is refused | partial | Lifecycle | LifecycleProps | Case analysis. An estimator with features fails, but never with the documented error (refuted); without features the prior column is returned. |
| C82 | fit and predict leave the caller's data unchanged | partial | Lifecycle | LifecycleProps | Case analysis. Proved for all estimators except the dispersion model with a prior column, which clips the caller's column (refuted). |
| C83 | Monotonic features keep their direction | partial | Isotonic, SmootherChoice, MetaSmoothers, Train | IsotonicProps | Correctness of pool adjacent violators by an invariant on the blocks (optimality by convexity); invariant of the training loop that the learned contributions follow the direction; witness runs. Proved: optimality and uniqueness of the isotonic fit, monotonicity and range everywhere, and the direction of the learned contributions when a direction is flagged. Refuted: without a flagged direction (direction is chosen per iteration) and after a divergence with a log link (contributions are clipped to raw estimates). |
| C84 | The order of the training rows does not matter | proved | WholeFit, BinFit, PriceFit, Train, Estimators, Gbs, Frames, BinFit, Refit, Pipe | BinFitProps, PriceFitProps, ShuffleProps, WholeProps | Simulation of two runs of the training loop: all bin sums are sums over rows, hence equal after a permutation. For estimators that look at the rows of a bin: the bin contents are permutations of each other, and estimates and losses do not depend on the order. Pipelines: the fitted binning depends on the multiset of the values only; binned frames are permuted alike. For all six bin-wise estimators, the loss-minimising modes, the dispersion estimator, the price model and whole pipelines (C84_pipeline, binning included); floating-point rounding is not modelled. |
| C85 | Weights act as multiplicities | partial | WholeFit, BinFit, PriceFit, Train, Estimators | BinFitProps, PriceFitProps, WeightProps, WholeProps | The same simulation, with sums that are linear in the weights; with smoothers that ignore uncertainties only the values of the estimates need agree (the variance of the GBS estimates is a sum of squares). Witness runs for the location, LocPoisson and GBS models. For dispersions: equality of two runs that differ in the weights only. For quantile regression: the two baselines. For prices: two runs of one iteration. Proved for the Poisson, negative binomial and binary models, and for the location and the GBS model where the smoothers do not look at the uncertainties. False for the location and the GBS model with uncertainty-weighted smoothers, for the LocPoisson model, for quantile regression (baseline), for the dispersion estimator (weights unused) and for external groups of the price model: see the refutations. |
| C86 | The location regressor moves with the target | proved | WholeFit, Train, Estimators | WholeProps | Simulation of two runs whose predictions differ by a constant. |
| C87 | The numbers of the categories do not matter | proved | WholeFit, BinSmoothers, LexBins, Train, Predict | RelabelProps | Simulation of two runs whose vectors differ by the permutation of lexicographic numbers that the renumbering induces; the default smoother commutes with permutations of bins. Witness run for an explicit smoother that does not. Proved for the default smoother and all others that treat bins alike. An explicit WeightedMeanSmoother without prior prediction and normalisation singles out category 0: proved for renumberings that keep it, with a witness that others change the training. |
| C88 | A clone has the settings of the original and shares nothing with it | partial | Cloning, Pipelines | CloneProps | Induction over object trees with identities; explicit attributes of all constructors. Objects are trees with identities. Proved: settings, nothing learned, no sharing but the declared one, for clone on all object trees, and equality of all settings for all estimators. Refuted for fitted estimators without feature groups: the groups found in the data stay. |
| C89 | Settings changed after construction act as settings given to the constructor | partial | Cloning, Pipelines | CloneProps | Case analysis over all constructors and settings; witnesses. Proved for all settings but the hierarchical groups and the feature groups of the price model, values other than None for settings with default objects, and learning rates without hierarchical groups. The rest is refuted, as is the documented default learning rate. |
| C90 | Features do not share smoothers | proved | Cloning | CloneProps | Freshness of the identities of clones; learning leaves trees without the object unchanged. Proved for all choices of smoothers; that smoother classes declare no shared parameters is read off the source. |
| C91 | The diagram of predictions against targets shows what it says | partial | Diagnostics, Quantile | DiagnosticsProps | Counting sorted boundaries gives the part of the range; quantiles between sorted values are monotone; groups are filtered rows. Positive weights; with zero weights entries and centres differ in number (refuted). Floats are real numbers. |
| C92 | Smeared cdf values of a correct discrete distribution are uniform | partial | Diagnostics | DiagnosticsProps | The probability for each sample is a clamped linear function; the sum telescopes; limit for n to infinity. Distributions on the natural numbers; refuted for negative values. The random number is uniform on [0, 1] by holds_below. |
| C93 | Saving and loading a smoother does not change it | proved | Pickle | DiagnosticsProps | Induction over arrays and attribute lists; extensionality of dictionaries. Attributes are arrays, None or opaque values; -0.0 and 0.0 are identified. scipy's csr format is modelled as the list of entries other than zero. |
| C94 | A plotting observer records every iteration once and keeps the requested state | partial | Diagnostics, Train | DiagnosticsProps | Induction over the loop gives the list of observer calls; filters of an interval of iteration numbers. Refuted for the last iteration. Features kept are those of the state; predictions passed after a diverging pass are those before factors were taken back. |
| C95 | A failed training leaves no half-trained model | partial | FailedFit.v, Train.v, Predict.v | FailedFitProps | object after a failure at any point derived from the passes of the training; induction over features and iterations; refuted after the first pass, with a diverging training as witness Failures before the passes and in the first pass are proved safe (except for data whose rows all lack the last feature), and success leaves the trained model. Refuted after the first pass: the estimator answers with a half-trained model. |
| C96 | Data for plots match the bins of the features | partial | PlotData.v, Quantile.v, Estimators.v, LexBins.v | PlotProps | sums per bin, monotonicity of logarithm and smoothing; induction over inserted empty bins; refuted for empty last cells of quantile estimators and for levels of empty bins Deviations proved for regressions and classification, and for bins with rows of quantile estimators with positive weights. Refuted: number of entries for quantile estimators, levels of empty bins. |
| C97 | Predictions lie in the range of the target | proved | WholeFit.v, BinFit.v, PriceFit.v, Predict.v, Link.v | BinFitProps, PriceFitProps, WholeProps | every prediction is an inverse link of a finite sum; range of exp and expit (real arithmetic, floats can round to the ends) Real arithmetic: a float prediction can round to 0, 1 or overflow. |
| C98 | Predicted dispersions start from the prior | partial | BinFit.v, Dispersion.v, Predict.v | BinFitProps | The scale of the dispersion estimator is neutral; prediction of a row as inverse link of prior plus contributions. Proved for priors strictly between 0 and 1 and for missing priors. At 0 and 1 (and beyond, after clipping) the prior is replaced by one half: C98_ends_refuted. |
| C99 | Without prices the price model is the negative binomial model | proved | PriceFit.v, WholeFit.v, Price.v | PriceFitProps | Simulation of the two trainings step by step: with base 0 the link predictions are the factors. |
| C100 | Training again forgets the earlier training | partial | Refit.v, WholeFit.v, Diagnostics.v, Importance.v | RefitProps | The attributes of the object as a record, each training as a sequence of assignments; nothing that a training reads is left from before. Refutations: default feature groups, importances, observers. Proved for given feature groups: outcome, baseline, iterations, loss and all predictions do not depend on earlier trainings, whatever state they left. Refuted: default feature groups, importances and observer records carry over. |
| C101 | The order of the columns does not matter | partial | Refit.v, Frames.v | RefitProps | Columns are read by label; permuted frames give the same columns. Refutation: a training with two correlated columns and default feature groups. Proved for prediction, and for training with given feature groups. Refuted for default feature groups. |
| C102 | Pipelines use the caller's weights and prior predictions | partial | Pipe.v, Frames.v, Refit.v | PipeProps | The binner leaves undeclared columns unchanged, so the targets read from the binned frame are those of the raw one. Refutation: without feature properties all columns are binned. Proved for columns that feature_properties does not name (C102_train_partial, C102_predict_partial). Without feature_properties the weights and prior predictions are binned: C102_weights_refuted, C102_weights_always_refuted, C102_priors_always_refuted. |
| C103 | The unit of a continuous column does not matter | proved | Pipe.v, Frames.v, BinFit.v, Ecdf.v | PipeProps | An affine map commutes with every comparison and with the tolerance of the boundaries, so the bin numbers, hence the trainings, are equal. In exact arithmetic; continuous columns are those binned by quantiles (no magic integer for missing values). |
| C104 | Only the order of the values of a column matters | proved | Pipe.v, Frames.v, BinFit.v, Ecdf.v | PipeProps, RecodeProps | With well spread values the binary search falls on ranks, which an increasing map keeps. The categories of a discrete column are listed in increasing order, so an increasing recoding leaves their numbers. In exact arithmetic. The tolerance 10^-9 of the range is the one of ECDFTransformer; values closer than this share a bin, and which do changes with the scale. |
| C105 | Predictions of a pipeline are step functions of the row | proved | Pipe.v, Frames.v, Predict.v | PipeProps | Binning and prediction are maps over rows; the bin of a value depends on the comparisons with the upper boundaries, of which there are at most bins - 1 that separate bins. |
| C106 | Predictions of a pipeline follow the declared direction of a column | proved | Pipe.v, Refit.v, Isotonic.v, SmootherChoice.v, Train.v, BinTransform.v | PipeMonotoneProps | The bin number grows with the value and never exceeds the last bin that training saw; isotonic steps, clipping at common limits and sums of monotone steps are monotone in the bin number, and the links are increasing. |
| C107 | The reported training loss is the loss of the predictions | partial | Train.v, Predict.v, WholeFit.v, BinFit.v, PriceFit.v | InsampleProps | Invariant of the training loop: the running sum of each training row is the prior plus the sum of the current factors of its bins; the loss is that of the running sums at the end. For CBLocPoissonRegressor only if all predictions on the training data are positive; refuted otherwise: predict cuts at 0, the training loss does not. |
| C108 | Of prior predictions only the ratios or differences matter | proved | Link.v, Predict.v, WholeFit.v, BinFit.v, PriceFit.v | PriorProps | The offset moves by the same amount in link space as the prior predictions, in the other direction; so all rows start at the same predictions, and training is a function of these, the bins, targets and weights. |
| C109 | The stopping criteria decide nothing but when training stops | proved | Train.v, WholeFit.v, BinFit.v, PriceFit.v | StopProps | An iteration does not look at the criteria, so all trainings walk along one sequence of states; induction over the loop shows that they stop at the first state that does not continue. |
| C110 | Mirrored targets give the mirrored model | partial | WholeFit, Train, Estimators, Gbs, Regularize, BinSmoothers, Predict | MirrorProps | Simulation of the run and its mirrored run: all estimates change their sign and keep their uncertainty, losses and factor deviations are equal; refuted for whole trainings of the location model and the classifier by balanced data in one category. Proved for the background subtraction regressor; for the location regressor and the classifier from the baseline on, where the 0.001 added to the mean refutes the full statement. |
| C111 | The codes of the categories in the data frame do not matter | proved | Ecdf, BinTransform, Frames, LexBins, WholeFit, BinSmoothers, Refit, Pipe | RecodeProps | The recoding permutes the bin numbers of the column: the fitted boundaries are the sorted distinct codes. The renumbered columns of the binned frame induce a permutation of the lexicographic numbers of each group, and the simulation of C87 applies. Witness of C87 in a three-row frame for an explicit smoother that singles out the first bin. Proved for the default smoother and all others that treat bins alike; for explicit smoothers that single out the first bin if the smallest code stays, with a witness otherwise. |
| C112 | The fitted shape parameter improves the quantile-parametrised distribution | partial | Qpd, QuantileFit | QuantileFitProps | The constructors calculate the Johnson parameters from the triplet alone, so the object with an assigned shape is the constructed one; the base distribution is scaled to -1, 0, 1 at the three quantiles for every shape. The optimiser is an argument with the contract that it does not end worse than at 0 and 1. Refuted for a sample in which lower quantile and median agree. Missing: samples in which two of the three quantiles agree (refuted: C112_ties_refuted). minimize_scalar is a contract. |
| C113 | Distributions fitted to quantiles are the closest ones | partial | Qpd, QuantileFit, Regularize | QuantileFitProps | The deviation of a Gaussian is the squared error of a line over the scores of the quantiles, whose unique minimiser is known from C48; its slope is positive since the covariance is half a double sum of non-negative products. A deviation of zero forces every residual to zero (gamma, negative binomial). curve_fit is an argument. Refuted for equal values: the infimum is not attained. Refuted for equal quantile values only. curve_fit is a contract; gamma and negative binomial are only shown to reproduce attainable quantiles. |
| C114 | Spline-interpolated quantile functions do not decrease | partial | QuantileFit | QuantileFitProps | The interpolation is an argument that passes through the points and, for four points, is a cubic polynomial; refuted by four increasing points whose cubic decreases in the middle. Points and constant continuation proved; monotonicity is refuted. |
| C115 | The order of the columns within a feature group does not matter | proved | LexBins, Train, Predict, WholeFit, BinSmoothers, Refit, Pipe | ColumnOrderProps | The positions of the columns in the other order induce a permutation of the lexicographic numbers of the bins that keeps the first; the simulation of C87 generalised to groups with different shapes; smoothers that commute with such permutations. Proved; smoothers that single out a column (group-by smoothers use the last column) are outside the quantifier. |
| C116 | The price model learns exponents only from rows with a price | proved | Price, PriceFit | PriceFitProps | Rows without a price have base zero and weight zero, so that the Newton steps are the same functions; bins without weight are invalid from the start, an invariant of the loop of the root finding, and start at one. |
| C117 | In the first iterations hierarchical feature groups are trained as if they were alone | proved | WholeFit, Train | HierProps | Simulation: one pass over all groups touches only the hierarchical ones, so both trainings run in lockstep; induction over the history of training. |
| C118 | Rows of weight zero have no influence on training | partial | Train, Estimators, WholeFit, BinFit, PriceFit | ZeroWeightProps | Simulation of two trainings: all sums in which rows count by their weight agree with and without the rows of weight zero; for the loss-minimising modes the filtered rows of each bin give the same estimate. Counterexamples for quantile, dispersion and price models. |
| C119 | Observers follow a training without influencing it | partial | Observers, Train | ObserverProps | The observed loop is the loop interleaved with calls: induction over groups and passes gives one list of calls, the same for all observers, with its schedule as invariant. Refuted for the documented interface: the number of arguments differs. |
| C120 | Numbers declared to mean missing are treated like NaN by the binning | partial | Ecdf, BinTransform | MagicProps | Ranks in two sorted lists with the same values; witness with eight rows. |
| C121 | In a pipeline a row with weight n counts like n rows | partial | Frames, Pipe, Refit, WholeFit | RepeatProps | Categorical bins depend only on which values occur; the binned rows written out say the same as the weighted ones (permutation and splitting of weights), so that C85 applies to the training. Witness for continuous columns: three rows, three bins. |
| C122 | The boundaries and labels shown for a column describe its bins | partial | BinBounds, Frames, Ecdf, BinTransform | BoundsProps | Dictionary updates as look-ups; the search theorem C03 turned into an equivalence; all gaps between boundaries are at least the smallest one, of which epsilon is a fraction below one half; rounding moves a label by at most 5e-6. |
| C123 | The vertical axis of a factor plot shows what is drawn | partial | PlotAxis | AxisProps | The ends of the axis bound minimum and maximum of all values; the search for the number of ticks ends because dividing by ten decreases the distance; ticks are at least 1/20 apart and labels at most 1/100 off. |
| C124 | Training never makes the background subtraction regressor worse on its training data | partial | WholeFit, Gbs, Train, BinSmoothers, Diagnostics | DescentProps | The weighted squares of a bin are a parabola in the step whose minimum the unregularised estimate is; a step between 0 and the estimate goes down; induction over groups and passes; the default smoothing moves estimates towards their weighted mean instead of 0. |
| C125 | Meta-smoothers: interactions without effects of single columns, prior expectations on top | partial | TableSmoothers, Regularize, LexBins, BinSmoothers | TableProps | The reshaped table has the bins of the group as entries; the first round of the neutralisation gives the same table with and without a balanced effect; then as C46 and C35. |
| C126 | A single feature group learns the mean target of each bin | partial | WholeFit, Train, Gbs, LexBins, Predict | CellProps | Invariant of the loop: within a bin all predictions are equal, and follow a linear recursion solved by the closed form; no divergence by C124; rows share a lexicographic bin exactly if they hold the same bin numbers; limit by geometric decay. |
| C127 | A trained model is at most twice as bad as the baseline on its training data | partial | WholeFit, Train, Gbs, Estimators, Link, Predict | ConstantProps | The loss of the last pass is within the limit of the divergence check, and is the deviation of the predictions (C107); weighted means of constant targets; invariant of the loop that no factor moves; the refutation runs the nine passes symbolically with bounds on exp and ln. |
| C128 | A Poisson regressor with a single feature group learns the mean target of each bin | proved | WholeFit, Train, Estimators, Link, Predict | PoissonCellProps | Invariant of the loop: each bin is at the value of a scalar recursion; the recursion moves monotonically towards the ratio of the posterior estimates without passing it, by steps bounded from below while it is away from the limit; sums over bins bound the loss, so no pass counts as divergence. The median of the gamma distribution enters by its known bounds (`median_near`), which are hypotheses. |
| C129 | A feature group without any value in the training data has no influence | partial | WholeFit, Train, Predict, LexBins, Estimators | InertProps | Simulation: the states of the two loops agree outside the group, whose factors stay neutral; step by step over a pass, a roll-back and the stopping criteria; the refutation runs both trainings symbolically. Proved for all estimators with an additive link, and for the multiplicative ones as long as no pass counts as divergence (after one, the bin of the missing values of such a group gets a factor other than 1, see C24). The criterion minimal_factor_change must not be in use for the trainings to end alike: refuted with it; for equal numbers of passes the estimators agree in any case. |
| C130 | A constant dispersion of the negative binomial regressor acts like a divisor of the weights | proved | WholeFit, Train, Estimators, Link, BinSmoothers | LighterProps | Two trainings that see the same estimates, smoothed values and losses are equal (induction over the passes with the invariant that there is one prediction per row); the estimates agree bin by bin, baseline and loss do not depend on the scale of the weights; the limit follows from C128. |
| C131 | A negative binomial regressor with a single feature group learns the mean target of each bin | proved | WholeFit, Train, Estimators, Link, Predict | DispersedProps | Invariant of the loop: each bin is at the value of a scalar recursion whose target moves with the dispersion of the current prediction but stays in a fixed interval around the mean target; the recursion enters every neighbourhood of that interval and stays there; sums over bins bound the loss, so no pass counts as divergence. The median of the gamma distribution enters by its known bounds (`median_near`), which are hypotheses. |
| C132 | A classifier with a single feature group learns the frequency of the class in each bin | proved | WholeFit, Train, Estimators, Link, Predict | ClassifierCellProps | Invariant of the loop: each bin is at the value of a scalar recursion in link space; a step moves the probability towards the frequency of the class 1 without passing it and by at least a fixed share of the distance, so the squared deviation of each bin falls. The mean of the Gaussian matched to the quantiles of the beta distribution enters by two bounds (`between_evidence`): it lies between 0 and the logarithm of the odds of the evidence, and is not too close to 0. They are hypotheses; for the beta distribution they were only checked numerically, on a grid of evidence up to 100000, not proved. The two bounds on the estimate of a bin (between_evidence) are hypotheses on scipy's beta quantiles and inverse error function; they were checked numerically on a grid, not proved. |
| C133 | The plot of a feature group of two columns shows what was learned | partial | Plot2D, PlotAxis | Plot2DProps | The reshaped lists are tables of the values of pairs of bins; transposition and sums are computed on tables. Marginals are weighted means of positive numbers; the weights of the bins are sums over the training rows by induction on the rows. The axis contains the minimum and the maximum of what is drawn (as for C123). |
| C134 | A single feature group of the location regressor learns the mean target of each bin | partial | WholeFit, Train, Estimators | LocationCellProps | The residuals of the rows follow r := r - rate * (s r - mean of s r); the fixed point is a constant over s; the weighted squared distance from it contracts in each pass; the losses are bounded by splitting them within and between bins. The refutation for missing values follows from the centring of the summands (C55). C134_limit, C134_excess, C134_near, C134_above and C134_passes prove the claim if the group learns missing values or has none; C134_unlearned and C134_unlearned_refuted show that it fails for groups whose missing values are not learned. |
| C135 | maximal_iterations is only a limit | partial | LearnRate, WholeFit, Train, Link | LimitProps | The learning rate is the same function for all limits if it does not depend on the limit, so C109 applies. The refutation computes the first pass of a background subtraction regressor symbolically for an arbitrary limit. C135_limit_partial proves the claim for learning rates that do not depend on the limit and with hierarchical feature groups; C135_default_refuted shows that it fails with the default learning rate. |
| C136 | A single feature group of the Poisson-like location regressor learns the mean target of each bin | partial | Estimators, WholeFit, Train, Link | LocPoissonCellProps | Within a bin the prediction is constant and positive, so the estimate is the share times the distance to the mean target; the closed form is an invariant of the loop and the loss never exceeds the initial one. The refutation runs eleven passes symbolically for a bin with the target -1. Proved for targets that are not negative (closed form, limit, number of passes); refuted for negative targets, which the regressor accepts: training ends with a ConvergenceError. Missing: smoothing, several feature groups, a bin of negative mean target next to a training that stops early. |
| C137 | Explicit smoothers are checked and reach exactly their feature groups | partial | ExplicitSmoothers, SmootherChoice | ExplicitProps | The checks of the constructor are equivalent to well-formedness; lookups by equality of keys; the choice depends on the lookups of the group and of its last column only. Proved for the columns of data frames: acceptance, use of each entry (also within group-by smoothers) and independence of the other groups. Refuted for the numbered columns of arrays, which no accepted dictionary can reach; NoSmootherChoice ignores the dictionary (C36_explicit_refuted). |
| C138 | The unit of the target does not matter | partial | Estimators, Gbs, WholeFit, Train, BinSmoothers | TargetUnitProps | Simulation of the two trainings in step, with factors, predictions and losses in proportion; the loss stays positive because two rows differ in the target only. Proved for the background subtraction regressor with smoothers that work in every unit and minimal_factor_change in the same unit; refuted for the weighted-mean smoother (absolute tolerance) and for the baseline of the location regressor (0.001 is added). |
| C139 | Spline smoothers are weighted least-squares fits | partial | LsqSpline | LsqSplineProps | scipy is an argument with its documented contract; sums of squares that vanish term by term; the least line of three bins by completing squares. C139_degree, C139_history and, for exact values and for equal weights, the least-squares claim are proved; the limit of smoothing splines for weights of at least one. Refuted for unequal weights: scipy squares them. scipy by its documented contract, knots distinct. |
| C140 | A constant column has no influence | partial | ConstantColumn | ConstantColumnProps | the weighted sum of the contributions of a group is 0 (C55), so a constant contribution is 0; simulation of the training with the group by the one without. Proved for CBLocationRegressor: predictions for every training, the course of the training unless the criterion of the factor change is used. Refuted for that criterion, and for the background subtraction regressor, which does not centre its values. |

## 4. Violations found

Each item is a theorem with the suffix `_refuted`; the line numbers are those of /repo.

Binning and bin numbers
* C04, C49: an infinite training value makes the stored epsilon infinite, so other training
  values are mapped to the missing bin or the fit fails (ecdf_transformer.py).
* C07: with epsilon close to the share of a bin, the last boundary can stay below the training
  maximum (`reduce_cdf_and_boundaries_to_nbins`).
* C08: a value that occurs only with weight zero stays in the list of values but not in the
  cdf: a discrete fit raises, a continuous fit shifts its boundaries.
* C13, C14: in a batch without any valid row, invalid rows get lexicographic number 0 or are
  judged by bin 0 (utils.py, `multidim_binnos_to_lexicographic_binnos`, `not_seen_events`).
* C16, C36: `flags_to_string` raises for consistent flags with HAS_MAGIC_INT_MISSING,
  INCREASING or DECREASING; the warning about unusable flags raises for the same reason.
* C78: a failing in-place `transform` leaves the caller's table half converted (the check only
  counts columns); the quantile transformer overwrites float data of the caller and always
  replaces the index by 0, 1, 2, ...

Training and prediction
* C17: with hierarchical groups, divergence in the first iterations raises a TypeError
  (`remove_preds`, base.py:557, on a group that was never fitted); `maximal_iterations=0`
  always raises a TypeError.
* C19, C22: without aggregation, a rollback after divergence takes factors back twice; the
  fitted model and the in-sample prediction disagree. Fractional one-dimensional bin numbers
  are rounded down in training and to the nearest integer in prediction.
* C20: the clipping after the first divergence ignores both factor limits.
* C24: after a divergence a missing value that is declared not to be learned gets a factor.
* C25: importances of an earlier fit are kept; groups with the same joined name collide;
  totals up to 5e-7 are not normalised; integer column names fail.
* C26, C50: categories named like columns of the frame, first removals, and colliding names of
  feature groups are booked wrongly.
* C45: default feature groups of the first fit are used in a refit on data with other columns.
* C52: the classifier has no finite baseline if all targets are 1; a mean prior outside the
  range of the link does not switch off the individualisation although the log says so.
* C76: infinite targets pass the check of all multiplicative modes; GBSregression checks
  nothing; `len(X) == 0 | len(y) == 0` (base.py:948) is a chained comparison that misses an
  empty target.
* C79: `fit_transform` of a classifier adds probabilities, `transform` adds classes; negative
  additive predictions are cut only by `transform`; `fit_transform` of the dispersion model
  and of the price model with external features always fails; after an aborted fit the
  dispersion model uses the means of the aborted call; the column name 0 counts as undefined.
* C80: the dispersion model's column of means is missing in `required_columns`.
* C81: predicting before fitting never raises the documented error, because the constructor
  already sets `self.features` (base.py:331); without feature groups the prior is returned.
* C82: the dispersion model clips the prior column of the caller's frame (nbinom.py:146).

Estimators
* C38, C77: with ties the approximate continuous quantile leaves the range of the data (row
  numbers are compared with sums of weights); a quantile of 0 has no finite start in the
  multiplicative mode.
* C42: curvatures that are no number lead to NaN variances.
* C47: bins get wrong factors if the set of empty bins is not iterated in ascending order; the
  neutral start of the generic classifier is not neutral in link space.
* C85: the location regressor and the GBS regressor learn other contributions from rows with weight
  2 than from the same rows twice if a smoother weighs the bins by their uncertainties, since these
  are quadratic in the weights. In CBLocPoissonRegressor they enter the estimates themselves
  (location.py:21-75): two bins with weight 2 get half the contributions of the same rows twice.
* C54: NaN for a bin without weight (location model) and for a constant target
  (Poisson-like location model).
* C72: without the Bayesian average a bin without data gets the most negative candidate.
* C74: `regalpha=0` still shrinks; exactly predicted or empty bins get uncertainty 0, and the
  default smoother of a categorical feature then returns NaN for all bins.
* C75: rows of total weight zero give a NaN uncertainty in the additive mode.

Smoothers
* C36: the choice class without smoothing ignores explicit smoothers.
* C46: the neutralisation stops after four rounds whatever the remaining row influence.
* C56: constant values in a window of neighbours give NaN.
* C59: `OrthogonalPolynomialSmoother.predict` clamps its argument in place, so a row beyond the
  bins keeps a prediction although the regression type forbids it.
* C60: `nan_representation` is not stored (smoothing/meta_smoother.py:266).
* C62: a seasonal fit without convergence raises instead of falling back; the lasso variant
  has a period of n-1 bins.
* C63: the polynomial fit applies weights 1/sigma^2 to unsquared residuals.
* C87: an explicitly given `WeightedMeanSmoother()` (no prior prediction, `use_normalization=False`)
  leaves the values unchanged if all are close to the value of category 0 (`np.allclose(x, x[0])`,
  utils.py:837), which depends on the number of the categories; a renumbering changes predictions.
* C83: a monotonic column without direction gets a direction anew in each iteration, the sum
  of two iterations need not be monotone; after a divergence with a log link the contributions
  are clipped to the raw estimates, which breaks a given direction.

Quantile-parametrised distributions and pipelines
* C40: triplets without skewness give NaN or miss the outer quantiles; a quantile at the bound
  is moved; the cdf is NaN instead of 0 below the bound and not monotone at it (extended form).
* C44: `pipeline_CBExponential` drops `a` and `c`; many defaults differ from those of the
  estimators; missing required settings become None.
* C65: the upper quantile is divided by (median - lower quantile) in fit and not multiplied in
  predict; in bounded mode fit fails unless all targets are above their medians.
* C88: training stores the feature groups found in the data as setting, so that a clone of a
  fitted estimator does not determine them anew.
* C89: `set_params(hierarchical_feature_groups=...)` leaves the list of hierarchical features empty,
  so that all features are skipped in the first iterations; changed standard or external feature
  groups of `CBExponential` have no effect; a learning rate given together with hierarchical groups is
  silently replaced by 1; the documentation says the default learning rate is always 1, but it
  grows linearly from one half.
* C91: a part of the range whose rows all have weight zero has an entry (NaN) but no centre; the
  lists passed to `plt.plot` then differ in length, which matplotlib rejects.
* C92: `smear_discrete_cdftruth` takes 0 as cdf before every y < 1, which is wrong for distributions
  with negative values.
* C94: `PlottingObserver(iteration=m)` stays empty if the training ends with iteration m (for example
  m = maximal_iterations), because the state is only offered before the next iteration.
* C95: after a training that raised in or after the first complete pass (for example
  ConvergenceError), `predict` answers without complaint: new global scale plus the last single
  smoothed step of each feature, neither the former model nor an accepted state of the training.
* C96: `prepare_plots` of the quantile estimators appends at most one entry for trailing empty bins;
  for a feature of two columns whose last combinations are empty the arrays are too short and
  `plot_factor_2d` fails in `np.reshape`. In all estimators empty bins are shown with the
  level 1 instead of the overall level.
* C85: the dispersion estimator does not use the weights of rows (two "TODO: use weights" in
  nbinom.py:116, 133), so a row of weight 2 counts once and two copies of it twice.
* C85: the baseline of quantile regression depends on how weights are divided among copies: one
  row with target 1 and weight 2 gives the median 1, two copies of weight 1 give 2
  (utils.py:1046-1061, generic_loss.py:377-404).
* C98: a prior dispersion of exactly 0 or 1 (or outside of the interval, which is clipped to the
  end) has an infinite logit and is replaced by the neutral value, one half (nbinom.py:147-150).
* C85: the prior of the exponents of the price model is averaged over the rows of a bin without
  their weights (price.py:192-206), so that two copies of a row and one row of weight 2 give
  different exponents when rows of one bin differ in their prior exponents.
* C100: default feature groups are determined by the first data set and kept (also when that training
  fails later): a column that is new in later data is ignored without notice, a missing one raises
  KeyError although a new estimator would train. A second training on the same data halves all
  reported feature importances; a `PlottingObserver` appends its losses and factor changes to
  those of the earlier training.
* C101: without given feature groups the order of the columns is the order of training and changes
  the model.
* C102: `_pipeline_cb` does not pass `weight_column` to the `BinNumberTransformer` (pipelines.py:175),
  and without `feature_properties` the transformer bins every column as continuous. Weights and prior
  predictions (and any other auxiliary column) then reach the estimator as bin numbers: the rows of smallest weight
  get weight 0, a constant weight 1 gives weight 0 everywhere and training fails.
* C110: 0.001 is added to the mean target for every link (base.py:407-408), not only for the log link
  for which it avoids log(0): negated targets do not give negated predictions, and for balanced classes
  the probabilities of a category not seen in training are 0.499 and 0.501 whichever class is named 1.
* C111: the dependence of an explicit `WeightedMeanSmoother()` on the first category found for C87
  carries over to data frames: exchanging the codes of two categories, one of them the smallest, changes
  the predictions of the pipeline.
* C112: if two of the three quantiles of the observations agree (many zeros among the targets), the
  distance is NaN for every shape, and the shape returned by `fit_sinhlogistic_shape` says nothing.
* C113: for equal quantile values (a constant prediction) every Gaussian is beaten by a narrower one;
  `quantile_fit_gaussian` ends at an arbitrary small or negative width (then all values are NaN).
* C114: the cubic spline through increasing quantiles can decrease: through (0.1, 0), (0.2, 1.75),
  (0.8, 2.25), (0.9, 4) it falls between 0.4 and 0.6, so that a higher quantile gets a smaller value.
* C107: `CBLocPoissonRegressor.predict` replaces negative predictions by 0 (location.py:77-79),
  but the loss that training reports and watches counts them as they are, so that it can differ
  from the loss of `predict` on the training data.
* C118: in quantile regression `continuous_quantile_from_discrete_pdf` (utils.py:1046-1061) compares row
  numbers with sums of weights, so that rows of weight zero move the baseline (as do copies, C85).
* C118: `CBNBinomC` ignores weights altogether: the uncertainty of a bin is 1/sqrt(number of its rows),
  whatever their weights, and rows of weight zero take part in the losses.
* C118: the estimates of price exponents average the squared prior exponents over all rows of a bin;
  a row of weight zero changes the predictions.
* C119: `BaseObserver.observe_iterations` (observers.py:20), which documents the interface of observers, takes
  six arguments, but `_call_observe_iterations` passes seven (base.py:537-539), for quantile regression eight
  (generic_loss.py:318-322): an observer written to the documented interface, and `BaseObserver` itself, makes
  every training fail with a TypeError. `PlottingObserver` accepts six to eight.
* C120: the binning counts -9 and -999 as ordinary training values although the column declares them to be
  missing (ecdf_transformer.py:226-251 looks for NaN only); only `transform` maps them to the missing bin. A
  continuous column with many such rows spends bins on them: with half of the rows -999 and two bins all
  other values share one bin. In discrete columns the first bins stay empty.
* C121: the pipelines do not pass `weight_column` on to `BinNumberTransformer` (pipelines.py:175), which
  has such a parameter: the bins of continuous columns ignore the weights. Three rows with the values 1, 2, 3
  and the weights 3, 1, 1 get three bins, the same rows written out get two (2 and 3 together).
* C122: the labels of continuous columns in plots are rounded to five decimals (_1dplots.py:29): bins narrower
  than about 10^-5 get labels that lie in other bins, with the values 0, 1e-6, 2e-6 all labels are 0. Ordered or
  unordered columns with IS_LINEAR are labelled with the centres between categories (_1dplots.py:265). And
  the labels of continuous columns, centres of the bins, are drawn where the bins begin (_1dplots.py:162-164).
* C123: `plot_factor_1d` replaces the first two factors by the minimum and the maximum of all values before it
  computes the axis (_1dplots.py:276-279), but adds the uncertainties of the first two bins to them: with factors
  1.9, 1, 1 and uncertainties 0.9, 0, 0 the axis ends at 2 and the error bar reaches 2.8, although
  `ylimits_include_errors` is documented to show it completely. The error bar of the bin for missing values is
  never taken into account (_1dplots.py:62-63). If all values are the same whole number (a feature without any
  influence has the factor 1 everywhere) the axis has no extension and 21 ticks at the same place.
* C124: the default smoothing of categorical columns moves estimates towards their error weighted mean, not towards
  0. With two targets 101 and -99 in one bin and four targets 99.5, -100.5, 99.5, -100.5 in another, the trained
  background subtraction regressor is worse on its own training data than the constant baseline.
* C125: `Neutralize2DMetaSmoother` (multidim.py:351-386) weights the bins with their uncertainties instead of the
  inverse, fails for groups of three columns with "cannot reshape" although the message for too few columns asks for
  two at least, and does not smooth neutrally: WeightedMeanSmoother as inner smoother (as in the tests) gives a table
  without effects of single columns such an effect. With correlated columns an effect of 100 of the second column
  alone leaves an interaction of 18.9 after the four rounds. `PriorExpectationMetaSmoother` turns missing
  predictions of the inner smoother (bins that are cut) into the prior expectation.
* C126: `regalpha` of `CBGBSRegressor` (GBSregression.py:31-34) is documented as "a shrinkage of the regression result
  to 0", but it shrinks only the step of each pass: the passes go on towards the unregularised mean of the bin, which
  is reached in the limit for every `regalpha`. The result depends on how early training stops.
* C127: two rows with the target 10, one of them with a missing value, cannot be learned by `CBPoissonRegressor` with
  its default settings. The baseline is 0.001 above the mean (base.py:407) and thus off by 0.001 only; the prior of the
  gamma distribution moves each bin by more than that, so every pass counts as divergence. The smoother is then replaced
  by zeros (base.py:626-635), but the bin of the missing values is learned again, and the fifth divergence raises
  ConvergenceError.
* C129: the change of the factors that is compared with `minimal_factor_change` is a mean over the feature groups
  (base.py:129-138), to which a group without any value contributes 0. Adding such a group halves the change of a
  single group, so training stops earlier and predicts something else (2/3 instead of 8/9 in the witness).
* C133: in the plot of two columns pairs of bins without any training row count like a row of weight 1 in the diagrams
  of the marginals (_2dplots.py:170): with the factors 1 (one row) and 3 (no row) the marginal factor is 2. The zeros are
  replaced in a view of `feature.bin_weightsums`, so that drawing changes the weights recorded by the observer. The colours
  of the first picture are limited by the values of the second (_2dplots.py:137, 144): without smoothed effects all
  deviations have the colours of the ends. The box for missing values in the picture of the deviations shows the factor before smoothing
  (_2dplots.py:149).
* C134: the predictions of the location regressor stay about 0.001 above the mean targets of the bins, whatever the number
  of passes: the baseline is the mean target plus 0.001 and centring the summands of each pass keeps that offset. If the
  missing values of a feature group are not learned, the summands are centred over the rows with a value only, so the
  predictions for these rows keep the baseline of all rows as their mean (location.py:218-225). With a target 0 in
  the rows with a value and 100 in as many rows without, every row is predicted as 50.001 after any number of passes.
* C135: the default learning rate (learning_rate.py:69-87) is scaled by `maximal_iterations`, so raising a limit that is
  never reached changes the model: stopping after one pass, the witness predicts 2/3 with the limit 2 and 1/3 with
  the limit 4. With `hierarchical_feature_groups` a `learn_rate` given by the user is silently replaced by the constant 1
  (base.py:329-330).
* C136: `CBLocPoissonRegressor._check_y` (location.py:31-34) promises to reject negative targets but accepts them. In a
  bin of negative mean target the prediction used for the next estimate is cut at 0 (location.py:55), so the same
  negative estimate is added in every pass, without end. With the targets -1 and 1 in two bins, the learning rate 1 and
  the default criteria, training ends with a `ConvergenceError`.
* C137: keys of `explicit_smoothers` must be tuples of strings (common_smoothers.py:182-189), but the columns of arrays
  are numbered. No dictionary that is accepted has an effect on a feature group of numbered columns, and the key `(0,)`
  is refused: explicit smoothers cannot be used with arrays. (`NoSmootherChoice` ignores the dictionary altogether, C36.)
* C138: `regularize_to_error_weighted_mean` (utils.py:761-840) compares the values of the bins by `np.allclose` with its absolute
  tolerance of 1e-8 and leaves them alone if they are close. In a large unit of the target (small numbers) weighted-mean smoothing is
  therefore skipped. The baseline of the location regressor is the mean target plus 0.001 (base.py:407), whatever the unit.
* C139: the weights of the bins are handed to scipy as `w` (onedim.py:559-566, 695-704), which multiplies deviations before they are
  squared. A bin of weight 2 therefore counts four times as much as one of weight 1, and the limit stated in the docstring of
  `UnivariateSplineSmoother` is not the one that scipy observes.
* C140: only `CBLocationRegressor` centres the values of a feature group (location.py:218). With the background subtraction regressor a column
  that is the same in all rows takes up part of what the regularised columns before it have left, and so shifts every prediction.
  Also with `CBLocationRegressor` a constant column can end trainings with `minimal_factor_change` earlier: it lowers the mean over the
  feature groups that this criterion compares (base.py).


## 5. What is modelled and what is not

Functions count as modelled if a definition in `Model/` cites their lines. Of the plotting code
(`plots/`) only the axes of one-dimensional features (`BinBounds.v`, `PlotAxis.v`) and the
observers are modelled.

* **GBSregression.py**: 5 functions modelled; not modelled: `CBGBSRegressor.precalc_parameters` (no precalculation, returns None or is abstract).
* **base.py**: 55 functions modelled; in part: `CyclicBoostingBase._pred_feature`; not modelled: `ZeroSmoother.fit` (returns zeros), `ZeroSmoother.predict`, `CyclicBoostingBase.global_scale_`, `CyclicBoostingBase._feature_contribution`, `CyclicBoostingBase._log_iteration_info` (logging), `CyclicBoostingBase._check_parameters`, `CyclicBoostingBase.get_subestimators_as_items`, `CyclicBoostingBase.calc_parameters`, `CyclicBoostingBase.precalc_parameters` (no precalculation, returns None or is abstract).
* **binning/_binary_search.py**: 7 functions modelled; not modelled: `le_interp_multi`.
* **binning/_utils.py**: 4 functions modelled; not modelled: `get_column_index`.
* **binning/bin_number_transformer.py**: 7 functions modelled.
* **binning/ecdf_transformer.py**: 9 functions modelled; not modelled: `ConstFunction.__init__` (stores its arguments), `ConstFunction.__call__`, `get_X_column`.
* **classification.py**: 8 functions modelled; not modelled: `CBClassifier.precalc_parameters` (no precalculation, returns None or is abstract).
* **common_smoothers.py**: 13 functions modelled; not modelled: `SmootherChoice.get_raw_smoother`.
* **features.py**: 20 functions modelled; not modelled: `Feature.unfitted_factor_link_nan_bin`, `Feature.factor_link_nan_bin`, `Feature.unbind_data`, `FeatureList.__init__` (stores its arguments), `FeatureList.feature_groups`, `FeatureList.feature_ids`, `FeatureList.iter_fitting`, `FeatureList.__iter__` (trivial), `FeatureList.__len__` (trivial).
* **flags.py**: 15 functions modelled.
* **generic_loss.py**: 42 functions modelled; in part: `CBQuantileRegressor.quantile_costs`; not modelled: `CBGenericLoss.precalc_parameters` (no precalculation, returns None or is abstract), `CBGenericLoss.optimization`, `CBGenericLoss.objective_function`, `CBGenericLoss.costs` (delegates), `CBGenericLoss.model` (delegates), `CBGenericLoss.uncertainty` (delegates to the functions modelled in LossModes.v).
* **interaction_selection.py**: 3 functions modelled.
* **learning_rate.py**: 4 functions modelled.
* **link.py**: 9 functions modelled; not modelled: `LinkFunction.is_in_range` (abstract), `LinkFunction.link_func` (abstract), `LinkFunction.unlink_func` (abstract).
* **location.py**: 10 functions modelled; not modelled: `CBLocationRegressor.precalc_parameters` (no precalculation, returns None or is abstract).
* **nbinom.py**: 13 functions modelled; not modelled: `_try_compile_parallel_func` (compilation), `CBNBinomC.precalc_parameters` (no precalculation, returns None or is abstract), `compute_2d_loss` (loops over candidates and bins, modelled in calc_parameters).
* **observers.py**: 7 functions modelled.
* **pipelines.py**: 14 functions modelled.
* **price.py**: 21 functions modelled.
* **quantile_matching.py**: 39 functions modelled.
* **regression.py**: 8 functions modelled; not modelled: `CBBaseRegressor.calc_parameters`, `CBBaseRegressor.precalc_parameters` (no precalculation, returns None or is abstract), `CBNBinomRegressor.precalc_parameters` (no precalculation, returns None or is abstract).
* **smoothing/base.py**: 1 functions modelled.
* **smoothing/extrapolate.py**: 3 functions modelled; in part: `LinearExtrapolator.predict`.
* **smoothing/meta_smoother.py**: 17 functions modelled; not modelled: `check_reg_type`, `not_interpolating`, `RegressionTypeSmoother.__init__` (stores its arguments).
* **smoothing/multidim.py**: 19 functions modelled; not modelled: `GroupBySmootherCB.__init__` (stores its arguments).
* **smoothing/onedim.py**: 35 functions modelled; not modelled: `SeasonalSmoother.__init__` (stores its arguments), `SeasonalLassoSmoother.__init__` (stores its arguments), `UnivariateSplineSmoother.__init__` (stores its arguments), `PolynomialSmoother.__init__` (stores its arguments), `LinearSmoother.__init__` (stores its arguments), `LSQUnivariateSpline.__init__` (stores its arguments).
* **smoothing/orthofit.py**: 6 functions modelled.
* **utils.py**: 26 functions modelled; in part: `_weighted_quantile_of_dataframe`; not modelled: `nans`, `_weighted_size_of_dataframe`, `generator_to_decorator` (infrastructure of the plots), `get_feature_column_names`, `ConvergenceParameters.set_loss_change`, `ConvergenceParameters.set_delta`.

## 6. Trusted base

* Coq 8.16.1's kernel and its standard library. No axioms are added; there is no `Admitted`.
* The reading of the Python source into Gallina, documented by the citations.
* Contracts of other libraries, used only where a theorem's hypotheses or a model comment say so:
  * numpy: `unique`, `cumsum`, `bincount`, `argsort` (stable), `digitize`, `clip`, `linspace`,
    `polyfit` (weighted least squares), `dot`, boolean masks, in-place output arguments, as documented;
  * pandas: `groupby`, `drop`, column access and assignment, `DataFrame(values, columns)`
    with a fresh index, Series in-place operations that share memory with float frames;
  * scipy: `curve_fit`, `LSQUnivariateSpline`, `UnivariateSpline`, `minimize`, `beta.ppf`, `gamma.ppf`, `erfinv`, `logistic`, `norm`:
    arbitrary functions with the stated monotonicity, symmetry or optimality;
  * sklearn: `SelectKBest`, `LassoLarsIC`, `DecisionTreeRegressor`, arbitrary estimators
    inside meta smoothers and in the quantile chain.
* `Print Assumptions` for each property theorem (also printed when it is compiled):

* **no axioms ("Closed under the global context")** (160 theorems):
  C01_first_ge_determined C01_ge_first_element_ge C01_ge_inclusive_at_most_last C01_ge_lim_first_in_range C01_ge_lim_inclusive C01_last_le_determined C01_le_inclusive_never_negative C01_le_last_element_le C02_bin_numbers_in_range C03_continuous_monotone C03_first_boundary_not_below C03_outside_values_in_end_bins C04_boundaries_are_training_values C04_infinite_training_value_refuted C04_no_shared_bins_partial C04_other_values_missing C04_training_value_gets_its_rank_partial C05_column_without_values C05_continuous_only_missing_values C05_missing_values_to_missing_bin C06_adaptive_bins C06_fitted_column C06_too_few_bins_rejected C07_last_boundary_is_maximum C07_remaining_probability_partial C07_remaining_probability_refuted C08_continuous_boundaries_refuted C08_discrete_fit_raises_refuted C08_zero_weights_ignored_partial C09_ecdf_values C09_never_fails C09_order_of_samples_irrelevant C09_strictly_increasing_to_one C09_transform_independent_of_row_order C10_quantile_transform C11_narrowing_lossless C120_categories_partial C120_like_nan_refuted C122_boundaries_describe_bins C122_category_labels C122_labels_partial C122_linear_categories_refuted C122_narrow_bins_refuted C122_no_empty_bin C122_one_label_per_bin C122_reported C122_ticks_always_refuted C122_unfitted_binner C122_unknown_columns C12_arange_multi_enumerates C12_lexicographic_order_injective C12_number_in_range C12_shape_from_data C137_innermost C137_numbered_refuted C137_obeyed_partial C137_rejected C137_untouched C137_untouched_mean C139_degree C139_history C13_invalid_row_to_missing_bin_partial C13_invalid_row_to_missing_bin_refuted C13_valid_row_batch_independent C14_unseen_mask_partial C14_unseen_mask_refuted C15_consistency_check_exact C15_consistency_errors C15_flag_implications C15_predicates_read_their_bits C16_text_domain_partial C16_text_faithful C16_text_listed_partial C16_text_total_refuted C36_any_flags_refuted C36_determined C36_explicit C36_explicit_refuted C36_interaction C36_interaction_group_by C36_interaction_group_by_explicit C36_one_dimensional C36_unsmoothed C36_unusable C39_bin_rows C40_inner C40_outer C43_candidates C43_exactly_once C43_only_sets C44_binner C44_defaults_changed_always_refuted C44_defaults_refuted C44_dropped_always_refuted C44_forward_partial C44_forward_refuted C44_required_refuted C44_same_as_direct_partial C44_works_like_direct C45_default_groups C45_features C45_features_fail C45_first_fit C45_given_groups C45_refit_refuted C47_bins_partial C49_infinite_training_values_refuted C49_nan_training_values_ignored_partial C50_external_columns_apart C51_bins_not_coarse C51_boundaries_placed C57_forms C57_found C57_only_that C57_unknown C59_discontinuous C59_extrapolating C59_interpolating C60_isolated C60_sections C61_groups C61_isolated C69_accepted C69_rejected C70_column C71_selection C76_accepted_targets C76_accepts C76_empty_partial C76_empty_target_refuted C76_gbs_refuted C76_infinite_refuted C76_rejects_nan_partial C76_rejects_out_of_range_partial C78_accepted C78_columns C78_inplace C78_inplace_failure_refuted C78_input_kept C78_missing_column C78_quantile_columns C78_quantile_index_always_refuted C78_quantile_input_kept C78_quantile_overwrites_always_refuted C78_rows C87_bin_values C88_clone_disjoint C88_clone_objects C88_clone_refuses C88_clone_works C88_fitted_partial C88_fitted_refuted C88_settings C89_default_learn_rate_refuted C89_hierarchical_refuted C89_learn_rate_refuted C89_price_external_groups_refuted C89_price_groups_refuted C89_set_later_partial C90_own_smoothers
* **`ClassicalDedekindReals.sig_forall_dec`** (1 theorems):
  C60_representation_refuted
* **`ClassicalDedekindReals.sig_forall_dec`, `FunctionalExtensionality.functional_extensionality_dep`** (128 theorems):
  C110_smoothers C113_constant_refuted C113_gamma_reproduced C113_gaussian C113_gaussian_recovered C113_inverse C113_modes C113_nbinom_invalid C113_nbinom_moments C113_nbinom_reproduced C114_decreasing_refuted C114_points_partial C115_default C123_error_bars_refuted C123_labels C123_labels_increase C123_missing_error_bar_refuted C123_shown_partial C123_single_factor C123_ticks C123_ticks_collapse_refuted C125_effects_ignored_partial C125_inner_smoother_refuted C125_no_second_effect_partial C125_one_column C125_second_effect_refuted C125_three_columns_refuted C127_smoothers C128_full_cells C130_default_smoother C131_heavy_cells C134_excess C135_given_unused C138_smoothers_partial C138_smoothing_refuted C139_equal_partial C139_reproduced_partial C139_smoothing_partial C139_weights_refuted C23_any_order C23_rowwise C23_split C26_categories_sum_up C26_category_column_partial C26_first_removal_refuted C26_reserved_category_refuted C26_sum_of_contributions C28_boost_weights C32_calibrated_mean_zero C33_half_linear_full C34_amount C34_constant_unchanged C34_different_lengths C34_shrinkage C34_zero_uncertainty C37_minimised C37_nonnegative C37_optima C37_quantile_splits C37_zero C38_above_refuted C38_below_refuted C38_no_ties_partial C38_unit_weights_partial C39_binned C39_bins C39_median C39_monotone C39_quantile C39_range C40_samples C42_bracket C42_bracket_finite C42_nan_refuted C42_progress C42_stops C42_terminates C42_variance_partial C46_column_influence_removed C46_neutral_unchanged C46_row_influence_refuted C47_empty C47_nonnegative C47_optimal_factor C47_optimal_summand C47_order_refuted C48_degenerate C48_extrapolation C48_recovers_linear_data C48_unique_minimiser C50_contributions_explain_prediction_partial C56_constant_unchanged_refuted C56_constant_window C56_few_bins C56_shrinkage C58_centred C58_combined C58_shift C58_weightless C63_linear C63_monotone C63_weights_refuted C64_reproduces C73_moments C73_parameters C74_baseline C74_loss C74_loss_zero_targets C83_auto_direction C83_best_fit C83_best_fit_unique C83_calibrations C83_monotone C85_copies C87_default C87_explicit_mean C87_normalised C87_weighted_mean_with_prior C91_diagram_partial C91_quantile_partial C91_zero_weight_refuted C92_between_partial C92_determined_partial C92_finite_partial C92_negative_refuted C92_uniform_partial C93_round_trip C93_sparse
* **`ClassicalDedekindReals.sig_forall_dec`, `ClassicalDedekindReals.sig_not_dec`, `FunctionalExtensionality.functional_extensionality_dep`** (54 theorems):
  C115_smoothers C124_smoothers C125_prior_expectation C26_include_then_remove C26_price_link_prediction C27_prediction_ranges C28_probabilities_and_classes C31_minimises_chi_square C35_insignificant C35_monotone C35_significant C41_bounded C41_semibounded C45_fit_groups C54_constant_target_refuted C54_location_estimates_partial C54_locpoisson_estimates_partial C54_weightless_bin_refuted C59_clamped_refuted C62_fallback C62_lasso_period_refuted C62_no_convergence_refuted C62_periodic C62_reproduces C62_zero_mean C63_least_squares_partial C63_reproduces C64_each_degree C64_errors_exist C64_least_squares C68_at_one C68_form C68_missing C74_estimate C74_finite_refuted C74_no_regularization_always_refuted C74_no_regularization_refuted C74_no_uncertainty_always_refuted C74_ridge C74_shrinkage C75_gaussian_empty C75_gaussian_partial C75_gaussian_unit C75_weightless_always_refuted C75_weightless_refuted C79_dispersion_always_refuted C79_dispersion_fitted_always_refuted C79_fit_transform_partial C79_price_always_refuted C79_stale_means_refuted C80_dispersion_always_refuted C80_fit_partial C80_needed C87_prior_expectation
* **`ClassicalDedekindReals.sig_forall_dec`, `ClassicalDedekindReals.sig_not_dec`, `Classical_Prop.classic`, `FunctionalExtensionality.functional_extensionality_dep`** (312 theorems):
  C100_any_state_partial C100_default_groups_always_refuted C100_gone_column_refuted C100_history_partial C100_importances_always_refuted C100_new_column_refuted C100_records_always_refuted C100_whole_partial C101_default_groups_refuted C101_fit_partial C101_predict C102_predict_partial C102_priors_always_refuted C102_train_partial C102_weights_always_refuted C102_weights_refuted C103_units C104_categories C104_order C105_count C105_rows C105_steps C106_monotone C107_costs C107_counts_refuted C107_dispersion C107_loss_partial C107_price C108_constant C108_constant_costs C108_constant_price C108_ratios C108_ratios_costs C108_ratios_price C109_criteria C109_criteria_costs C109_criteria_dispersion C109_criteria_price C110_background_subtraction C110_classifier_partial C110_classifier_refuted C110_from_the_baseline C110_location_partial C110_location_refuted C111_explicit_mean_depends_on_first C111_recoding C112_refused C112_shape_partial C112_three_quantiles C112_ties_refuted C115_column_order C115_estimators C116_estimates C116_neutral C116_smoothing C117_other_groups_ignored C117_other_groups_may_be_added C118_costs C118_dispersion_refuted C118_dispersion_uncertainty_refuted C118_price_refuted C118_quantile_refuted C118_training_partial C119_calls C119_documented_interface_refuted C119_no_influence_partial C121_continuous_refuted C121_copies_partial C121_written_bins C124_default_smoothing_refuted C124_never_rises_partial C124_never_worse_partial C126_between C126_learned_mean C126_limit C126_missing C126_regularisation_refuted C127_at_most_twice C127_background C127_background_everywhere C127_constant_targets C127_training_refuted C128_between C128_limit C128_missing C128_never_diverges C128_trains C129_factor_change_refuted C129_poisson_partial C129_same_passes_partial C129_same_training_partial C130_divisor C130_limit C131_between C131_limit C131_missing C131_never_diverges C131_trains C132_between C132_limit C132_majority C132_missing C132_never_diverges C132_never_worse C132_trains C133_again C133_axes C133_box C133_colours_partial C133_curves C133_drawn C133_empty_bins_refuted C133_first_box_refuted C133_first_colours_refuted C133_marginal_means_partial C133_marginal_range C133_pictures C133_samples C133_single_curve C133_weights_partial C133_weights_refuted C134_above C134_limit C134_near C134_passes C134_unlearned C134_unlearned_refuted C135_default_refuted C135_limit_partial C136_better_partial C136_limit_partial C136_mean_partial C136_negative_refuted C136_passes_partial C138_location_refuted C138_unit_partial C140_background_refuted C140_factor_change_refuted C140_location_partial C140_passes_partial C140_training_partial C17_hierarchical_type_error_refuted C17_hierarchical_without_divergence_partial C17_only_convergence_error_partial C17_terminates C17_zero_iterations_refuted C18_criteria_values C18_iterations_without_divergence C18_stop_reason C19_fractional_bins_refuted C19_predict_is_insample_partial C19_without_aggregation_refuted C20_after_divergence_refuted C20_factors_within_limits_partial C20_limits_restored_partial C20_step_at_most_two_partial C21_all_trained_at_the_end C21_others_untouched C22_fifth_divergence C22_rollback_partial C22_rollback_without_aggregation_refuted C23_contribution_of_a_group C24_missing_not_learned_neutral_partial C24_missing_not_learned_refuted C24_out_of_range_and_missing C24_unseen_category_neutral_partial C25_importances_partial C25_integer_columns_refuted C25_joined_names_refuted C25_second_fit_refuted C25_small_contributions_refuted C27_inverse_after_link C27_inverse_increasing C27_link_after_inverse C27_link_finite C27_link_increasing C29_poisson_is_nbinom C29_whole_training C30_estimates_well_defined C30_more_evidence C33_logistic_end C33_rates_end_at_one C33_rates_in_range C33_rates_non_decreasing C33_rates_of_the_loop C40_at_bound_refuted C40_both_ends C40_bounded_partial C40_cdf_below_refuted C40_decreasing_cdf_refuted C40_extended_bounded_partial C40_extended_semibounded_partial C40_extended_unbounded_partial C40_logistic C40_lower_end C40_semibounded_partial C40_sinh_logistic C40_symmetric_bounded_refuted C40_symmetric_extended_refuted C40_symmetric_semibounded_refuted C42_exponents C47_additive C47_classifier_refuted C47_logarithm C47_neutral C50_colliding_names_refuted C50_price_contributions C52_all_ones_refuted C52_baseline C52_baseline_exists_partial C52_prior_column C52_unusable_prior_mean_refuted C53_classifier_estimates C53_empty_bin_neutral C55_location_mean_kept C65_bounded_fit_refuted C65_bounded_only_above C65_lower_partial C65_median C65_upper_refuted C66_density C67_newton_step C67_training C68_decreasing C68_increasing C68_trained_falls C68_trained_form C68_trained_others C68_trained_rises C72_bayes_bounds C72_bayes_empty C72_best C72_candidates C72_empty_bin_always_refuted C72_empty_bin_refuted C72_frozen C72_grid C72_no_worse C72_reported_loss C72_uncertainty C73_invalid_loss C73_loss C73_reported_loss C73_zero_mean C75_beta C75_gamma C75_gamma_as_poisson C75_gamma_more_evidence C77_baseline_partial C77_zero_quantile_always_refuted C77_zero_quantile_refuted C79_additive_refuted C79_agree_additive_partial C79_agree_partial C79_classifier_always_refuted C79_guard C79_transform_partial C79_transform_works C79_twice C79_zero_name_refuted C80_predict C81_error_always_refuted C81_features_partial C81_prior_always_refuted C82_dispersion_always_refuted C82_dispersion_refuted C82_kept_partial C83_auto_refuted C83_divergence_refuted C83_training_partial C84_dispersion C84_loss_modes C84_pipeline C84_price C84_row_order C85_dispersion_copies_refuted C85_dispersion_refuted C85_gbs_refuted C85_location_refuted C85_locpoisson_refuted C85_price_refuted C85_quantile_refuted C85_unsmoothed_partial C85_weights_partial C86_location_shift C87_explicit_mean_depends_on_first C87_relabelling C94_chosen_partial C94_final_iteration_refuted C94_last_partial C95_diverged_refuted C95_early_partial C95_first_pass_partial C95_late_refuted C95_success_partial C96_deviation_partial C96_level_refuted C96_levels_partial C96_quantile_column_partial C96_quantile_partial C96_quantile_refuted C97_dispersion C97_loss_modes C97_price C97_range C98_ends_refuted C98_larger_prior_partial C98_no_prior_column C98_prior_partial C98_returns_prior_partial C99_prediction C99_training
