{"id": "C01", "title": "Accepted stability_selection values give thresholds between 1 and n_boots", "statement": "Whenever a linear UoI estimator (or UoI_CUR) accepts a stability_selection value, every resulting threshold is an integer t with 1 <= t <= n_boots; every other value makes the constructor (or UoI_CUR.fit) raise, and no value is silently clipped.", "quantifier": "for every Python value accepted or rejected (int, bool, float including NaN and infinities, list, integer or floating ndarray, anything else) and every n_boots >= 1", "why_tests_cant": "the input space is all binary64 numbers times all bootstrap counts; rounding makes individual products unpredictable, so a few literals say nothing about the rest", "anchors": ["src/pyuoi/linear_model/utils.py:stability_selection_to_threshold", "src/pyuoi/decomposition/utils.py:stability_selection_to_threshold", "src/pyuoi/linear_model/base.py:AbstractUoILinearModel.__init__", "src/pyuoi/decomposition/CUR.py:UoI_CUR.fit"]}
{"id": "C02", "title": "stability_selection=1.0 means all bootstraps", "statement": "A float stability_selection of 1.0 gives exactly the threshold n_boots (hard intersection), and any float in (0,1] is never rejected for being too large: its threshold is at most n_boots; larger floats never give smaller thresholds.", "quantifier": "for every n_boots representable exactly as a double and every pair of floats", "why_tests_cant": "a rounding error for one particular (value, n_boots) pair would be enough to reject a legal value; tests try a handful of pairs", "anchors": ["src/pyuoi/linear_model/utils.py:stability_selection_to_threshold", "src/pyuoi/decomposition/utils.py:stability_selection_to_threshold"]}
{"id": "C03", "title": "Fractional thresholds are truncated after a rounded multiplication (finding)", "statement": "The documentation says a float is the proportion of bootstraps. The proportion k/n_boots written as the nearest double does not always give k: there are k and n_boots for which the resulting threshold is k-1.", "quantifier": "existential: a concrete proportion and n_boots", "why_tests_cant": "tests choose proportions such as 0.5 where no rounding happens", "anchors": ["src/pyuoi/linear_model/utils.py:stability_selection_to_threshold"]}
{"id": "C04", "title": "An empty stability_selection list is accepted and breaks fit (finding)", "statement": "stability_selection=[] (or an empty float or integer ndarray) passes validation with no thresholds; a later fit on a non-constant response then finds zero supports and raises ValueError instead of the constructor rejecting the value.", "quantifier": "for every dataset, bootstrap count and solver", "why_tests_cant": "needs reasoning about every fit that follows, not one run", "anchors": ["src/pyuoi/linear_model/utils.py:stability_selection_to_threshold", "src/pyuoi/linear_model/base.py:AbstractUoILinearModel.fit"]}
{"id": "C05", "title": "supports_ are exactly the stability-selected masks", "statement": "With at least two (threshold, regularization) combinations and at least two coefficients, the rows returned by intersection are exactly the masks { j : coefficient j is non-zero in at least t bootstraps at regularization parameter r } for t in the thresholds and r in the grid: each such mask appears, nothing else appears, no mask appears twice, and rows are in increasing lexicographic order.", "quantifier": "for every array of selection coefficients of any shape and every threshold list", "why_tests_cant": "set equality must hold for all coefficient arrays; tests compare two or three hand-made arrays", "anchors": ["src/pyuoi/linear_model/utils.py:intersection"]}
{"id": "C06", "title": "The order of the bootstraps does not matter for the supports", "statement": "Permuting the bootstraps, or replacing any coefficient by another one with the same zero/non-zero status (scaling, sign flips), does not change the supports returned by intersection.", "quantifier": "for every coefficient array, every permutation of its bootstrap axis and every threshold list", "why_tests_cant": "permutations of arbitrary length cannot be enumerated", "anchors": ["src/pyuoi/linear_model/utils.py:intersection"]}
{"id": "C07", "title": "Raising the threshold can only shrink supports", "statement": "For one regularization parameter, every feature selected with threshold t+1 is selected with threshold t; with threshold n_boots a feature is selected exactly when it is non-zero in every bootstrap, with threshold 1 when it is non-zero in at least one.", "quantifier": "for every coefficient array and all thresholds", "why_tests_cant": "monotonicity is a statement about all pairs of thresholds and all arrays", "anchors": ["src/pyuoi/linear_model/utils.py:intersection"]}
{"id": "C08", "title": "Degenerate shapes lose the support mask (finding)", "statement": "With a single (threshold, regularization) combination, or a single coefficient, the array returned by intersection is not the two-dimensional array of supports that is documented: it is one-dimensional and holds only the distinct truth values.", "quantifier": "for every coefficient array of such a shape", "why_tests_cant": "no test uses one regularization parameter with one threshold or a single feature", "anchors": ["src/pyuoi/linear_model/utils.py:intersection", "src/pyuoi/linear_model/base.py:AbstractUoILinearModel.fit"]}
{"id": "C09", "title": "Shared support across classes is the union over classes", "statement": "For a multi-class model with shared_support=True, a feature is in a candidate support exactly when at least one class selected it for that (threshold, regularization) combination, and candidate supports are pairwise distinct.", "quantifier": "for every coefficient array, number of classes and threshold list", "why_tests_cant": "must hold for all class counts and arrays", "anchors": ["src/pyuoi/linear_model/base.py:AbstractUoIGeneralizedLinearRegressor.intersect"]}
{"id": "C10", "title": "Work is partitioned over ranks without loss or overlap", "statement": "For every number of ranks (including more ranks than tasks) the tasks handled by the ranks, concatenated in rank order, are exactly 0..n-1 in order; no two ranks' loads differ by more than one.", "quantifier": "for every number of tasks and every communicator size >= 1", "why_tests_cant": "tests run with one or two fixed communicator sizes", "anchors": ["src/pyuoi/linear_model/base.py:AbstractUoILinearModel.fit (np.array_split)"]}
{"id": "C11", "title": "Gatherv_rows with root 0 concatenates all ranks' rows in rank order", "statement": "Gatherv_rows(send, root=0) returns on rank 0 the concatenation of all ranks' arrays along the first axis, in rank order, and None elsewhere, for any number of rows per rank, including zero rows.", "quantifier": "for every communicator size, all array shapes that agree beyond the first axis and all schedules of the ranks", "why_tests_cant": "communicator sizes, row splits and schedules are unbounded", "anchors": ["src/pyuoi/mpi_utils.py:Gatherv_rows"]}
{"id": "C12", "title": "Bcast_from_root with root 0 gives every rank root's array", "statement": "Bcast_from_root(send, root=0) returns on every rank an array with the shape, dtype and contents of rank 0's array, whatever the other ranks passed (None or any array), provided the dtype is one of float32, float64, int, intc.", "quantifier": "for every communicator size, every array, every value passed on the other ranks and all schedules", "why_tests_cant": "as above", "anchors": ["src/pyuoi/mpi_utils.py:Bcast_from_root"]}
{"id": "C13", "title": "The root argument of Bcast_from_root is not honoured (finding)", "statement": "The docstring says the array of rank `root` is broadcast. With root != 0 no execution delivers root's array: whenever the call returns on rank root, what it returns there is not the array that was passed.", "quantifier": "for every communicator size > 1, every root != 0 and every array", "why_tests_cant": "only root=0 is exercised by fit, and tests need several ranks", "anchors": ["src/pyuoi/mpi_utils.py:Bcast_from_root"]}
{"id": "C14", "title": "The root argument of Gatherv_rows is not honoured (finding)", "statement": "With root != 0 the concatenated array never arrives on rank root: no execution returns the gathered rows there.", "quantifier": "for every communicator size > 1, every root != 0 and all arrays", "why_tests_cant": "as above", "anchors": ["src/pyuoi/mpi_utils.py:Gatherv_rows"]}
{"id": "C15", "title": "load_data_MPI gives every rank the same data for every root", "statement": "If the file can be read on root and both dtypes are supported, load_data_MPI returns on every rank exactly the X and y read by root, for every root; if reading fails on root, root raises and every other rank waits forever.", "quantifier": "for every communicator size, root, file content and schedule", "why_tests_cant": "hanging executions cannot be observed by a passing test; sizes and schedules are unbounded", "anchors": ["src/pyuoi/mpi_utils.py:load_data_MPI"]}
{"id": "C16", "title": "Collective communication is schedule independent and deadlock free", "statement": "In fit, load_data_MPI, Bcast_from_root and Gatherv_rows, no interleaving of the ranks can deadlock and every interleaving ends with the same results on every rank, as long as no rank raises.", "quantifier": "for every communicator size and every interleaving of the ranks", "why_tests_cant": "interleavings cannot be enumerated by tests", "anchors": ["src/pyuoi/mpi_utils.py:load_data_MPI", "src/pyuoi/mpi_utils.py:Bcast_from_root", "src/pyuoi/mpi_utils.py:Gatherv_rows", "src/pyuoi/linear_model/base.py:AbstractUoILinearModel.fit"]}
{"id": "C17", "title": "All ranks end fit with identical fitted attributes", "statement": "After a distributed fit, supports_, estimates_, scores_, rp_max_idx_, coef_ and intercept_ are identical on all ranks.", "quantifier": "for every communicator size, dataset, solver behaviour and schedule", "why_tests_cant": "tests run one or two sizes", "anchors": ["src/pyuoi/linear_model/base.py:AbstractUoILinearModel.fit"]}
{"id": "C18", "title": "Distributed fit equals serial fit", "statement": "With at most n_boots_sel ranks, a distributed fit gives the same supports_, estimates_, scores_, rp_max_idx_ and coef_ as the serial fit with the same seed, for every solver whose fit from an all-zero warm start equals its fit from scratch. With more ranks than n_boots_sel the same holds for every solver whose result does not depend on the warm start.", "quantifier": "for every communicator size, dataset, seed and solver satisfying the stated condition", "why_tests_cant": "unbounded communicator sizes and arbitrary solvers", "anchors": ["src/pyuoi/linear_model/base.py:AbstractUoILinearModel.fit"]}
{"id": "C19", "title": "With more ranks than bootstraps warm starting makes the result depend on the number of ranks (finding)", "statement": "There are warm-starting solvers and communicator sizes larger than n_boots_sel for which the distributed fit selects different supports than the serial fit.", "quantifier": "existential: a solver, a dataset abstraction and a communicator size", "why_tests_cant": "needs many ranks and a solver stopped before convergence", "anchors": ["src/pyuoi/linear_model/base.py:AbstractUoILinearModel.fit"]}
{"id": "C20", "title": "A rank that raises leaves the other ranks waiting (finding)", "statement": "If a solver raises on one rank only during fit, that rank leaves fit with the exception and the other ranks never return.", "quantifier": "for every communicator size > 1 and every schedule", "why_tests_cant": "a hang is not observable by a terminating test", "anchors": ["src/pyuoi/linear_model/base.py:AbstractUoILinearModel.fit"]}
{"id": "C21", "title": "A non-zero coefficient was stably selected", "statement": "After fit (shared support, no NaN estimates), if coef_ is non-zero for a feature then this feature belongs to a support in supports_ that was the best-scoring one for at least half of the estimation bootstraps counted over supports containing the feature, and it was non-zero in at least t selection bootstraps for some accepted threshold t and some regularization parameter.", "quantifier": "for every dataset, solver, scoring function, seed and number of ranks", "why_tests_cant": "the guarantee quantifies over all solver outputs and data sets", "anchors": ["src/pyuoi/linear_model/base.py:AbstractUoILinearModel.fit", "src/pyuoi/linear_model/utils.py:intersection"]}
{"id": "C22", "title": "Estimates vanish outside their support", "statement": "estimates_[b, s, j] is zero for every feature j that is not in supports_[s]; for an empty support the whole estimate is zero.", "quantifier": "for every dataset, solver, bootstrap, support and feature", "why_tests_cant": "quantifies over all solver outputs", "anchors": ["src/pyuoi/linear_model/base.py:AbstractUoILinearModel.fit"]}
{"id": "C23", "title": "The chosen support maximizes the score", "statement": "rp_max_idx_[b] is the smallest index whose score is maximal among scores_[b] when no score is NaN, and coef_ is the feature-wise median over bootstraps of the estimates so chosen.", "quantifier": "for every score matrix and estimate array", "why_tests_cant": "all score matrices", "anchors": ["src/pyuoi/linear_model/base.py:AbstractUoILinearModel.fit"]}
{"id": "C24", "title": "A NaN score wins (finding)", "statement": "If one candidate support has a NaN score, it is chosen over every support with a finite score.", "quantifier": "for every score row containing a NaN", "why_tests_cant": "tests never produce NaN scores", "anchors": ["src/pyuoi/linear_model/base.py:AbstractUoILinearModel.fit", "src/pyuoi/utils.py:log_likelihood_glm"]}
{"id": "C25", "title": "Constant responses give the zero model", "statement": "If the response is constant, fit returns with all coefficients zero without running any selection or estimation and without communicating. The linear regressors then predict that constant for every sample when fit_intercept=True, and 0 when fit_intercept=False.", "quantifier": "for every design matrix and constant", "why_tests_cant": "all design matrices", "anchors": ["src/pyuoi/linear_model/base.py:AbstractUoILinearModel.fit", "src/pyuoi/linear_model/base.py:AbstractUoILinearRegressor._fit_intercept", "src/pyuoi/linear_model/base.py:AbstractUoILinearRegressor._post_fit"]}
{"id": "C26", "title": "Refitting forgets the previous data (UoI_Lasso) but not for UoI_ElasticNet, UoI_Poisson, UoI_L1Logistic (finding)", "statement": "After any history of fits, UoI_Lasso uses the regularization path of the data passed last. UoI_ElasticNet, UoI_Poisson and UoI_L1Logistic constructed without an explicit path keep the path computed on the first data set for all later ones. If computing the path raises for one mixing weight, UoI_ElasticNet and UoI_Poisson keep zero penalties for this and all following mixing weights, and later fits use them silently.", "quantifier": "for every history of fit calls", "why_tests_cant": "histories are unbounded; tests fit each estimator once", "anchors": ["src/pyuoi/linear_model/lasso.py:UoI_Lasso.get_reg_params", "src/pyuoi/linear_model/elasticnet.py:UoI_ElasticNet.get_reg_params", "src/pyuoi/linear_model/poisson.py:UoI_Poisson.get_reg_params", "src/pyuoi/linear_model/logistic.py:UoI_L1Logistic.get_reg_params"]}
{"id": "C27", "title": "No warm start across bootstraps", "statement": "The coefficients obtained for one selection bootstrap do not depend on the data of the other bootstraps or on previous fit calls, for every solver with finite coefficients whose fit from an all-zero state equals its fit from scratch; Poisson is such a solver in exact arithmetic. A solver state holding an infinite intercept is turned into NaN by the reset and contaminates the later bootstraps: after one bootstrap whose training counts are all zero, UoI_Poisson's 'lbfgs' solver returns zero coefficients and a NaN intercept for every later bootstrap with non-constant counts.", "quantifier": "for every sequence of bootstraps and every solver satisfying the condition; the contamination for every later bootstrap, all data, penalties and iteration limits", "why_tests_cant": "histories of solver states are unbounded", "anchors": ["src/pyuoi/linear_model/base.py:AbstractUoILinearModel.fit", "src/pyuoi/linear_model/poisson.py:Poisson.fit"]}
{"id": "C28", "title": "Information criteria behave as penalties", "statement": "For equal log-likelihood, BIC (more than one sample), AIC strictly increase with the number of features; AICc is never below AIC and equals it when n_samples <= n_features + 1; all three strictly decrease in the log-likelihood. AICc is increasing in the number of features only while n_samples > n_features + 2. Going from n_samples - 2 to n_samples - 1 features, AICc drops.", "quantifier": "for all real log-likelihoods, feature counts and sample counts", "why_tests_cant": "real-valued and unbounded domains", "anchors": ["src/pyuoi/utils.py:AIC", "src/pyuoi/utils.py:BIC", "src/pyuoi/utils.py:AICc"]}
{"id": "C29", "title": "Information-criterion ranking equals penalized-likelihood ranking", "statement": "With estimation_score AIC, AICc or BIC, the support chosen in a bootstrap is one with the lowest criterion value (scores are negated criteria), computed on the train split unless estimation_target is given; r2, log and acc use the test split by default; invalid metric names or targets raise ValueError at construction. UoI_Poisson accepts 'acc' but never scores a model with it.", "quantifier": "for all metric and target values and all score tables", "why_tests_cant": "finite but combinatorial configuration space times unbounded data", "anchors": ["src/pyuoi/linear_model/base.py:AbstractUoILinearRegressor", "src/pyuoi/linear_model/base.py:AbstractUoIGeneralizedLinearRegressor", "src/pyuoi/linear_model/poisson.py:UoI_Poisson._score_predictions"]}
{"id": "C30", "title": "Log-likelihoods are maximal at y_pred = y_true; a zero prediction for a zero count gives NaN (finding)", "statement": "In exact arithmetic the Poisson log-likelihood of positive predictions never exceeds that of the saturated model, and for positive counts y_pred = y_true is its only maximizer. The normal log-likelihood is the maximum over the variance of the Gaussian log-likelihood, and of two predictions with non-zero residuals the one with the smaller sum of squares has the larger value. An all-zero Poisson prediction gives 0 for all-zero counts and -inf otherwise. In binary64 with log(0) = -inf, if some prediction is zero, its count is zero and another prediction is non-zero, the result is NaN although the likelihood is well defined.", "quantifier": "for all non-negative counts and predictions", "why_tests_cant": "real-valued inputs; tests cover the all-zero case only", "anchors": ["src/pyuoi/utils.py:log_likelihood_glm"]}
{"id": "C31", "title": "Linear UoI models predict on the original scale; Poisson without intercept does not (partly a finding)", "statement": "After fit with standardize=True, coef_ and intercept_ of the linear regressors applied to a raw sample give exactly the standardized model's prediction mapped back to the original response scale, with and without fit_intercept. For Poisson and UoI_Poisson the linear predictor is the standardized one when fit_intercept=True; with fit_intercept=False the data are still centered, and the linear predictor on a raw sample is off by sum_j mean_j*coef_j. Rescaling never turns a zero coefficient into a non-zero one.", "quantifier": "for every sample, every scaler with non-zero scales and every standardized model", "why_tests_cant": "real-valued inputs", "anchors": ["src/pyuoi/linear_model/base.py:AbstractUoILinearRegressor._post_fit", "src/pyuoi/linear_model/poisson.py:Poisson._post_fit", "src/pyuoi/linear_model/poisson.py:UoI_Poisson._post_fit"]}
{"id": "C32", "title": "UoI_L1Logistic predicts on the wrong scale after standardization (finding)", "statement": "For UoI_L1Logistic fitted with standardize=True, coef_ and intercept_ applied to a raw sample differ from the decision value of the standardized model by sum_j mean_j*coef_j*(1+1/scale_j), coef being the standardized coefficients, when fit_intercept=True, and agree when fit_intercept=False. They agree on one sample if and only if this sum is zero.", "quantifier": "for every scaler and standardized model: exact characterization of agreement", "why_tests_cant": "needs the general formula, single numeric tests use zero-mean data", "anchors": ["src/pyuoi/linear_model/base.py:AbstractUoIGeneralizedLinearRegressor._post_fit"]}
{"id": "C33", "title": "MaskedCoefLogisticRegression(standardize=True) ignores centering in the intercept (finding)", "statement": "After fit with standardize=True, decision values on raw samples differ from the standardized model by sum_j mean_j*coef_j with the returned coef_; they agree exactly when this sum is zero.", "quantifier": "for every scaler, model and sample", "why_tests_cant": "as above", "anchors": ["src/pyuoi/linear_model/logistic.py:MaskedCoefLogisticRegression._post_fit"]}
{"id": "C34", "title": "Refitted intercepts are optimal for fixed coefficients", "statement": "The linear intercept makes residuals average to zero and minimizes the squared error over all intercepts; the Poisson intercept makes predicted and observed totals equal and minimizes the Poisson loss over all intercepts.", "quantifier": "for all data and coefficients (positive total count for Poisson)", "why_tests_cant": "real-valued inputs", "anchors": ["src/pyuoi/linear_model/base.py:AbstractUoILinearRegressor._fit_intercept", "src/pyuoi/linear_model/poisson.py:UoI_Poisson._fit_intercept"]}
{"id": "C35", "title": "Intercept-only classifiers reproduce class frequencies", "statement": "With no selected feature, the predicted probabilities equal the training class frequencies: in the binary case clipped to [1e-10, 1 - 1e-10]; with several classes an absent class gets 1e-10 and the frequencies of the others are scaled by 1 - 1e-10 times the number of absent classes. They lie strictly between 0 and 1 (or equal 1 for a single class), sum to one, and predict returns the most frequent class (binary ties: class 1; several classes: the first).", "quantifier": "for all label vectors and class counts", "why_tests_cant": "all label vectors", "anchors": ["src/pyuoi/linear_model/logistic.py:LogisticInterceptFitterNoFeatures"]}
{"id": "C36", "title": "softmax and sigmoid are probability maps", "statement": "softmax is positive, sums to one, is invariant under shifts and order preserving; sigmoid(x) lies in (0,1), equals 1/(1+exp(-x)), is strictly increasing and sigmoid(-x) = 1 - sigmoid(x).", "quantifier": "for all real vectors and numbers", "why_tests_cant": "real-valued inputs", "anchors": ["src/pyuoi/utils.py:softmax", "src/pyuoi/utils.py:sigmoid"]}
{"id": "C37", "title": "Loss gradients are the gradients of the losses", "statement": "The gradient returned with the Poisson, binary logistic and multinomial losses is the exact derivative of the returned loss in every coordinate including intercepts, for every data set, sample weights, penalty and coefficient mask; masked coordinates have derivative zero.", "quantifier": "for all data, parameters, coordinates", "why_tests_cant": "finite differences at sample points are only approximate evidence", "anchors": ["src/pyuoi/linear_model/poisson.py:_poisson_loss_and_grad", "src/pyuoi/linear_model/logistic.py:_logistic_loss_and_grad", "src/pyuoi/linear_model/logistic.py:_multinomial_loss_grad"]}
{"id": "C38", "title": "Masked coefficients are exactly zero", "statement": "MaskedCoefLogisticRegression fitted with coef_mask returns exactly zero for every masked coefficient. With penalty 'l2' this holds in any arithmetic and whatever the optimizer returns. With penalty 'l1' it holds in exact arithmetic for every run of the project's optimizer; in floating point, for two classes, a masked coefficient is a zero or, after an overflow, a NaN.", "quantifier": "for all data, weights, masks, warm starts, options and optimizer results", "why_tests_cant": "all masks and optimizer trajectories", "anchors": ["src/pyuoi/linear_model/logistic.py:_logistic_regression_path"]}
{"id": "C39", "title": "Coordinate updates never increase the penalized quadratic objective", "statement": "One coordinate-descent sweep of the Poisson solver never increases the weighted, elastic-net penalized least squares objective of that step; each coordinate update is the exact minimizer in that coordinate; soft_threshold is the proximal map of the absolute value.", "quantifier": "for all data, weights >= 0, penalties >= 0 and active sets", "why_tests_cant": "real-valued inputs and arbitrary sweep lengths", "anchors": ["src/pyuoi/linear_model/poisson.py:Poisson._cd_sweep", "src/pyuoi/linear_model/poisson.py:Poisson.soft_threshold"]}
{"id": "C40", "title": "Warm-started coordinate descent cannot select anything (finding)", "statement": "Poisson(solver='cd', warm_start=True) fitted for the first time, or after its coefficients were reset to zero, returns all-zero coefficients for every data set; hence UoI_Poisson(solver='cd') with its default warm_start selects no feature.", "quantifier": "for every data set and penalty", "why_tests_cant": "the existing test compares two equally wrong fits", "anchors": ["src/pyuoi/linear_model/poisson.py:Poisson.fit", "src/pyuoi/linear_model/poisson.py:Poisson._cd"]}
{"id": "C41", "title": "A coefficient zeroed by coordinate descent stays zero (finding)", "statement": "In the cd solver, a coefficient that is zero after some sweep is zero after all later sweeps, even if it would be non-zero at the optimum.", "quantifier": "for every data set, penalty and number of sweeps", "why_tests_cant": "an invariant over all iterations", "anchors": ["src/pyuoi/linear_model/poisson.py:Poisson._cd"]}
{"id": "C42", "title": "Poisson without intercept cannot predict (finding)", "statement": "After any number of fits of Poisson(fit_intercept=False) with non-constant y on a fresh object, predict and predict_mean raise NotFittedError; consequently UoI_Poisson(fit_intercept=False).fit raises as soon as it scores a non-empty support. If an earlier response was constant, its log mean stays in intercept_ and is added to every later prediction.", "quantifier": "for every data set with a non-constant response", "why_tests_cant": "tests look only at coef_", "anchors": ["src/pyuoi/linear_model/poisson.py:Poisson.fit", "src/pyuoi/linear_model/poisson.py:Poisson.predict_mean", "src/pyuoi/linear_model/poisson.py:UoI_Poisson._score_predictions"]}
{"id": "C43", "title": "The Poisson regularization grid starts exactly at the all-zero model", "statement": "lambda_max is the largest absolute covariance between a feature and the response divided by n and the mixing weight. For every penalty >= lambda_max, zero coefficients with intercept log(mean y) minimize the penalized Poisson objective over all coefficients and intercepts, and for every smaller penalty they do not. For each mixing weight the grid has the requested length, starts at lambda_max, ends at eps*lambda_max, decreases strictly and is evenly spaced in logarithm; the parameter list holds every (mixing weight, penalty) pair at its row-major place.", "quantifier": "for all data with positive mean response, all grid sizes", "why_tests_cant": "real-valued data and unbounded grid sizes", "anchors": ["src/pyuoi/linear_model/poisson.py:UoI_Poisson.get_reg_params"]}
{"id": "C44", "title": "The UoI_L1Logistic grid does not start at the all-zero model (finding)", "statement": "With labels in {0,1} and an intercept, zero coefficients are optimal for the L1-penalized logistic objective exactly when the penalty is at least the largest absolute mean product of a feature with the centred labels. The generated grid starts instead at C = 1/A with A = (1 - share of ones) times the largest absolute mean product of a feature with the uncentred labels, so with centred features the smallest C never gives the all-zero model. With fit_intercept=False the last feature is ignored, and a single feature raises ValueError. With several classes, all present, and intercepts A is the largest gradient entry of the intercept-only model. The C values are geometric, from 1/A to 1/(A eps).", "quantifier": "for all data sets and grid sizes", "why_tests_cant": "tests check only the grid length", "anchors": ["src/pyuoi/linear_model/logistic.py:UoI_L1Logistic.get_reg_params"]}
{"id": "C45", "title": "The optimizer never returns a worse point", "statement": "In exact arithmetic the objective (including the L1 term) never increases from one accepted point to the next, so fmin_lbfgs never returns a point worse than x0, whatever the callable computes as value and gradient, for every line search and also for runs that end with a warning. With orthantwise_c > 0 this holds when the penalty covers all variables (see C89 otherwise).", "quantifier": "for every deterministic objective (the gradient need not be the derivative), start point, line search, accepted parameter set and progress callback", "why_tests_cant": "quantifies over all objective functions and iteration counts", "anchors": ["liblbfgs/lbfgs.c:lbfgs", "liblbfgs/lbfgs.c:line_search_backtracking", "liblbfgs/lbfgs.c:line_search_backtracking_owlqn", "liblbfgs/lbfgs.c:line_search_morethuente", "src/pyuoi/lbfgs/__init__.py:fmin_lbfgs"]}
{"id": "C46", "title": "The number of function evaluations is bounded", "statement": "With max_iterations = k > 0 fmin_lbfgs calls the objective at most 1 + k * max_linesearch times and the progress callback at most k times; a single line search always terminates within max_linesearch evaluations.", "quantifier": "for every objective function and parameter set", "why_tests_cant": "all objective functions", "anchors": ["liblbfgs/lbfgs.c:lbfgs", "liblbfgs/lbfgs.c:line_search_backtracking", "liblbfgs/lbfgs.c:line_search_backtracking_owlqn", "liblbfgs/lbfgs.c:line_search_morethuente"]}
{"id": "C47", "title": "Accepted steps satisfy the advertised line-search condition", "statement": "Without a penalty every accepted step satisfies the inequalities documented for its line search: armijo (sufficient decrease), wolfe, strongwolfe, and for More-Thuente sufficient decrease and the strong curvature condition. The returned point is the last accepted point (x0 if none), also when a later line search failed.", "quantifier": "for every objective function, direction and parameters", "why_tests_cant": "all objective functions", "anchors": ["liblbfgs/lbfgs.c:line_search_backtracking", "liblbfgs/lbfgs.c:line_search_morethuente", "liblbfgs/lbfgs.c:lbfgs"]}
{"id": "C48", "title": "OWL-QN respects the orthant and the pseudo-gradient is the steepest subgradient", "statement": "With orthantwise_c > 0 the trial points of one line search never leave the orthant of the current point in a penalized coordinate, and every accepted point satisfies sufficient decrease along the pseudo-gradient. The pseudo-gradient is the least-norm subgradient of F + c*|x|, so it vanishes exactly under the L1 optimality conditions, and then the point is a global minimizer if F lies above its tangents. Coordinates outside [orthantwise_start, orthantwise_end) are not penalized.", "quantifier": "for all points, gradients, steps and penalty ranges", "why_tests_cant": "real-valued inputs", "anchors": ["liblbfgs/lbfgs.c:owlqn_pseudo_gradient", "liblbfgs/lbfgs.c:owlqn_project", "liblbfgs/lbfgs.c:line_search_backtracking_owlqn", "liblbfgs/lbfgs.c:owlqn_x1norm"]}
{"id": "C49", "title": "Invalid optimizer parameters are rejected, except the memory size (finding)", "statement": "Each parameter documented with a range is checked before the first call of the objective: if one is outside its range LBFGSError is raised and the objective is never called, otherwise it is called. The memory size m is not checked: m < 0 raises MemoryError, and with m = 0 the C code computes a remainder modulo zero in every run that would make two steps with m > 0.", "quantifier": "for all parameter combinations", "why_tests_cant": "parameter space is unbounded", "anchors": ["liblbfgs/lbfgs.c:lbfgs", "src/pyuoi/lbfgs/_lowlevel.pyx:LBFGS.minimize"]}
{"id": "C50", "title": "Every step follows the textbook L-BFGS recursion on the last m corrections", "statement": "Every accepted point is obtained from the previous one by a line search along the direction that the standard two-loop recursion gives for the most recent min(m, k) correction pairs, newest first; the circular buffer never mixes in older or missing pairs.", "quantifier": "for every objective, m, iteration number and arithmetic (reals or binary64)", "why_tests_cant": "unbounded iteration numbers", "anchors": ["liblbfgs/lbfgs.c:lbfgs"]}
{"id": "C51", "title": "The search direction is a descent direction when curvature is positive", "statement": "If all stored corrections satisfy s.y > 0, the computed direction d satisfies g.d < 0 for every non-zero gradient g, and the implicit inverse Hessian satisfies the secant equation for the newest pair.", "quantifier": "for all histories and gradients", "why_tests_cant": "real vectors of any dimension", "anchors": ["liblbfgs/lbfgs.c:lbfgs"]}
{"id": "C52", "title": "Successful delta-based stopping raises KeyError (finding)", "statement": "When the documented past/delta stopping criterion fires, fmin_lbfgs raises KeyError instead of returning the minimizer. A progress callback returning a non-zero value ends the run at once; the outcome depends on the value: 2 returns the current point without a warning, codes of the C library's errors behave as those errors, values not in the message table raise KeyError.", "quantifier": "for all runs in which the criterion fires; for all callback values", "why_tests_cant": "return-code space is large and tests do not use past/delta", "anchors": ["src/pyuoi/lbfgs/_lowlevel.pyx:LBFGS.minimize", "src/pyuoi/lbfgs/_lowlevel.pyx:_ERROR_MESSAGES", "src/pyuoi/lbfgs/__init__.py:fmin_lbfgs"]}
{"id": "C53", "title": "L1 problems always use the Wolfe line search (finding)", "statement": "orthantwise_c > 0 always runs exactly as with line_search='wolfe', even for unknown names, with a warning unless 'wolfe' or 'default' was requested. A negative or NaN orthantwise_c raises AssertionError. Without a penalty an unknown line search name raises KeyError; in these cases the objective is not called.", "quantifier": "for all parameter combinations", "why_tests_cant": "combinatorial", "anchors": ["src/pyuoi/lbfgs/__init__.py:fmin_lbfgs", "src/pyuoi/lbfgs/_lowlevel.pyx:LBFGS.minimize"]}
{"id": "C54", "title": "Coordinates with zero gradient stay zero; reports are faithful", "statement": "A coordinate that starts at zero and whose reported partial derivative is zero is exactly zero in every report and in the returned point. Each report carries the true gradient and penalized value of its point, reports are numbered from 1, and the returned point is the last reported one.", "quantifier": "for every objective, every iteration and every parameter set, in exact arithmetic", "why_tests_cant": "an invariant over unbounded iterations", "anchors": ["liblbfgs/lbfgs.c:lbfgs", "src/pyuoi/linear_model/logistic.py:_logistic_regression_path"]}
{"id": "C55", "title": "L1 logistic regression without intercept can lose the last feature (finding)", "statement": "With penalty='l1', let the optimizer run without the all-zero callback. If two consecutive iterates have at most the last entry non-zero (binary) or the last k entries (k classes), fit returns zero for every coefficient and every intercept; otherwise fit returns the optimizer's result. The last entries are the intercepts or, with fit_intercept=False, the last feature. With a single feature and no intercept every binary fit of two or more iterations is zero.", "quantifier": "for every data set, weights, C, tolerance, iteration limit and optimizer trajectory", "why_tests_cant": "trajectory dependent", "anchors": ["src/pyuoi/linear_model/logistic.py:_logistic_regression_path"]}
{"id": "C56", "title": "UoI_CUR returns the union over ranks of stable columns", "statement": "column_indices_ is strictly increasing, within range, and contains exactly the columns that for some rank k were drawn in at least the threshold number of bootstraps; components_ and transform(X) are those columns of X in that order.", "quantifier": "for every matrix, rank list, bootstrap count and random draw", "why_tests_cant": "all random draws", "anchors": ["src/pyuoi/decomposition/CUR.py:UoI_CUR.fit", "src/pyuoi/decomposition/CUR.py:UoI_CUR.transform"]}
{"id": "C57", "title": "Column selection probabilities", "statement": "column_select returns exactly the columns whose random number is below min(1, c * leverage): always those whose leverage score times c is at least one, never those with zero leverage; the indices are distinct and in range (increasing, or in increasing leverage order with leverage_sort), and the expected number of columns is at most c for singular vectors of unit norm. In floating point a column with a NaN in its singular vectors is always returned.", "quantifier": "for every V, c > 0 and all random draws in [0,1)", "why_tests_cant": "all draws", "anchors": ["src/pyuoi/decomposition/utils.py:column_select"]}
{"id": "C58", "title": "UoI_CUR ranks and counts are validated", "statement": "check_ks_and_cs returns exactly for positive integer ranks <= max_k and positive counts of matching length, and raises ValueError otherwise.", "quantifier": "for all ks and cs values", "why_tests_cant": "unbounded inputs", "anchors": ["src/pyuoi/decomposition/CUR.py:UoI_CUR.check_ks_and_cs"]}
{"id": "C59", "title": "UoI_CUR with an integer seed repeats the same bootstrap and is still not reproducible (finding)", "statement": "With an int random_state all bootstraps use the same rows and singular vectors; and whatever random_state is, a column whose probability lies strictly between zero and one is selected for some operating-system entropy and not selected for other, so two fits with the same seed and data can differ.", "quantifier": "for every data set, seed and configuration with such a column", "why_tests_cant": "tests do not inspect bootstraps; nondeterminism is invisible to a single run", "anchors": ["src/pyuoi/decomposition/CUR.py:UoI_CUR.fit", "src/pyuoi/decomposition/utils.py:column_select"]}
{"id": "C60", "title": "UoI_CUR with no selected column returns components_ of the wrong shape (finding)", "statement": "If no column is selected, components_ has shape (1, 0) although transform(X) has shape (n_samples, 0); such draws exist whenever all selection probabilities are below one.", "quantifier": "for every X with a number of rows other than one", "why_tests_cant": "depends on random draws", "anchors": ["src/pyuoi/decomposition/CUR.py:UoI_CUR.fit"]}
{"id": "C61", "title": "Basis dissimilarity is a bounded symmetric comparison", "statement": "For two bases with k non-zero rows each, dissimilarity(H1, H2) is one minus the mean over the rows of both of the largest cosine with a row of the other. It lies in [0, 2], and in [0, 1] for non-negative bases, is symmetric, and is zero exactly if every row of either basis is a positive multiple of some row of the other (in particular for row permutations and positive row scalings).", "quantifier": "for all bases of equal rank", "why_tests_cant": "real-valued matrices", "anchors": ["src/pyuoi/decomposition/utils.py:dissimilarity"]}
{"id": "C62", "title": "UoI_NMF chooses the first most consistent rank", "statement": "With use_dissimilarity, dissimilarity_ holds for each rank the average dissimilarity over all pairs of bootstrap bases, and the clustered bases (bases_samples_) are the normalized bootstrap bases of the first rank for which it is smallest. Without it the bases of all ranks are clustered. In binary64 a zero row in one bootstrap basis makes the value of its rank NaN, and the first rank with NaN is chosen (finding).", "quantifier": "for all collections of bootstrap bases", "why_tests_cant": "all collections", "anchors": ["src/pyuoi/decomposition/NMF.py:UoI_NMF_Base.fit"]}
{"id": "C63", "title": "UoI_NMF components are unit vectors in the non-negative orthant, one per cluster", "statement": "If the clustering labels are -1 or 0..k-1 with every label used, components_ has k rows and row c is the consensus of exactly the bases labelled c, scaled to norm 1; noise contributes to no row. With the mean as consensus the rows are non-negative unit vectors. Such labels make the fit return.", "quantifier": "for all basis collections and labelings", "why_tests_cant": "all labelings", "anchors": ["src/pyuoi/decomposition/NMF.py:UoI_NMF_Base.fit"]}
{"id": "C64", "title": "UoI_NMF fit and transform edge cases (finding)", "statement": "ranks=None makes fit raise AttributeError although a default is documented; an int z stands for ranks 2..z; one bootstrap with dissimilarity raises ValueError at construction; transform and inverse_transform before fit raise AttributeError instead of NotFittedError; negative data raise ValueError; integer input to transform truncates the weights; if every basis is labelled noise fit raises ValueError, and a label outside -n..n-1 for n clusters raises IndexError, in both cases after dissimilarity_ has been replaced.", "quantifier": "for all inputs of each kind", "why_tests_cant": "each is a universally quantified failure", "anchors": ["src/pyuoi/decomposition/NMF.py:UoI_NMF_Base"]}
{"id": "C65", "title": "inverse_transform after transform has the right shapes and is linear", "statement": "transform and inverse_transform accept exactly the matching number of columns and raise ValueError otherwise; inverse_transform(W) is the product of W and components_, hence linear in W; transform applies the regression to each row and the transposed components, and reconstruction_err_ is the Frobenius norm of the residual, minimal over non-negative weights if the regression is optimal.", "quantifier": "for all matrices", "why_tests_cant": "real-valued matrices", "anchors": ["src/pyuoi/decomposition/NMF.py:UoI_NMF_Base.transform", "src/pyuoi/decomposition/NMF.py:UoI_NMF_Base.inverse_transform"]}
{"id": "C66", "title": "Logger handlers accumulate (finding)", "statement": "In one process, a message of a verbose fit by an estimator is printed once for every estimator created so far with logger=None that shares its logger (same family, same rank name), so after k such constructions each message appears k times. A logger passed by the user gets no handler, but every fit overwrites its level: after a fit without verbose, the user's own info messages are lost, after a verbose fit they appear, whatever level the user had set. Without verbose a fit prints nothing.", "quantifier": "for every history of constructions, fits and direct uses of the logging module", "why_tests_cant": "history dependent", "anchors": ["src/pyuoi/utils.py:check_logger"]}
{"id": "C67", "title": "Logger names distinguish ranks", "statement": "In a communicator of any size > 1, the logger names of different ranks are different and have equal length, also if the logarithm that determines the padding is off by rounding; they differ from the name used by serial estimators, and linear models and matrix factorizations never share a logger.", "quantifier": "for every communicator size and pair of ranks", "why_tests_cant": "unbounded sizes", "anchors": ["src/pyuoi/utils.py:check_logger"]}
{"id": "C68", "title": "PycLasso life cycle", "statement": "predict raises NotFittedError exactly until the first successful fit, and afterwards uses the coefficients and intercepts of the last successful fit, whatever was called since; fit raises when alphas is unset, fit_intercept is False or pycasso is missing, and a failed fit changes nothing; the constructor rejects fit_intercept=False but set_params accepts it; set_params rejects other names (tol included) after having assigned the names before them; in UoI_Lasso(solver='pyc') the coefficients found on a bootstrap do not depend on earlier bootstraps.", "quantifier": "for every history of calls", "why_tests_cant": "histories are unbounded", "anchors": ["src/pyuoi/linear_model/lasso.py:PycLasso"]}
{"id": "C69", "title": "Synthetic data sets have exactly the requested number of informative features", "statement": "Without a given beta, make_linear_regression and make_poisson_regression return coefficients that live on a set of exactly n_informative features (cut off at n_features) and are exactly zero elsewhere, for every random draw; every such set can occur. make_classification does so in every class, and with shared_support=True on the same set for all classes. A negative n_informative counts from the end in the regression data sets and means no informative feature in make_classification.", "quantifier": "for every size and every random draw (real arithmetic)", "why_tests_cant": "all random draws", "anchors": ["src/pyuoi/datasets/__init__.py:make_linear_regression", "src/pyuoi/datasets/__init__.py:make_classification", "src/pyuoi/datasets/__init__.py:make_poisson_regression"]}
{"id": "C70", "title": "Constructor options that are ignored or fail late (finding)", "statement": "The constructor arguments without any effect are exactly: copy_X of UoI_Lasso and UoI_Poisson, and db_leaf_size, nmf, cluster, nnreg, cons_meth of UoI_NMF. UoI_Poisson(standardize=False) still standardizes: self.standardize is always True, self.max_iter and self.tol always None; its selection solver standardizes a second time if standardize=True. UoI_Poisson(estimation_score='acc') is accepted at construction, but scoring raises ValueError and no rank ever returns from a fit of a non-constant response. UoI_Lasso with an unknown solver name is accepted; fit of a non-constant response then raises AttributeError, that of a constant one works. solver='pyc' fails at construction without pycasso or with fit_intercept=False. UoI_NMF_Base and UoI_NMF have an attribute ranks only if the argument was not None.", "quantifier": "for all arguments, data sets, solvers and numbers of ranks", "why_tests_cant": "needs tracing options through all classes", "anchors": ["src/pyuoi/linear_model/poisson.py:UoI_Poisson.__init__", "src/pyuoi/linear_model/lasso.py:UoI_Lasso.__init__", "src/pyuoi/linear_model/poisson.py:UoI_Poisson._score_predictions", "src/pyuoi/linear_model/base.py:AbstractUoILinearModel.__init__", "src/pyuoi/decomposition/NMF.py:UoI_NMF.__init__"]}
{"id": "C71", "title": "A numpy integer seed makes all bootstraps equal (finding)", "statement": "If random_state is a numpy integer instead of a Python int, then all selection bootstraps are the same subsample, and every accepted stability selection threshold selects the same supports as threshold 1.", "quantifier": "for every dataset, solver, seed and number of ranks not exceeding n_boots_sel", "why_tests_cant": "the type of the seed silently disables the resampling; results remain plausible", "anchors": ["src/pyuoi/linear_model/base.py:AbstractUoILinearModel.__init__", "src/pyuoi/linear_model/base.py:AbstractUoILinearModel.fit"]}
{"id": "C72", "title": "A single feature can never be fitted with several regularization parameters (finding)", "statement": "With one coefficient (one feature, one output) and at least two regularization parameters, no call to fit returns a model unless there are more ranks than selection bootstraps.", "quantifier": "for every dataset, solver and number of ranks not exceeding n_boots_sel", "why_tests_cant": "needs a statement over all data and seeds", "anchors": ["src/pyuoi/linear_model/base.py:AbstractUoILinearModel.fit"]}
{"id": "C73", "title": "A single candidate support can only give the zero model (finding)", "statement": "With one threshold and one regularization parameter (shared support), the only model that fit can return is the one with all coefficients zero; whenever a feature is selected, fit raises.", "quantifier": "for every dataset, solver and number of ranks", "why_tests_cant": "needs a statement over all data and seeds", "anchors": ["src/pyuoi/linear_model/base.py:AbstractUoILinearModel.fit", "src/pyuoi/linear_model/utils.py:intersection"]}
{"id": "C74", "title": "Refitting on a constant response keeps the old supports and estimates (finding)", "statement": "When an estimator that has been fitted is fitted again on a constant response, coef_ and intercept_ describe the new data while supports_, estimates_, scores_ and rp_max_idx_ still describe the old data.", "quantifier": "for every history of fits", "why_tests_cant": "depends on call histories", "anchors": ["src/pyuoi/linear_model/base.py:AbstractUoILinearModel.fit"]}
{"id": "C75", "title": "Arguments that are not arrays are rejected before any communication", "statement": "Bcast_from_root and Gatherv_rows raise ValueError for an argument that is neither None nor an ndarray, and Gatherv_rows raises AttributeError for None, before taking part in any collective.", "quantifier": "for every rank, root and value that is not an array", "why_tests_cant": "quantifies over ranks and argument values; a test cannot see that no message was sent", "anchors": ["src/pyuoi/mpi_utils.py:check_valid_ndarray", "src/pyuoi/mpi_utils.py:Bcast_from_root", "src/pyuoi/mpi_utils.py:Gatherv_rows"]}
{"id": "C76", "title": "Every estimate and score belongs to its own bootstrap and support", "statement": "After fit, scores_[b, s] is the score of the estimation model fitted to the training rows of estimation bootstrap b restricted to supports_[s], and estimates_[b, s] holds its coefficients at the places of the support; the estimation bootstraps are drawn from the same generator after the selection bootstraps.", "quantifier": "for every dataset, solver, number of ranks and schedule", "why_tests_cant": "depends on how tasks are divided among any number of ranks", "anchors": ["src/pyuoi/linear_model/base.py:AbstractUoILinearModel.fit"]}
{"id": "C77", "title": "Models with a single feature (finding)", "statement": "With one feature coef_ of a fitted linear regressor is a 0-dimensional array instead of one of length 1, and UoI_Poisson, which always standardizes, raises ValueError at the end of fit for every response.", "quantifier": "for all data with one feature", "why_tests_cant": "tests use several features", "anchors": ["src/pyuoi/linear_model/base.py:AbstractUoILinearModel._post_fit", "src/pyuoi/linear_model/poisson.py:UoI_Poisson._post_fit"]}
{"id": "C78", "title": "A converged coordinate-descent sweep is a global optimum", "statement": "If a sweep of the Poisson cd solver over all features leaves coefficients and intercept unchanged, they minimize the documented objective (weighted Poisson loss plus elastic-net penalty) over all coefficients and, when an intercept is fitted, all intercepts.", "quantifier": "for all data, positive sample weights, penalties >= 0 and mixing weights in [0, 1], provided no feature is all zero or the ridge part of the penalty is positive", "why_tests_cant": "global optimality over real vectors", "anchors": ["src/pyuoi/linear_model/poisson.py:Poisson._cd", "src/pyuoi/linear_model/poisson.py:Poisson._cd_sweep", "src/pyuoi/linear_model/poisson.py:Poisson.adjusted_response"]}
{"id": "C79", "title": "The lbfgs solver of Poisson targets the documented objective", "statement": "If the optimizer returns a minimizer of the function and l1 term it is given, Poisson(solver='lbfgs').fit returns coefficients and intercept that minimize the same documented objective as the cd solver: the l1 weight, the ridge weight and the unpenalized intercept are passed on correctly.", "quantifier": "for all data, sample weights, penalties and starting states", "why_tests_cant": "tests compare one data set approximately", "anchors": ["src/pyuoi/linear_model/poisson.py:Poisson.fit", "src/pyuoi/linear_model/poisson.py:_poisson_loss_and_grad"]}
{"id": "C80", "title": "A Poisson fit without warm_start does not depend on earlier fits", "statement": "With warm_start=False the outcome of Poisson.fit, its coefficients and (when an intercept is fitted) its intercept are the same whatever was fitted before on the object. An unknown solver raises ValueError and leaves the object as it was, except for a constant response, which is fitted without looking at the solver.", "quantifier": "for all earlier states, data, solvers and optimizers", "why_tests_cant": "all histories", "anchors": ["src/pyuoi/linear_model/poisson.py:Poisson.fit", "src/pyuoi/linear_model/poisson.py:Poisson._cd"]}
{"id": "C81", "title": "A constant response is predicted exactly by Poisson", "statement": "If all counts equal a > 0, Poisson.fit succeeds for every solver with zero coefficients and predict_mean returns a for every sample; if all counts are zero the intercept is -inf and predict_mean returns 0 for all finite samples. UoI_Poisson's intercept for all-zero counts is -inf as well.", "quantifier": "for all data, settings and new samples", "why_tests_cant": "all designs and sample counts", "anchors": ["src/pyuoi/linear_model/poisson.py:Poisson.fit", "src/pyuoi/linear_model/poisson.py:Poisson.predict_mean", "src/pyuoi/linear_model/poisson.py:UoI_Poisson._fit_intercept", "src/pyuoi/linear_model/poisson.py:PoissonInterceptFitterNoFeatures"]}
{"id": "C82", "title": "Coordinate descent stops exactly at the first small change", "statement": "Poisson(solver='cd').fit returns the state after k sweeps, where the first sweep visits all features and each later one the features with non-zero coefficient; k is max_iter or the first sweep in which every coefficient changes by less than tol.", "quantifier": "for all data, tolerances and numbers of iterations", "why_tests_cant": "unbounded iteration", "anchors": ["src/pyuoi/linear_model/poisson.py:Poisson._cd"]}
{"id": "C83", "title": "predict returns a mode of the predicted Poisson distribution", "statement": "Every value returned by Poisson.predict is a non-negative integer m with P(Y=k) <= P(Y=m) for all k, Y being Poisson distributed with the mean returned by predict_mean.", "quantifier": "for all fitted models and samples", "why_tests_cant": "all integers k, real means", "anchors": ["src/pyuoi/linear_model/poisson.py:Poisson.predict", "src/pyuoi/linear_model/poisson.py:Poisson.predict_mean"]}
{"id": "C84", "title": "Standardization inside Poisson.fit is consistent", "statement": "Poisson(standardize=True) predicts for every sample the same mean as Poisson(standardize=False) fitted to the standardized design predicts for the standardized sample, and raises exactly when that fit raises.", "quantifier": "for all data, solvers and optimizers, with an intercept and without warm start", "why_tests_cant": "real-valued data", "anchors": ["src/pyuoi/linear_model/poisson.py:Poisson.fit", "src/pyuoi/linear_model/poisson.py:Poisson._pre_fit", "src/pyuoi/linear_model/poisson.py:Poisson._post_fit"]}
{"id": "C85", "title": "Refitted logistic intercepts reproduce class totals", "statement": "When coefficients are fixed and only intercepts are fitted, the gradient given to the optimizer is the derivative of the objective, a stationary point is a global minimum, and there the predicted probabilities of each class add up to the number of training labels of that class (also after the reference class shift of the multi-class case).", "quantifier": "for all data, coefficients and intercepts", "why_tests_cant": "convexity and exact gradients are statements over all reals", "anchors": ["src/pyuoi/linear_model/logistic.py:fit_intercept_fixed_coef"]}
{"id": "C86", "title": "Exceptions raised by the callables are swallowed (finding)", "statement": "An objective that always raises makes fmin_lbfgs return x0 without warning, as if it were the minimizer; an exception raised by the progress callback has the same effect as returning nothing.", "quantifier": "for every accepted parameter set without a penalty, every start point; for every callback", "why_tests_cant": "all callables", "anchors": ["src/pyuoi/lbfgs/_lowlevel.pyx:call_eval", "src/pyuoi/lbfgs/_lowlevel.pyx:call_progress", "liblbfgs/lbfgs.c:lbfgs"]}
{"id": "C87", "title": "Curvature-checking line searches keep the optimizer sound", "statement": "With wolfe, strongwolfe, or More-Thuente with gtol < 1, and no penalty, every step is a strict descent along which the directional derivative grows, so all stored corrections have positive curvature; the internal errors INVALIDPARAMETERS, INCREASEGRADIENT and LOGICERROR cannot occur.", "quantifier": "for every deterministic objective, start point and accepted parameter set, in exact arithmetic", "why_tests_cant": "an invariant over unbounded iterations and all objectives", "anchors": ["liblbfgs/lbfgs.c:lbfgs", "liblbfgs/lbfgs.c:line_search_backtracking", "liblbfgs/lbfgs.c:line_search_morethuente"]}
{"id": "C88", "title": "A result without a warning is nearly optimal", "statement": "If fmin_lbfgs returns x without a warning and the callback never returns 2, the least-norm subgradient at x has norm at most epsilon * max(1, |x|); if F lies above its tangents, the penalized value at x exceeds that at any w by at most epsilon * max(1, |x|) * |x - w|.", "quantifier": "for every objective, start point, parameter set and comparison point, in exact arithmetic", "why_tests_cant": "all convex objectives and all comparison points", "anchors": ["liblbfgs/lbfgs.c:lbfgs", "liblbfgs/lbfgs.c:owlqn_pseudo_gradient", "src/pyuoi/lbfgs/__init__.py:fmin_lbfgs"]}
{"id": "C89", "title": "OWL-QN with an unpenalized variable can return a worse point (finding)", "statement": "When the penalty leaves a variable free (as the intercept of L1 logistic regression), OWL-QN can return a point whose objective value is greater than at x0: a concrete run in binary64 arithmetic with two variables does so.", "quantifier": "one exhibited run; the decrease guaranteed by C45 fails there", "why_tests_cant": "the sufficient-decrease test measures x - xp against the pseudo-gradient, which hides the problem on common objectives", "anchors": ["liblbfgs/lbfgs.c:line_search_backtracking_owlqn"]}
{"id": "C90", "title": "Backtracking line searches accept NaN (finding)", "statement": "With line_search armijo, wolfe or strongwolfe, no penalty and otherwise default options, fmin_lbfgs never returns if value and gradient are NaN at the first trial point and at the all-NaN point. OWL-QN and More-Thuente never accept a point with NaN value.", "quantifier": "for every objective, start point, dimension, callback that does not stop, in binary64 arithmetic", "why_tests_cant": "non-termination cannot be tested", "anchors": ["liblbfgs/lbfgs.c:line_search_backtracking", "liblbfgs/lbfgs.c:line_search_backtracking_owlqn", "liblbfgs/lbfgs.c:line_search_morethuente", "liblbfgs/lbfgs.c:lbfgs"]}
{"id": "C91", "title": "L1 logistic fits are optimal up to the tolerance", "statement": "If MaskedCoefLogisticRegression(penalty='l1') returns without a warning and some coefficient is non-zero, then for every other model that obeys the coefficient mask the penalized loss of the fit exceeds that of the other model by at most tol * max(1, |w|) * |w - w'|, where w and w' are the parameter vectors. This holds for two and for several classes, with and without intercept, mask, warm start and sample weights.", "quantifier": "for all data, non-negative weights, 0/1 masks, warm starts, C and tol, in exact arithmetic", "why_tests_cant": "optimality is a statement about all other models", "anchors": ["src/pyuoi/linear_model/logistic.py:_logistic_regression_path", "src/pyuoi/lbfgs/__init__.py:fmin_lbfgs"]}
{"id": "C92", "title": "The lbfgs solver of Poisson is near-optimal whenever it does not warn", "statement": "If Poisson(solver='lbfgs').fit returns without a warning from the optimizer, its coefficients and intercept w are near-optimal for the documented objective: the objective exceeds its value at any other coefficients and intercept w' by at most tol * max(1, |w|) * |w - w'|. With max_iter > 0 the optimizer ends after at most max_iter iterations with at most 20 evaluations of the loss each.", "quantifier": "for all data, sample weights, penalties, starting states and competing models", "why_tests_cant": "a statement about all alternatives and all runs of an iterative optimizer; tests compare single fits approximately", "anchors": ["src/pyuoi/linear_model/poisson.py:Poisson.fit", "src/pyuoi/linear_model/poisson.py:_poisson_loss_and_grad", "src/pyuoi/lbfgs/__init__.py:fmin_lbfgs"]}
{"id": "C93", "title": "CUR selects columns by increasing leverage", "statement": "CUR.fit sets column_indices_ to the distinct columns whose random number is below min(1, c * leverage) for max_k singular vectors, ordered by increasing leverage, with c defaulting to max_k + 20; components_ are those columns of X in that order.", "quantifier": "for every matrix, c and random draw", "why_tests_cant": "all random draws", "anchors": ["src/pyuoi/decomposition/CUR.py:CUR.fit", "src/pyuoi/decomposition/utils.py:column_select"]}
{"id": "C95", "title": "Synthetic responses follow the returned coefficients", "statement": "make_linear_regression returns y = intercept + X beta + sigma z with sigma^2 * snr equal to the variance of intercept + X beta; make_poisson_regression draws y_i with mean exp(intercept + x_i beta); make_classification draws binary labels with probability 1/(1+exp(-score)) and multiclass labels with the softmax of the scores, where score = intercept + x_i w of the returned coefficients; the multiclass intercepts are shifted so that the largest is 0; without an intercept it is 0; a given beta is returned as it is.", "quantifier": "for every size, option and random draw (real arithmetic)", "why_tests_cant": "all draws and sizes", "anchors": ["src/pyuoi/datasets/__init__.py:make_linear_regression", "src/pyuoi/datasets/__init__.py:make_poisson_regression", "src/pyuoi/datasets/__init__.py:make_classification"]}
{"id": "C96", "title": "make_classification standardizes samples, not features (finding)", "statement": "Every row of the X that make_classification returns sums to 0 and has mean square 1, so adding a constant to all coefficients of a class changes no score and the returned coefficients are not identifiable. With n_features=1 X is all NaN and a binary data set of at least two samples raises ValueError; with n_samples=1 a binary data set raises TypeError; a numpy integer as random_state raises AttributeError.", "quantifier": "for every size, option and random draw", "why_tests_cant": "all draws and sizes", "anchors": ["src/pyuoi/datasets/__init__.py:make_classification"]}
{"id": "C97", "title": "get_params, set_params and clone (finding)", "statement": "For UoI_Lasso, UoI_ElasticNet, UoI_L1Logistic, UoI_Poisson, UoI_NMF_Base and UoI_NMF, get_params and sklearn.base.clone always raise AttributeError, also after fit, because some constructor parameters (logger among them) are not stored under their names; set_params raises AttributeError as soon as it gets an argument (for the factorizations even without), and leaves the object unchanged. So these estimators cannot be used with cross validation or pipelines. UoI_CUR, CUR and Poisson behave as required: get_params returns the constructor's arguments, clone an equal object, set_params assigns exactly the given values. Given an unknown name, their set_params raises ValueError after the arguments before it have already been assigned.", "quantifier": "for all constructor arguments, keyword arguments, and assignments of other attributes after construction", "why_tests_cant": "tests construct the estimators directly and never call get_params with a current scikit-learn", "anchors": ["src/pyuoi/linear_model/base.py:AbstractUoILinearModel.__init__", "src/pyuoi/decomposition/NMF.py:UoI_NMF_Base.set_params", "src/pyuoi/decomposition/CUR.py:UoI_CUR.__init__", "src/pyuoi/linear_model/poisson.py:Poisson.__init__"]}
{"id": "C94", "title": "L2 logistic fits are as good as the optimizer; fits with every coefficient masked are not optimized", "statement": "MaskedCoefLogisticRegression(penalty='l2') hands scipy's optimizer the penalized loss of the unmasked coefficients and the intercepts, with its gradient, started at the unmasked entries of the warm start (zeros for two classes; for several classes the null model's intercepts, stored with the last feature if there is no intercept). If the optimizer comes within delta of the minimum of this function, the fit obeys the mask and is within delta of the best model that obeys the mask. If the mask has no 1, nothing is optimized whatever the penalty: the coefficients are zero and the intercept is the warm start's, otherwise 0 for two classes (not the null model's) and the null model's for several classes.", "quantifier": "for all data, sample weights, 0/1 masks, warm starts, C, and optimizers, in exact arithmetic", "why_tests_cant": "optimality is a statement about all other models, and the index arithmetic must be right for every mask", "anchors": ["src/pyuoi/linear_model/logistic.py:_logistic_regression_path", "src/pyuoi/linear_model/logistic.py:MaskedCoefLogisticRegression.fit"]}
{"id": "C98", "title": "The likelihood scores of UoI_L1Logistic compare codes with class names (finding)", "statement": "UoI_L1Logistic encodes y as 0, ..., k-1 before fitting but passes the original class names as labels to log_loss. So estimation_score='log' is the mean logarithm of the (clipped) probability of the class whose name equals the sample's code. With two classes a sample counts as the second class if that is named like its code, otherwise as the first: this is right exactly if the second class is named 1; with -1 and 0 the two classes are exchanged; if the second class is named neither 0 nor 1 all samples count as the first class and neither 'log' nor AIC, AICc or BIC depends on the labels at all. With three or more classes the score is right exactly if the names are 0, ..., k-1; if no name is a code the likelihood scores do not depend on the labels, all 'log' scores are 0, and fit chooses the first support for every bootstrap. estimation_score='acc' is the fraction of correctly predicted samples whatever the names.", "quantifier": "for all labels, probabilities, splits and estimation models, in exact arithmetic; the choice of the first support for all fits in binary64", "why_tests_cant": "the tests use labels 0, ..., k-1 only; the claim is about all class names and all probabilities", "anchors": ["src/pyuoi/linear_model/base.py:AbstractUoIGeneralizedLinearRegressor._score_predictions", "src/pyuoi/linear_model/logistic.py:UoI_L1Logistic._pre_fit"]}
{"id": "C99", "title": "Codes, probabilities and predicted labels of the logistic models (finding)", "statement": "y is encoded by the position of each label among the sorted distinct labels. coef_ and intercept_ have one row per class (one row for two classes unless multi_class='multinomial'); predict_proba is the logistic function or softmax of the linear scores, a positive distribution over the classes; predict takes the first most probable class. UoI_L1Logistic.predict returns that class's original label, MaskedCoefLogisticRegression.predict its code, because fit overwrites classes_. A renaming of the classes that keeps their order changes neither codes nor the fit of MaskedCoefLogisticRegression.", "quantifier": "for all labels, coefficients and samples; rows and renaming in any arithmetic, probabilities in exact arithmetic", "why_tests_cant": "all label sets; existing tests compare codes with labels that are codes", "anchors": ["src/pyuoi/linear_model/logistic.py:MaskedCoefLogisticRegression.fit", "src/pyuoi/linear_model/logistic.py:UoI_L1Logistic._pre_fit"]}
{"id": "C100", "title": "Weights and argument checks of MaskedCoefLogisticRegression (finding)", "statement": "MaskedCoefLogisticRegression.fit minimizes the loss in which each sample counts with its sample weight times the weight of its class. Under 'balanced' all classes have the same total weight. A class_weight dictionary is looked up by the codes 0, ..., k-1, not by the user's labels; a key that is no code raises ValueError, as does a sample_weight of wrong length. With two classes any other class_weight value is silently ignored; with several it raises ValueError. C, tol and max_iter raise ValueError if they are not numbers or negative (NaN is accepted); fewer than two classes raise ValueError. L1 fits are within the optimizer's tolerance of the best model for these weights, L2 fits as good as scipy's optimizer.", "quantifier": "for all labels, data, weights, masks and warm starts, in exact arithmetic; argument checks in any arithmetic", "why_tests_cant": "optimality compares with all other models; weights and labels range over all possibilities", "anchors": ["src/pyuoi/linear_model/logistic.py:MaskedCoefLogisticRegression.fit", "src/pyuoi/linear_model/logistic.py:_logistic_regression_path"]}
{"id": "C101", "title": "Penalties tried by UoI_Lasso and UoI_ElasticNet", "statement": "For each mixing weight the penalties tried by UoI_Lasso and UoI_ElasticNet are a geometric sequence from the largest penalty down to eps times it. The largest penalty is the largest absolute value of the sums of products of a feature and the response (about their means if there is an intercept), divided by the number of samples and the mixing weight. It is exactly the smallest penalty for which the model without features minimizes the documented objective on these data; above it every minimizer has zero coefficients only. On a bootstrap sample this need not hold. With standardize=True and an intercept it is the largest absolute correlation over the mixing weight. If it is at most 1e-15 all penalties are 1e-15. With n_lambdas=1 the only penalty is eps times the largest one, not the largest one. A mixing weight of 0 raises ValueError.", "quantifier": "for all data, numbers of penalties, eps and mixing weights, in exact arithmetic", "why_tests_cant": "optimality of the empty model compares with all other models, and the threshold is exact for all data", "anchors": ["src/pyuoi/linear_model/lasso.py:UoI_Lasso.get_reg_params", "src/pyuoi/linear_model/elasticnet.py:UoI_ElasticNet.get_reg_params"]}
{"id": "C102", "title": "Units of measurement under standardization (finding)", "statement": "With standardize=True and an intercept, the predictions of the linear regressors do not depend on the units of the features: if every feature is multiplied by a positive number and shifted and the response is rescaled and shifted, then all predictions are rescaled and shifted in the same way, the coefficients by the quotient of the factors, and the penalties tried are the same. Without an intercept this holds for changes of scale. The predictions of UoI_Poisson do not depend on the units of the features if there is an intercept; without one, every shift of a feature with a nonzero coefficient contributes to the predictions. The decisions of UoI_L1Logistic with an intercept do depend on the units: they differ by an explicit sum, so that the same samples recorded in other units can be put into other classes.", "quantifier": "for all data, units, new samples, and all selection and estimation procedures that give features without variation the coefficient 0, in exact arithmetic", "why_tests_cant": "relates two fits on infinitely many pairs of data sets, for every solver in between", "anchors": ["src/pyuoi/linear_model/base.py:AbstractUoILinearRegressor._pre_fit", "src/pyuoi/linear_model/base.py:AbstractUoILinearRegressor._post_fit", "src/pyuoi/linear_model/poisson.py:UoI_Poisson._post_fit", "src/pyuoi/linear_model/base.py:AbstractUoIGeneralizedLinearRegressor._post_fit"]}
{"id": "C103", "title": "The median protects against wild bootstraps, up to NaN and overflow (finding)", "statement": "Each coefficient of a fitted UoI linear model aggregates one estimate per estimation bootstrap (that of the support chosen there) by the median. If more than half of these estimates lie in an interval, so does the coefficient, whatever the others are, infinities included. A positive coefficient needs at least half of the estimates to be positive, a negative one at least half to be negative. But a single NaN estimate makes the coefficient NaN, and with an even number of bootstraps that all agree on a number whose double overflows the coefficient is infinite although every estimate is finite; with an odd number it is that number.", "quantifier": "for all dimensions, solvers, bootstraps, numbers of ranks, schedules and all binary64 estimates", "why_tests_cant": "holds for all binary64 values of a minority of estimates, including values no test fixture produces, and needs the rounding of the mean of the two middle values", "anchors": ["src/pyuoi/linear_model/base.py:AbstractUoILinearModel.fit"]}
{"id": "C104", "title": "In binary64 the optimizer never moves to a larger value, up to underflow", "statement": "C45 in the arithmetic that is executed. With the default or More-Thuente search and no penalty, every point fmin_lbfgs accepts has a computed value not larger than that of the point before, none is accepted whose value is NaN, and the returned point is x0 or not worse than x0, whatever the callable computes (rounding errors, infinities, wrong gradients included). With a penalty on all coordinates the same holds for the computed value plus the computed penalty, for every step starting from a point without nonzero coordinates of magnitude below 2^-530. Below that it can fail: an accepted step can raise the value, because the product of the coordinate with the gradient underflows to 0.", "quantifier": "for all callables that leave x alone, options with min_step not NaN, start points, dimensions, histories and callbacks, in binary64 arithmetic", "why_tests_cant": "every step of every run for every callable, including ones whose gradient is wrong; the exact place where rounding could break it is an inner product that underflows", "anchors": ["liblbfgs/lbfgs.c:line_search_morethuente", "liblbfgs/lbfgs.c:line_search_backtracking_owlqn", "liblbfgs/lbfgs.c:lbfgs", "src/pyuoi/lbfgs/__init__.py:fmin_lbfgs"]}
{"id": "C105", "title": "On a quadratic objective the default line search finds the lowest point of the line in the second trial, or grows the step by the documented factor", "statement": "When F(x) = x.Hx/2 - b.x + c with a positive definite H (least squares, for example), in exact arithmetic and for sensible options (ftol <= 1/2, ftol <= gtol < 1, 5 min_step <= max_step, min_step at most 1 and 1/|grad F(x0)|), every step that fmin_lbfgs accepts with the More-Thuente search is of one of four kinds: the first trial step, which is 1/|grad F(x0)| in the first iteration and 1 afterwards, cut to max_step; after two trials, the point where the slope is ftol times the initial one (the minimum of the modified function of the search); the lowest point of the whole line, after two or more trials; or, while the lowest point has not been reached, the step t0(1 + 4 + ... + 4^(k-1)) after k trials. If moreover max_linesearch >= 3 and xtol < 1 and no callback interferes, fmin_lbfgs gives up (LBFGSError, or a warning other than that about max_iterations) only where the lowest point of the line is at a step t with (1 - ftol) t <= min_step, or t >= max_step, or t0 > max_step, or t > t0(1 + 4 + ... + 4^(max_linesearch-2)).", "quantifier": "for all dimensions, positive definite quadratic objectives, start points, histories, options in the stated ranges and numbers of iterations, over the reals", "why_tests_cant": "the safeguarded cubic and quadratic interpolation has many cases whose errors cost iterations rather than correctness, so that tests on the final point pass; the statement is about every search of every run", "anchors": ["liblbfgs/lbfgs.c:line_search_morethuente", "liblbfgs/lbfgs.c:update_trial_interval", "liblbfgs/lbfgs.c:CUBIC_MINIMIZER", "liblbfgs/lbfgs.c:QUARD_MINIMIZER", "src/pyuoi/lbfgs/__init__.py:fmin_lbfgs"]}
{"id": "C106", "title": "Without an iteration limit fmin_lbfgs still ends on strongly convex objectives, at a linear rate, close to the minimum", "statement": "Let F be strongly convex with constant mu and its gradient Lipschitz with constant M, and let orthantwise_c be 0 and the line search one that checks curvature (More-Thuente with gtol < 1, Wolfe or strong Wolfe). In exact arithmetic every accepted step lowers F by at least g |grad F|^2, and F(x) - F(u) by the factor 1 - 2 mu g for every u, where g > 0 depends only on mu, M, ftol, the curvature tolerance and the number m of corrections. Hence the number of iterations is at most |grad F(x0)|^2 / (2 mu g epsilon^2), and the call ends even with max_iterations = 0, the default. For every u, a point x returned without a warning has F(x) - F(u) <= (epsilon max(1,|x|))^2 / (2 mu), and lies within 2 epsilon max(1,|x|) / mu of any point u at which F is not larger, the minimum in particular.", "quantifier": "for all dimensions, strongly convex objectives with Lipschitz gradients, start points, documented options with positive ftol and epsilon, callbacks and numbers of iterations, over the reals", "why_tests_cant": "a test can only observe that certain calls return; that none can loop for ever, and the rate, concerns all objectives of the class and unboundedly long runs", "anchors": ["liblbfgs/lbfgs.c:lbfgs", "liblbfgs/lbfgs.c:line_search_morethuente", "liblbfgs/lbfgs.c:line_search_backtracking", "src/pyuoi/lbfgs/__init__.py:fmin_lbfgs"]}
{"id": "C107", "title": "The default line search of fmin_lbfgs turns back when the objective flattens out (finding)", "statement": "Take fmin_lbfgs with orthantwise_c 0 and the default line search, ftol <= 1/3, min_step < 1/|g| < max_step, where g is the gradient at x0. The second evaluation is at y = x0 - g/|g|. Let a be the steepness at x0 along -g and b the one at y, and m the mean steepness on the way (scaled alike). If the search should go on beyond y because the curvature condition fails (b > gtol a), and the objective flattens (2 b < a, a + b <= 3 m <= a + b + sqrt(a b)), then the third evaluation is not beyond y: it is at x0 - min_step g, next to x0. In binary64, with F(x) = 1/(1 + x) + x/16 from 0 and gtol = 1/10, the evaluations are at 0, 1, about 1e-20, NaN, NaN, and LBFGSError is raised, although F is convex and smooth for x > -1 with minimum 3; with the default gtol of 0.9 the same call returns 3 to within 1/1000.", "quantifier": "for every objective of any number of variables, every state, starting point and set of options as described, in exact arithmetic; the failing call as one run in binary64", "why_tests_cant": "Which objectives lead to the unusual branch depends on three real numbers; a test sees only one, and the tests of the wrapper use quadratics or Rosenbrock's function, on which the branch does not occur.", "anchors": ["liblbfgs/lbfgs.c:CUBIC_MINIMIZER2", "liblbfgs/lbfgs.c:update_trial_interval", "liblbfgs/lbfgs.c:line_search_morethuente", "src/pyuoi/lbfgs/__init__.py:fmin_lbfgs"]}
{"id": "C108", "title": "softmax, sigmoid and predict_proba never leave [0, 1] in binary64, unless a score is infinite (finding)", "statement": "Computed in binary64, with additions in any order, softmax maps any finite log-probabilities, however large, to numbers between 0 and 1: there is no overflow, NaN or division by zero. The class with the largest score gets at least the rounded 1/k, and a larger score never gets a smaller probability. sigmoid gives a number between 0 and 1 for every argument that is not NaN. predict_proba of the logistic models gives numbers between 0 and 1 for every sample with finite scores. One score of +inf, however, makes all probabilities of softmax NaN.", "quantifier": "for all numbers of classes up to 2^53, all finite binary64 scores, all coefficients and samples, every exponential function with values in [0, 1] for x <= 0 and exp(0) = 1 (correct rounding is shown to suffice; the order is kept if it is also increasing), every order of summation", "why_tests_cant": "Overflow and rounding occur at particular combinations of exponents among 2^64 numbers per score; tests try a few moderate scores.", "anchors": ["src/pyuoi/utils.py:softmax", "src/pyuoi/utils.py:sigmoid", "src/pyuoi/linear_model/logistic.py:UoI_L1Logistic", "src/pyuoi/linear_model/logistic.py:LogisticInterceptFitterNoFeatures"]}
{"id": "C109", "title": "How the default line search of fmin_lbfgs shortens steps that are too long", "statement": "As long as the trial step does not decrease the objective sufficiently, the default line search evaluates next at a shorter step, determined by the start and the last trial: the minimum of the interpolating cubic if it is nearer to the start than that of the interpolating parabola, else the mean of the two, and (if the value went down, but not enough) the point where the slope is ftol times the initial one in place of the minimum; never beyond 0.66 times the last step nor below min_step. The number of trials that are too long is at most logarithmic in the curvature bound divided by the gradient.", "quantifier": "for all smooth objectives, starting points and documented options with ftol < 1 and xtol < 1, all numbers of trials below max_linesearch, in the first line search, over the reals", "why_tests_cant": "Each of the branches of the search depends on relations between values and slopes at two points; tests check the final result only.", "anchors": ["src/pyuoi/lbfgs/__init__.py:fmin_lbfgs", "liblbfgs/lbfgs.c:update_trial_interval", "liblbfgs/lbfgs.c:line_search_morethuente"]}
{"id": "C110", "title": "fmin_lbfgs returns the starting point with only a warning for objectives without a lower bound (finding)", "statement": "If the objective is concave (linear, for example), so that it falls without bound, fmin_lbfgs with the default line search evaluates it at steps t, 5t, 21t, 85t, ... until max_step is reached or max_linesearch evaluations have been made. If max_step is reached first, it raises LBFGSError; otherwise it returns the starting point with a warning. With the default options it is always the latter, after 21 evaluations.", "quantifier": "for all concave differentiable objectives, all starting points with a gradient that does not pass the convergence test, all documented options with ftol < 1 and gtol < 1, over the reals", "why_tests_cant": "The outcome depends on when a geometric sequence passes max_step; tests minimize functions that have a minimum.", "anchors": ["src/pyuoi/lbfgs/__init__.py:fmin_lbfgs", "liblbfgs/lbfgs.c:line_search_morethuente"]}
{"id": "C111", "title": "The order of the features matters only through ties (finding)", "statement": "Let the columns of X be permuted and let the solvers, the scores and the rescaling be indifferent to the order of columns. If in every estimation bootstrap exactly one candidate support has the best score and no score is NaN, fit on the permuted X (same random state) returns the permuted coef_, the same intercept_, the permuted supports_ (sorted again) and chooses the permuted supports. If several supports share the best score, the chosen one is the one that leaves out the first feature on which they differ, because np.unique sorts supports_ and argmax takes the first: so with duplicated or interchangeable features the columns further to the right win, and permuting the columns changes the model.", "quantifier": "all dimensions with one output row and shared support, all solvers (with or without state), splitting functions, random states, permutations; the tie rule for any number of ranks and classes", "why_tests_cant": "A test compares two column orders on one data set, where scores rarely tie; the rule for ties and the absence of any other dependence on the order concern all data sets and solvers.", "anchors": ["src/pyuoi/linear_model/base.py:309-321", "src/pyuoi/linear_model/base.py:363-442", "src/pyuoi/linear_model/utils.py:131-145"]}
{"id": "C112", "title": "UoI_NMF reconstructs data by the closest point its components can produce", "statement": "For a fitted UoI_NMF, float data and a non-negative regressor that returns optimal non-negative weights: inverse_transform(transform(X)) is X itself, with reconstruction_err_ 0, when X was built from the components with non-negative weights, and then transform(X) returns those weights if the components are independent; in general the sum of squares of X is that of the reconstruction plus reconstruction_err_ squared; two data sets are reconstructed at most as far from each other as they are; the reconstruction does not depend on which optimal regressor is used (the weights may), and scales with the data; each row is transformed independently of the others.", "quantifier": "for all components, data, numbers of rows and optimal regressors", "why_tests_cant": "the space of real matrices and of solvers", "anchors": ["src/pyuoi/decomposition/NMF.py:UoI_NMF_Base.transform", "src/pyuoi/decomposition/NMF.py:UoI_NMF_Base.inverse_transform"]}
{"id": "C113", "title": "How many samples a bootstrap trains on (finding)", "statement": "For a float selection_frac or estimation_frac between 1/2 and 1 and at least two samples, training and test parts are non-empty, use all samples, and the training part has the fraction of n rounded down, or one sample more if that product falls short of a whole number by no more than a rounding error. For smaller fractions above 2^-54 the training part is within one sample below and a rounding error above the fraction of n; an empty training part raises ValueError. NaN, infinities, values of 1 and more and of 2^-54 and less raise ValueError in fit, not in the constructor. 0.9 of 10 m samples is exactly 9 m, but 0.7 of 10 m samples is 7 m - 1 for every m. An int is not a fraction: 0 trains on all samples but one, -k on all but k + 1; 1 is refused by the linear models and means all rows for UoI_CUR.", "quantifier": "for all binary64 fractions and numbers of samples up to 2^53", "why_tests_cant": "all doubles and all sample sizes; rounding decides whether a sample is lost", "anchors": ["src/pyuoi/linear_model/base.py:AbstractUoILinearModel.fit", "src/pyuoi/decomposition/CUR.py:UoI_CUR.fit"]}
{"id": "C114", "title": "More selection bootstraps", "statement": "With the same data, the same seed and stability_selection=1.0, raising n_boots_sel can only shrink the candidate supports: every support of the larger run lies inside one of the smaller run, every support of the smaller run contains one of the larger run, and a feature in no support of the smaller run has coefficient zero in the larger one. With stability_selection given as a number (or several numbers) of bootstraps the supports can only grow. With a proportion such as 0.5 neither holds (finding): the supports of two and of four bootstraps can be disjoint.", "quantifier": "for every data set, solver whose sweep is a function of its training rows, number of bootstraps, regularization path, seed, number of MPI ranks up to the number of bootstraps, and interleaving", "why_tests_cant": "the selected features of two runs are compared over all counting patterns of all bootstraps; tests fix n_boots_sel", "anchors": ["src/pyuoi/linear_model/base.py:fit", "src/pyuoi/linear_model/utils.py:intersection", "src/pyuoi/linear_model/utils.py:stability_selection_to_threshold"]}
{"id": "C115", "title": "Bootstraps that do not contain every class (finding)", "statement": "If UoI_L1Logistic.fit returns (two or more features), every class occurs in the training part of every selection bootstrap: a bootstrap that lacks a class makes fit raise. The same holds for every estimation bootstrap and support, with one exception: if the training part has exactly two of three or more classes and the support has exactly one feature, fit goes on and stores the coefficient that separates these two classes for all classes alike (so the feature has no influence on the probabilities). Passing stratify=y rules out missing classes whenever more than half of the samples are used for training. A stratified bootstrap of n_train of the N samples contains, of a class with c samples, exactly floor(n_train*c/N) or one more (N*N < 2^53, current scikit-learn), never more than c.", "quantifier": "for every labelling, number of classes, features, bootstraps, regularization parameters, ranks, interleaving, solver and random draw", "why_tests_cant": "whether a class is missing depends on random draws; tests use balanced data where it practically never happens", "anchors": ["src/pyuoi/linear_model/logistic.py:MaskedCoefLogisticRegression.fit", "src/pyuoi/linear_model/base.py:uoi_selection_sweep", "src/pyuoi/linear_model/base.py:fit"]}
{"id": "C116", "title": "The intercept of Poisson coordinate descent is not part of the convergence test (finding)", "statement": "Poisson(solver='cd', fit_intercept=True) stops when the coefficients stop changing, whatever the intercept does. When the penalty selects nothing, fit stops after the first sweep and returns zero coefficients with intercept m - 1 instead of log(m), m being the (weighted) mean of y; every prediction is exp(m - 1), strictly more than m unless m = 1, and the documented objective is strictly lower at log(m). Whatever the penalty, the returned intercept is at least m - max_iter (with standardize=True: the prediction at the mean sample is at least exp(m - max_iter)). Once a sweep gives an infinite prediction for a training sample, further sweeps give a model that predicts NaN everywhere, without an exception.", "quantifier": "for every design matrix, response, sample weights, penalty, tolerance and number of sweeps; the last part in binary64 for every exp function", "why_tests_cant": "tests use small counts and weak penalties, where the intercept is close to its optimum by the time the coefficients settle", "anchors": ["src/pyuoi/linear_model/poisson.py:Poisson._cd", "src/pyuoi/linear_model/poisson.py:Poisson._cd_sweep", "src/pyuoi/linear_model/poisson.py:Poisson.fit"]}
{"id": "C117", "title": "A feature that is zero in every sample spoils Poisson coordinate descent (finding)", "statement": "Poisson(solver='cd', l1_ratio=1) divides 0 by 0 for a feature that is zero in all samples (or that is zero after standardization, such as a constant one): fit returns without an exception, the coefficient of that feature is NaN, with two or more sweeps allowed every coefficient is zero or NaN and the intercept is NaN, and all predictions are NaN.", "quantifier": "for every other feature, response, sample weights, penalty, tolerance, number of sweeps and exp function, in binary64", "why_tests_cant": "test data have no empty features; with sparse counts a bootstrap contains one at random", "anchors": ["src/pyuoi/linear_model/poisson.py:Poisson._cd_sweep", "src/pyuoi/linear_model/poisson.py:Poisson.fit", "src/pyuoi/linear_model/poisson.py:Poisson.predict_mean"]}
{"id": "C118", "title": "The default line search of fmin_lbfgs tries the steps of More and Thuente's rules, and gives up where they lead out of the interval (finding)", "statement": "Take fmin_lbfgs with orthantwise_c 0, the default line search and 4 ftol <= gtol. Let h(t) be the objective at x0 - t g and h'(t) its slope, g the gradient at x0. The first steps tried are exactly those of the rules: 1/|g| held in [min_step, max_step], and after a step that is not acceptable the one obtained from the minima of the cubic or quadratic through the values and slopes at the best step, the last step and the other end of the interval (four cases), in the first stage after subtracting the line of sufficient decrease, kept within the interval allowed and away from its end, or the midpoint if the interval has not shrunk to 0.66 of its width two steps before. The rules always determine one next step. Once a minimum is enclosed the next step is strictly inside the interval unless the last one was flat, or was flatter than the best with no minimum of the cubic beyond it. In the latter case, if the mean slope is as described, the rules lead back to the best step before, outside the interval: the last step is evaluated again and x0 is returned with the warning that rounding errors occurred, in exact arithmetic. In binary64, with F(x) = 6x^2 - 3x + x^2 (1-x)^2 (84 (4x-1)^2 - 28x - 3) from 0 and the default options, the evaluations are at 0, 1, 1/4, 1/4 and 0 is returned with that warning, although F(1/4) < F(0).", "quantifier": "for every objective of any number of variables, every state, starting point and set of options as described, any number of steps of the first search, in exact arithmetic; the failing call as one run in binary64", "why_tests_cant": "The steps depend on real values and slopes in a decision tree with some forty leaves; a test follows one path, and the tests of the wrapper only look at the final result.", "anchors": ["liblbfgs/lbfgs.c:line_search_morethuente", "liblbfgs/lbfgs.c:update_trial_interval", "liblbfgs/lbfgs.c:CUBIC_MINIMIZER", "liblbfgs/lbfgs.c:CUBIC_MINIMIZER2", "liblbfgs/lbfgs.c:QUARD_MINIMIZER", "src/pyuoi/lbfgs/__init__.py:fmin_lbfgs"]}
{"id": "C119", "title": "Data without noise are fitted exactly", "statement": "If y = X beta + b exactly (b = 0 unless fit_intercept), then UoI_Lasso and UoI_ElasticNet with estimation_score='r2' on the test data return coef_ = beta and intercept_ = b, with standardize=True or False, provided that every estimation bootstrap has a candidate support that contains all relevant features and whose model is determined by the training samples, and at least two test samples that distinguish beta from what the other candidate supports could give. Further candidate supports, wrong ones included, and the number of bootstraps make no difference; in particular the returned coefficients are not shrunk. (Exact arithmetic.)", "quantifier": "all data sets without noise, supports, bootstraps, numbers of samples and features, least-squares solvers", "why_tests_cant": "Tests fit a few random data sets with noise and compare to a tolerance; exact recovery is a statement about all designs, supports and bootstraps.", "anchors": ["src/pyuoi/linear_model/base.py:363-442", "src/pyuoi/linear_model/base.py:537-565", "src/pyuoi/linear_model/base.py:575-657", "src/pyuoi/linear_model/lasso.py:245"]}
{"id": "C120", "title": "Without an intercept the empty support is scored as if it had one (finding)", "statement": "With fit_intercept=False the model without features is scored in each estimation bootstrap as the constant mean of the training response, although the model that would be returned predicts 0. Whenever that constant has a smaller squared error on the test samples of each bootstrap than all other candidates, fit returns coef_ = 0 and intercept_ = 0. The returned model can be worse on all of the data than a rejected candidate: for y = a + x with a > 1 and balanced features the error exceeds that of the least-squares fit on x.", "quantifier": "all data sets, supports, bootstraps and solvers for the first part; every a > 1 and every least-squares solver for the second", "why_tests_cant": "No test uses fit_intercept=False with a response of non-zero mean; the score is consistent with a model that is never returned.", "anchors": ["src/pyuoi/linear_model/base.py:390-401", "src/pyuoi/linear_model/base.py:644-667"]}
{"id": "C121", "title": "The estimation module takes the cheapest candidate of each bootstrap and the median of the coefficients", "statement": "UoI_Lasso.fit and UoI_ElasticNet.fit (standardize=False, response not constant) return, and in each estimation bootstrap the estimate is the least-squares estimate (0 outside the support) of a candidate support with the lowest cost among all candidates. The cost is the sum of squared errors for 'r2' and n*ln(sum of squared errors) + price for the information criteria, where n is the number of scored samples, k the size of the support and the price k*ln(n) for BIC, 2k for AIC and 2k + 2(k^2+k)/(n-k-1) for AICc (2k if n <= k+1). Each coefficient is the median over the bootstraps (the middle value, or the mean of the two middle ones), and intercept_ is mean(y) - mean(X).coef_, or 0 without intercept.", "quantifier": "for every data set, list of candidate supports, split into bootstraps, metric, estimation target, and least-squares solver (exact arithmetic; positive errors for the logarithm)", "why_tests_cant": "the combination of solver, score, argmax and median is only tested on random data with loose tolerances", "anchors": ["src/pyuoi/linear_model/base.py:fit", "src/pyuoi/linear_model/base.py:_score_predictions", "src/pyuoi/utils.py:log_likelihood_glm", "src/pyuoi/utils.py:BIC", "src/pyuoi/utils.py:AIC", "src/pyuoi/utils.py:AICc"]}
{"id": "C122", "title": "With 'r2' on the training samples the largest candidate wins (finding)", "statement": "On the samples it is fitted to, a least-squares model on a support never has a larger squared error than any model on a support contained in it (with an intercept also compared to no features at all). So with estimation_score='r2' and estimation_target='train', if one candidate support contains all others (for instance all features), it provides the estimate of every bootstrap: fit returns the median of its least-squares estimates, and the estimation module rejects no feature whatever the data are.", "quantifier": "for every data set, list of candidate supports, split into bootstraps and least-squares solver (exact arithmetic; the coefficients of the largest candidate determined by the training samples)", "why_tests_cant": "a test shows it for some data; that no data exist for which a smaller candidate is chosen needs a proof", "anchors": ["src/pyuoi/linear_model/base.py:fit", "src/pyuoi/linear_model/base.py:_score_predictions"]}
{"id": "C123", "title": "The units of the response without standardization: carried over by UoI_Lasso, not by UoI_ElasticNet (finding)", "statement": "UoI_Lasso(standardize=False): fitting s*y + t instead of y, s not 0 and possibly negative, t only with fit_intercept=True, gives the same supports_, coef_ multiplied by s and intercept_ mapped to s*b + t, for every estimation score, as long as the largest penalty is above 1e-15 in both units. UoI_ElasticNet(standardize=False) does not have this property: there are data for which every solver of its problems gives the supports {} and {0}, and for ten times the response {} and {0, 1}.", "quantifier": "for every data set, scale, shift, list of penalties, set of bootstraps and solver that finds minimizers (exact arithmetic, minimizers with the same features and least squares with one solution)", "why_tests_cant": "a test compares two fits in two units with one solver up to its tolerance; invariance of the whole pipeline for all units and scores, and its failure for every solver of the elastic net, need a proof", "anchors": ["src/pyuoi/linear_model/lasso.py:get_reg_params", "src/pyuoi/linear_model/elasticnet.py:get_reg_params", "src/pyuoi/linear_model/base.py:fit", "src/pyuoi/linear_model/base.py:uoi_selection_sweep"]}
{"id": "C124", "title": "Features that do not vary are never used", "statement": "UoI_Lasso, UoI_ElasticNet and (with fit_intercept=True) UoI_Poisson and UoI_L1Logistic for two classes: if a feature has the same value in all training samples of so many selection bootstraps that the others are fewer than every selection threshold (with stability_selection=1.0 one such bootstrap is enough), then it is in no row of supports_ and its entry of coef_ is 0, with and without standardization. Without an intercept the value has to be 0.", "quantifier": "for every data set, list of penalties and mixing weights in (0, 1], set of bootstraps, least-squares solver and penalized solver that finds minimizers for those bootstraps (exact arithmetic)", "why_tests_cant": "whether a feature varies within a bootstrap depends on random draws, and a test sees one solver on one data set", "anchors": ["src/pyuoi/linear_model/base.py:fit", "src/pyuoi/linear_model/base.py:uoi_selection_sweep", "src/pyuoi/linear_model/lasso.py:get_reg_params", "src/pyuoi/linear_model/elasticnet.py:get_reg_params", "src/pyuoi/linear_model/poisson.py:get_reg_params", "src/pyuoi/linear_model/poisson.py:_post_fit", "src/pyuoi/linear_model/logistic.py:get_reg_params", "src/pyuoi/linear_model/logistic.py:MaskedCoefLogisticRegression"]}
{"id": "C125", "title": "UoI_Poisson and the units of the counts (partly a finding)", "statement": "UoI_Poisson with fit_intercept=True and estimation_score='log': fitting the response multiplied by a positive factor s (counts per minute instead of per second) gives the same supports_ and coef_, an intercept_ larger by ln s, and predict_mean multiplied by s, with and without standardization. With estimation_score='AIC' this is false: there is a data set on which dividing the response by five removes the only feature from the model.", "quantifier": "for every data set with a varying response and positive mean counts, every factor s > 0, list of penalties and mixing weights, set of bootstraps, and every pair of solvers that minimize the documented objective where the minimizers agree on the features (selection) or are unique (estimation) (exact arithmetic)", "why_tests_cant": "it relates two runs over all data sets, units and solvers; a test fixes one data set and one unit, and compares floating-point fits up to solver tolerance", "anchors": ["src/pyuoi/linear_model/base.py:fit", "src/pyuoi/linear_model/base.py:uoi_selection_sweep", "src/pyuoi/linear_model/poisson.py:get_reg_params", "src/pyuoi/linear_model/poisson.py:_score_predictions", "src/pyuoi/linear_model/poisson.py:_fit_intercept"]}
{"id": "C126", "title": "Fitted values reproduce the total of the response, except for a standardized UoI_L1Logistic (finding)", "statement": "With fit_intercept=True, the residuals y - predict(X) of a fitted UoI_Lasso or UoI_ElasticNet on its training data sum to zero, and the values predict_mean(X) of a fitted UoI_Poisson have the same sum as the counts. This holds with and without standardization, whatever supports were selected, and also when the coefficients are medians over bootstraps that solve no single problem. For UoI_L1Logistic with two classes whose intercept refit is exact, the probabilities of the second class on the training data sum to the number of its samples without standardization; with standardize=True the published intercept_ is too large by exactly the sum over the features of mean * coef * (scale + 1), so the totals agree only if that sum is zero, and there are data on which it is not.", "quantifier": "for every data set (UoI_Poisson: with a positive total count), every set of bootstraps, metric and penalty list, and every solver, including ones that did not converge (exact arithmetic)", "why_tests_cant": "the coefficients are aggregated over random bootstraps after the last solver call, so no solver guarantee covers this, and a test sees one data set up to rounding", "anchors": ["src/pyuoi/linear_model/base.py:_fit_intercept", "src/pyuoi/linear_model/base.py:_post_fit", "src/pyuoi/linear_model/base.py:fit", "src/pyuoi/linear_model/poisson.py:_fit_intercept", "src/pyuoi/linear_model/poisson.py:_post_fit", "src/pyuoi/linear_model/logistic.py:_fit_intercept", "src/pyuoi/linear_model/logistic.py:fit_intercept_fixed_coef"]}
{"id": "C127", "title": "UoI_Poisson keeps, per bootstrap, the support with the best score", "statement": "UoI_Poisson.fit: for each estimation bootstrap the retained estimate is that of a support in supports_ (including the empty one, which predicts the mean training count) with the highest mean Poisson log-likelihood on the scored samples (estimation_score='log') or the lowest AIC, AICc or BIC, where the parameters are the features of the support plus the intercept if it is not zero. coef_ is the entrywise median of these estimates, divided by the scale of each feature under standardize=True.", "quantifier": "for every data set with a varying response whose estimation bootstraps have positive mean counts, every metric of the four, penalty list, set of bootstraps and target set, with or without an intercept and standardization, and every solver that returns one coefficient per given feature (exact arithmetic)", "why_tests_cant": "the winning support depends on all data, on random bootstraps and on a solver; a test compares one run and cannot show that no better support was passed over", "anchors": ["src/pyuoi/linear_model/base.py:fit", "src/pyuoi/linear_model/poisson.py:_score_predictions", "src/pyuoi/utils.py:log_likelihood_glm", "src/pyuoi/utils.py:BIC", "src/pyuoi/utils.py:AIC", "src/pyuoi/utils.py:AICc", "src/pyuoi/linear_model/poisson.py:PoissonInterceptFitterNoFeatures"]}
{"id": "C128", "title": "Swapping the two classes negates a UoI_L1Logistic model (and where it does not: finding)", "statement": "UoI_L1Logistic with two classes and estimation_score='acc': fitting the same data with the two labels exchanged selects the same supports_ and returns the negated coef_ and intercept_, provided both codings get the same list of penalties, every selection problem has one set of features of minimal objective, no training set of an estimation bootstrap is split exactly in half, and no scored sample has probability exactly one half. Both provisos matter. For centered features the largest penalty of one coding is that of the other times the odds of the classes, so the lists agree exactly for balanced classes (or unrelated features). With training samples split in half the empty model predicts the class that sorts last, and there are data for which one coding returns the zero model and the other keeps a feature.", "quantifier": "for every data set with both classes, every set of bootstraps, thresholds and target set, with and without standardization, and every solver that finds a minimum for both codings (exact arithmetic)", "why_tests_cant": "a test refits one data set with swapped labels and compares up to solver tolerance; agreement there says nothing about other data, and the exceptions are ties and unbalanced classes that a chosen data set may not contain", "anchors": ["src/pyuoi/linear_model/logistic.py:get_reg_params", "src/pyuoi/linear_model/logistic.py:LogisticInterceptFitterNoFeatures", "src/pyuoi/linear_model/logistic.py:fit_intercept_fixed_coef", "src/pyuoi/linear_model/logistic.py:_fit_intercept", "src/pyuoi/linear_model/base.py:fit", "src/pyuoi/linear_model/base.py:_score_predictions"]}
{"id": "C129", "title": "UoI_L1Logistic keeps, per bootstrap, the first support with the best score; ties end in the zero model (finding)", "statement": "UoI_L1Logistic.fit with two classes: for each estimation bootstrap the retained estimate is that of the first row of supports_ with the most correct predictions on the scored samples (estimation_score='acc'), or, for labels 0 and 1, with the highest mean clipped log-probability ('log') or lowest BIC, AIC or AICc, where only features count as parameters and the empty support predicts the share of the second class among the training samples. coef_ is the entrywise median of these estimates, divided by the scale of each feature under standardize=True. Hence with 'acc' (the default), if the empty support is a row of supports_ and in more than half of the estimation bootstraps no support predicts more scored samples correctly than the larger training class does, coef_ is all zero, however well the features separate the probabilities. A response with a single class gives coef_ all zero, and fit_intercept=False gives intercept_ zero.", "quantifier": "for every two-class data set, penalty list, thresholds, set of bootstraps and target set, with or without an intercept and standardization, and every solver that returns one coefficient per given feature (exact arithmetic)", "why_tests_cant": "the winning support depends on all data, on random bootstraps and on a solver; a test compares one run and cannot show that no better support was passed over, and ties only occur for particular scored samples", "anchors": ["src/pyuoi/linear_model/base.py:fit", "src/pyuoi/linear_model/base.py:_score_predictions", "src/pyuoi/linear_model/logistic.py:LogisticInterceptFitterNoFeatures", "src/pyuoi/linear_model/logistic.py:MaskedCoefLogisticRegression", "src/pyuoi/utils.py:BIC", "src/pyuoi/utils.py:AIC", "src/pyuoi/utils.py:AICc", "src/pyuoi/linear_model/logistic.py:_fit_intercept"]}
{"id": "C130", "title": "The order of the samples does not matter", "statement": "UoI_Lasso, UoI_ElasticNet, UoI_Poisson and UoI_L1Logistic (two classes): fit on the rows of X and y listed in another order, with bootstraps that contain the same samples in the same order of drawing, gives the same supports_, coef_ and intercept_ (or raises the same exception) as fit on the original order. This covers the preprocessing, the penalty grids, the constant-response shortcut, the class encoding, selection, scoring, the choice of estimates and the last refit of the intercept (which for UoI_L1Logistic has to be exact).", "quantifier": "for every data set, every order of its samples, every set of bootstraps, penalties, thresholds, scores and target sets, with or without an intercept and standardization, and all solvers (exact arithmetic)", "why_tests_cant": "a test can only shuffle a few data sets, and because the bootstraps are drawn at random a shuffled run uses other bootstraps and other rounding errors, so the results cannot be compared directly", "anchors": ["src/pyuoi/linear_model/base.py:141-160", "src/pyuoi/linear_model/base.py:179-445", "src/pyuoi/linear_model/base.py:447-481", "src/pyuoi/linear_model/base.py:575-657", "src/pyuoi/linear_model/base.py:741-807", "src/pyuoi/linear_model/lasso.py:247-255", "src/pyuoi/linear_model/elasticnet.py:131-182", "src/pyuoi/linear_model/poisson.py:379-656", "src/pyuoi/linear_model/logistic.py:153-211"]}
{"id": "C131", "title": "The zero points of the features: irrelevant for UoI_Lasso, UoI_ElasticNet and UoI_Poisson with an intercept, but UoI_L1Logistic loses all features (finding)", "statement": "With standardize=False and fit_intercept=True, adding a constant to each feature (another zero point of the scale, for example Kelvin for Celsius or Unix time for minutes since noon) does not change supports_ or coef_ of UoI_Lasso, UoI_ElasticNet and UoI_Poisson, and intercept_ changes by exactly minus the sum of the constants times the coefficients, so all predictions stay as they were (for UoI_Poisson with an information criterion as long as no intercept becomes, or stops being, exactly 0). UoI_L1Logistic does not have this property, although its penalized models do: get_reg_params derives the penalty grid from the features without centring them. If the features lie within M of a point o and some coordinate of o satisfies M < eps * s * (1 - s) * (|o_j| - M), where s is the share of the second class, then every support is empty and coef_ is all zeros, even if the feature separates the classes perfectly.", "quantifier": "for every data set, every displacement, penalty grid, set of bootstraps (for UoI_L1Logistic: with both classes in every selection bootstrap), thresholds, score and target set, with solvers that solve their problems (exact arithmetic)", "why_tests_cant": "an invariance under all displacements cannot be tested exactly, and rounding errors of a displaced data set hide whether a difference comes from the method; the data sets of the tests are centred around 0, for which the grid of UoI_L1Logistic is harmless", "anchors": ["src/pyuoi/linear_model/base.py:141-160", "src/pyuoi/linear_model/base.py:179-445", "src/pyuoi/linear_model/base.py:501-565", "src/pyuoi/linear_model/base.py:651-657", "src/pyuoi/linear_model/lasso.py:247-255", "src/pyuoi/linear_model/elasticnet.py:131-182", "src/pyuoi/linear_model/poisson.py:379-656", "src/pyuoi/linear_model/logistic.py:153-179"]}
{"id": "C132", "title": "Copies of a feature: UoI_ElasticNet and UoI_Poisson with alphas below 1 keep both or none; for UoI_Lasso solving the penalized models exactly does not rule out losing both (finding)", "statement": "If two features have the same values in all samples, then with l1_ratio values (alphas) below 1 every support in supports_ of UoI_ElasticNet and UoI_Poisson contains both of them or neither, for all bootstraps and thresholds, because the minimizer of each bootstrap gives both the same coefficient. UoI_Lasso has no such guarantee: its problems have many minimizers, and which copy carries the coefficient is up to the solver. If the supports are intersected over all selection bootstraps (the default) and not all bootstraps have the same training response, then some solver solves every Lasso problem exactly and yet neither copy is in any support and both coefficients are 0, even if the response is a multiple of the feature.", "quantifier": "for every data set with two equal features, every penalty grid, set of bootstraps, intercept and standardize option, score and target set; UoI_ElasticNet and UoI_Poisson (the features may be penalized in units that are the same for both copies): all exact solvers and all thresholds; UoI_Lasso: existence of an exact solver for every such data set for which exact solvers exist (exact arithmetic)", "why_tests_cant": "a test runs one solver on one data set and sees one of the minimizers; whether the documented problem determines the result needs all minimizers", "anchors": ["src/pyuoi/linear_model/base.py:222-330", "src/pyuoi/linear_model/base.py:447-481", "src/pyuoi/linear_model/base.py:141-154", "src/pyuoi/linear_model/elasticnet.py:121-182", "src/pyuoi/linear_model/lasso.py:228-255", "src/pyuoi/linear_model/poisson.py:506-548"]}
{"id": "C133", "title": "What the penalized problems determine, whichever exact solver is used", "statement": "All minimizers of the Lasso, elastic net, Poisson and (two classes, with intercept) L1 logistic objectives of a bootstrap have the same fitted values or probabilities and the same penalty, although they may use different features if l1_ratio is 1. With mixing weights (alphas) below 1 and a positive penalty there is only one vector of coefficients, so supports_, coef_ and intercept_ of UoI_ElasticNet and UoI_Poisson are the same for every selection solver that solves its problems: a different algorithm, starting point, warm start or order of the features inside the solver cannot change the result.", "quantifier": "for every data set, penalty grid, set of bootstraps, thresholds, score and target set, and every pair of exact selection solvers (exact arithmetic; for UoI_Poisson also with features penalized in other units than 1)", "why_tests_cant": "tests compare one solver with itself or with another one up to a tolerance; a coefficient of 1e-9 instead of 0 is another support", "anchors": ["src/pyuoi/linear_model/base.py:222-330", "src/pyuoi/linear_model/base.py:447-481", "src/pyuoi/linear_model/elasticnet.py:121-182", "src/pyuoi/linear_model/poisson.py:506-548", "src/pyuoi/linear_model/lasso.py:228-255", "src/pyuoi/linear_model/logistic.py:24-211"]}
