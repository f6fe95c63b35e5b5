{"id": "C01", "title": "Feature columns never look outside their lag/aggregation window", "statement": "On a regularly sampled signal, the value that Formatter.transform puts in the column for (function f, lag l, aggregation length a) at row i is f applied to the samples with indices i-l-a+1 .. i-l (missing when fewer than a of them are observed). In particular two signals that agree on those samples get the same feature, and a strictly positive lag means only samples strictly before row i matter.", "quantifier": "every signal (including missing values), every row, every lag (positive or negative), every aggregation length and every aggregation function", "why_tests_cant": "leakage is a non-interference statement over pairs of arbitrarily long signals and over all lags and aggregations", "anchors": ["pyforecaster/formatter.py:Transformer.transform"]}
{"id": "C02", "title": "Declared feature time windows are right", "statement": "For every column produced by a transformer, the start_time/end_time metadata delimit exactly the samples the column reads: at time t the column depends only on samples with timestamps in [t+start_time, t+end_time), and nothing smaller is claimed.", "quantifier": "every lag list, aggregation length, sampling step, relative or absolute lags, every signal", "why_tests_cant": "pruning and cross-validation dead-bands are computed from this metadata, so it must be right for all configurations, not the sampled ones", "anchors": ["pyforecaster/formatter.py:Transformer.transform", "pyforecaster/formatter.py:Formatter.get_time_lims"]}
{"id": "C03", "title": "Nested aggregation bins: metadata labels the column it sits next to", "statement": "When a transformer has aggregation bins, row k of the metadata table describes column k (same function, same bin, same lag).", "quantifier": "every number of functions, bins and lags", "why_tests_cant": "the mismatch appears only for particular combinations of counts (at least two functions and two bins, or bins with several lags)", "anchors": ["pyforecaster/formatter.py:Transformer.transform"]}
{"id": "C04", "title": "A transformer is a function of the data it is given", "statement": "Applying a transformer to a frame gives the same result whether or not that transformer was applied before to another frame with a different sampling time.", "quantifier": "all histories of transform calls with different sampling times", "why_tests_cant": "it is a statement about every history of calls on the same object", "anchors": ["pyforecaster/formatter.py:Transformer.transform"]}
{"id": "C05", "title": "transform returns aligned, complete rows", "statement": "Formatter.transform returns features and targets on exactly the same rows: the input rows (in order) for which every transformed feature and every target is present; no other row is dropped and none is invented. With augment=False exactly the transformed columns are returned.", "quantifier": "every frame, every placement of missing values, every list of transformers", "why_tests_cant": "ranges over every pattern of missing values", "anchors": ["pyforecaster/formatter.py:Formatter._transform"]}
{"id": "C06", "title": "Cross-validation folds separate training from test", "statement": "For every fold of time_kfcv no timestamp is both in train and in test, every training timestamp is further than the dead-band (the widest look-back of the features) from every test timestamp, and a fold depends only on the timestamps.", "quantifier": "every index, number of folds, multiplication factor and transformer metadata", "why_tests_cant": "the split is computed by date arithmetic; disjointness and gap must hold for all lengths and fold counts", "anchors": ["pyforecaster/formatter.py:Formatter.time_kfcv", "pyforecaster/formatter.py:Formatter.get_time_lims"]}
{"id": "C07", "title": "Cross-validation tests cover everything, the promised number of times", "statement": "time_kfcv returns n_k*multiplier_factor folds and every timestamp of the data belongs to the test part of at least one of them.", "quantifier": "every regular or irregular index, every n_k >= 2 and multiplier", "why_tests_cant": "coverage is a for-all over timestamps and fold parameters", "anchors": ["pyforecaster/formatter.py:Formatter.time_kfcv"]}
{"id": "C08", "title": "Step-ahead pruning keeps exactly the relevant features", "statement": "prune_dataset_at_stepahead keeps a feature iff its window start or end is aligned with the target window modulo the period within the tolerance (periodic), or ends no later than the target (up_to), or it is one of the last n lags / within the last seconds, or it is a metadata feature; the result has the columns in a fixed order and no row is changed.", "quantifier": "every metadata table, period, tolerance, step and keep_last setting", "why_tests_cant": "modular time comparisons with tolerances over all steps ahead", "anchors": ["pyforecaster/formatter.py:Formatter.prune_dataset_at_stepahead"]}
{"id": "C09", "title": "Target normalisation round trip", "statement": "Formatter.denormalize undoes Formatter.normalize: for pointwise inverse expressions the original target values come back for every row and every target.", "quantifier": "every frame, every number of target normalisers, every pair of mutually inverse expressions", "why_tests_cant": "algebraic law over all data and all configured expressions", "anchors": ["pyforecaster/formatter.py:Formatter.normalize", "pyforecaster/formatter.py:Formatter.denormalize", "pyforecaster/formatter.py:Formatter.normalize_target_inner"]}
{"id": "C10", "title": "Normaliser registry has unique names", "statement": "After any sequence of add_target_normalizer calls the registered target normalisers have pairwise different names, and the first registration of a name wins.", "quantifier": "all histories of registration calls", "why_tests_cant": "history property", "anchors": ["pyforecaster/formatter.py:Formatter.add_target_normalizer"]}
{"id": "C11", "title": "Time features are stable between fit and predict", "statement": "After the first call of add_time_features (with or without time zone information) every later call on a frame with any index produces the same list of column names, and the columns hold what they say: hour, day of week and minute of day of the row's own time stamp, and its UTC offset (zero without time zone).", "quantifier": "all histories of frames with and without time zones", "why_tests_cant": "a history property of a sticky flag", "anchors": ["pyforecaster/formatter.py:Formatter.add_time_features"]}
{"id": "C12", "title": "Holiday coding priority", "statement": "add_holidays encodes each day as 3 if it is a holiday, else 2 if it lies in a long weekend, else 1 if it is a bridge day, else 0.", "quantifier": "every set of days and every frame", "why_tests_cant": "priority must hold for every overlap of three sets", "anchors": ["pyforecaster/formatter.py:Formatter.add_holidays"]}
{"id": "C13", "title": "Frequency strings are normalised once and for all", "statement": "Normalising a pandas frequency string replaces each deprecated one-letter unit by its current spelling in one pass; doing it again changes nothing and no deprecated letter is left.", "quantifier": "every string", "why_tests_cant": "sequential replacements can interfere; must hold for all strings", "anchors": ["pyforecaster/formatter.py:_normalize_timedelta_freq"]}
{"id": "C14", "title": "Feature names identify time offsets", "statement": "The lag suffix and the human readable time delta used in column names are injective: two different lags (or two different offsets in whole seconds, padded form) never get the same name, and the offset can be read back.", "quantifier": "every integer lag and every offset", "why_tests_cant": "injectivity over the integers", "anchors": ["pyforecaster/formatter.py:Formatter.rename_features_prediction_time", "pyforecaster/formatter.py:hr_timedelta", "pyforecaster/formatter.py:Transformer.transform"]}
{"id": "C15", "title": "Global form is a faithful re-arrangement", "statement": "Converting a table of several signals to global form keeps every (time, signal, value) exactly once, tagged with the name of its signal, next to the shared columns; correlation re-ordering only permutes the values of a row, and a row is permuted at prediction time as rows of the same signal were in training.", "quantifier": "every set of signals, every row", "why_tests_cant": "permutation statement over all tables", "anchors": ["pyforecaster/formatter.py:Formatter.global_form_preprocess", "pyforecaster/formatter.py:Formatter.global_form_postprocess"]}
{"id": "C16", "title": "Scenario-generation subsampling is exact", "statement": "With max_scengen_rows=m and n>m rows the rows used are exactly m distinct rows of the input, in time order, features and targets of the same rows, and no hour contributes more rows than it has; with n<=m (or m None) the data are unchanged. The rows are drawn with scengen_random_state, else with the integer random_state, else with seed 0, and depend on that seed only.", "quantifier": "every dataset, every m, every outcome of the random generator", "why_tests_cant": "must hold for every random draw and every hour distribution", "anchors": ["pyforecaster/forecaster.py:ScenarioGenerator._maybe_subsample_for_scengen", "pyforecaster/forecaster.py:ScenarioGenerator._subsample_stratified_by_hour", "pyforecaster/forecaster.py:ScenarioGenerator._subsample_uniform"]}
{"id": "C17", "title": "Train/validation split is a chronological partition", "statement": "train_val_split with a ratio returns a prefix and a suffix that concatenate to the input, the suffix having int(n*ratio) rows; x and y are cut at the same row; with ratio None validation equals training.", "quantifier": "every n and every ratio in [0,1]", "why_tests_cant": "floor arithmetic at all sizes (including zero validation rows)", "anchors": ["pyforecaster/forecaster.py:ScenarioGenerator.train_val_split"]}
{"id": "C18", "title": "Empirical error quantiles are ordered and within the observed errors", "statement": "The fitted error distribution is nondecreasing in the quantile level and lies between the smallest and largest validation error; conditional distributions exist for all 24 hours.", "quantifier": "every sample and every pair of levels", "why_tests_cant": "order statistics with interpolation for all samples and levels", "anchors": ["pyforecaster/forecaster.py:ScenarioGenerator._estimate_err_distr"]}
{"id": "C19", "title": "Predicted quantiles do not cross and are a shift of the error distribution", "statement": "predict_quantiles of the linear/LightGBM forecasters equals the point forecast plus the error quantile of the row's hour for every row, step and level, hence is nondecreasing in the level; also when error distributions are not conditional to the hour.", "quantifier": "every row, step, level and fitted error distribution", "why_tests_cant": "for all inputs", "anchors": ["pyforecaster/forecaster.py:LinearForecaster._predict_quantiles", "pyforecaster/forecaster.py:LGBForecaster._predict_quantiles"]}
{"id": "C20", "title": "Quantile array <-> frame round trip", "statement": "quantiles_to_numpy (quantiles_to_df preds) gives back the same 3-d array.", "quantifier": "every array shape and contents, every list of distinct levels", "why_tests_cant": "for all shapes", "anchors": ["pyforecaster/forecaster.py:ScenarioGenerator.quantiles_to_df", "pyforecaster/forecaster.py:ScenarioGenerator.quantiles_to_numpy"]}
{"id": "C21", "title": "Predictive mass function is a (sub-)probability", "statement": "predict_pmf returns nonnegative masses with sum at most 1, equal to 1 exactly when every predicted quantile lies inside the bins' range.", "quantifier": "every set of quantiles and bins", "why_tests_cant": "for all quantiles/bins", "anchors": ["pyforecaster/forecaster.py:ScenarioGenerator.predict_pmf"]}
{"id": "C22", "title": "Categorical encoding is stable and invertible", "statement": "Categorical values get codes 0..k-1 in increasing order of the value; equal values always get equal codes, also in later calls; a value not seen in the first call raises.", "quantifier": "all histories of frames", "why_tests_cant": "history property", "anchors": ["pyforecaster/forecaster.py:encode_categorical"]}
{"id": "C23", "title": "Estimator parameters round trip", "statement": "set_params followed by get_params returns the new value of every recognised key and leaves all others unchanged; unknown keys are ignored.", "quantifier": "all parameter dictionaries", "why_tests_cant": "for all dictionaries", "anchors": ["pyforecaster/forecaster.py:ScenarioGenerator.set_params", "pyforecaster/forecaster.py:ScenarioGenerator.get_params"]}
{"id": "C24", "title": "Scenario interpolation respects the quantile function", "statement": "interp_scens maps a uniform sample to the piecewise linear quantile function: exact at the quantile levels, nondecreasing in the sample when predicted quantiles do not cross, and inside [lowest, highest quantile] whenever the sample is within the levels.", "quantifier": "every quantile vector and every sample", "why_tests_cant": "for all inputs", "anchors": ["pyforecaster/scenarios_generator.py:ScenGen.interp_scens", "pyforecaster/scenarios_generator.py:ScenGen.predict_scenarios"]}
{"id": "C25", "title": "Scenario reduction conserves probability", "statement": "Throughout scenario reduction, at every step ahead the probabilities of the surviving scenarios are positive, those of removed ones are zero and their sum is one.", "quantifier": "every scenario set, every node schedule and tolerance", "why_tests_cant": "invariant of a nested greedy loop of unbounded length", "anchors": ["pyforecaster/scenred.py:scenred"]}
{"id": "C26", "title": "Scenario reduction yields a tree", "statement": "After reduction, scenarios alive at a step are alive at no fewer later steps (survivor sets shrink backwards), the number alive is at most the requested number of nodes (exactly, without tolerance), and scenarios merged at a step share their values up to that step.", "quantifier": "every scenario set and node schedule", "why_tests_cant": "invariant over all iterations", "anchors": ["pyforecaster/scenred.py:scenred"]}
{"id": "C27", "title": "The network built from reduced scenarios is a rooted tree with consistent probabilities", "statement": "Every non-root node has exactly one parent, one step earlier, node numbers increase with time, and node probabilities at each step sum to one with each parent's probability the sum of its children's.", "quantifier": "every output of the reduction", "why_tests_cant": "graph invariants over all trees", "anchors": ["pyforecaster/scenred.py:_get_network", "pyforecaster/scenred.py:get_network"]}
{"id": "C28", "title": "Superimposing a forecast shifts every node by its step value and leaves the stored tree untouched", "statement": "superimpose_signal_to_tree adds x[t] to each node of step t and nothing else; predict_trees never changes the tree stored at fit time.", "quantifier": "every tree, every signal, every history of predictions", "why_tests_cant": "aliasing/history property", "anchors": ["pyforecaster/scenred.py:superimpose_signal_to_tree", "pyforecaster/scenarios_generator.py:ScenGen.tree_gen"]}
{"id": "C29", "title": "Quantile trees have consistent probabilities", "statement": "gen_init_tree gives leaves equal probability and each inner node the sum of its children; every level sums to one; the number of nodes at each step is the requested one.", "quantifier": "every node schedule", "why_tests_cant": "for all schedules", "anchors": ["pyforecaster/tree_builders.py:gen_init_tree"]}
{"id": "C30", "title": "Pinball score is proper and nonnegative", "statement": "Each quantile score is nonnegative, zero iff the forecast equals the observation (level strictly inside (0,1)), and the mean score over a sample is minimised by an empirical quantile.", "quantifier": "every sample, forecast and level", "why_tests_cant": "optimality over all real forecasts", "anchors": ["pyforecaster/metrics.py:quantile_scores", "pyforecaster/metrics.py:crps"]}
{"id": "C31", "title": "Reliability lies in [0,1] and counts exceedances", "statement": "Reliability at a level is the fraction of observations below the predicted quantile, hence in [0,1], and nondecreasing in the level for non-crossing quantiles.", "quantifier": "every sample", "why_tests_cant": "for all samples", "anchors": ["pyforecaster/metrics.py:reliability", "pyforecaster/metrics.py:quantile_scores"]}
{"id": "C32", "title": "Point scores behave like distances", "statement": "rmse and nmae are nonnegative and zero iff forecast equals observation; scores are reduced over the axis the user sees.", "quantifier": "every pair of frames", "why_tests_cant": "for all frames; axis choice is ambiguous for square shapes only", "anchors": ["pyforecaster/metrics.py:rmse", "pyforecaster/metrics.py:nmae", "pyforecaster/metrics.py:mape", "pyforecaster/metrics.py:chose_axis"]}
{"id": "C33", "title": "Reconciled forecasts are coherent", "statement": "reconcile returns values where every aggregate is exactly the sum of the bottom series below it, for any fitted weight matrix.", "quantifier": "every hierarchy, every base forecast, every projection", "why_tests_cant": "linear-algebra law for all sizes", "anchors": ["pyforecaster/reconciliation/reconciliation.py:HierarchicalReconciliation.reconcile", "pyforecaster/reconciliation/reconciliation.py:HierarchicalReconciliation.get_summation_matrix"]}
{"id": "C34", "title": "Reconciliation leaves coherent forecasts alone", "statement": "For the minimum-trace projection (P S = I), an already coherent forecast is unchanged and reconciling twice equals reconciling once.", "quantifier": "every hierarchy and covariance for which P is defined", "why_tests_cant": "linear-algebra law for all sizes", "anchors": ["pyforecaster/reconciliation/reconciliation.py:HierarchicalReconciliation.fit_reconciliation", "pyforecaster/reconciliation/reconciliation.py:HierarchicalReconciliation.reconcile"]}
{"id": "C35", "title": "Summation matrix matches the hierarchy", "statement": "Row a, column b of the aggregation matrix is 1 iff bottom series b is a leaf below aggregate a; the lower block is the identity; every node of the hierarchy gets exactly one row.", "quantifier": "every hierarchy", "why_tests_cant": "recursion over all trees", "anchors": ["pyforecaster/reconciliation/reconciliation.py:HierarchicalReconciliation.get_summation_matrix", "pyforecaster/reconciliation/reconciliation.py:HierarchicalReconciliation.unroll_dict"]}
{"id": "C36", "title": "Chunking loses nothing", "statement": "array_split returns exactly k consecutive pieces whose concatenation is the input and whose sizes differ by at most one.", "quantifier": "every array and every k>=1", "why_tests_cant": "floor/linspace arithmetic for all sizes", "anchors": ["pyforecaster/big_data_utils.py:array_split"]}
{"id": "C37", "title": "Parallel map equals sequential map", "statement": "fdf_parallel returns the concatenation, in input order, of f on the pieces; for row-wise f this equals f on the whole.", "quantifier": "every frame, f and number of workers", "why_tests_cant": "must hold for all data and splits (and the numpy path)", "anchors": ["pyforecaster/big_data_utils.py:fdf_parallel"]}
{"id": "C38", "title": "Memory reduction never changes integers", "statement": "reduce_mem_usage leaves every integer value unchanged whatever its size.", "quantifier": "every integer column", "why_tests_cant": "overflow boundaries", "anchors": ["pyforecaster/big_data_utils.py:reduce_mem_usage_series", "pyforecaster/big_data_utils.py:reduce_mem_usage"]}
{"id": "C39", "title": "Holt-Winters state makes fitting chunk-invariant", "statement": "Running the smoothing recursion over a series in two consecutive chunks, handing over the state, gives the same predictions and final state as one run; predicting does not look at targets after the current row.", "quantifier": "every series, split point, periods, parameters", "why_tests_cant": "induction over series length", "anchors": ["pyforecaster/forecasting_models/holtwinters.py:HoltWinters.run", "pyforecaster/forecasting_models/holtwinters.py:HoltWinters._run"]}
{"id": "C40", "title": "Holt-Winters survives missing observations", "statement": "A missing observation is replaced by the model's own one-step forecast, so that later forecasts are numbers.", "quantifier": "every series with missing values", "why_tests_cant": "for all placements", "anchors": ["pyforecaster/forecasting_models/holtwinters.py:HoltWinters.run"]}
{"id": "C41", "title": "Holt-Winters multi covers each step exactly once", "statement": "Each step ahead of HoltWintersMulti comes from the first model whose horizon reaches it, point forecast and error distribution alike.", "quantifier": "every partition of the horizon into models", "why_tests_cant": "for all model lists", "anchors": ["pyforecaster/forecasting_models/holtwinters.py:HoltWintersMulti.predict", "pyforecaster/forecasting_models/holtwinters.py:HoltWintersMulti.fit"]}
{"id": "C42", "title": "Seasonal values within constraints, windows aligned", "statement": "The seasonal values a Holt-Winters model holds always satisfy the given constraints (values inside are unchanged); Hankel rows are the consecutive windows of the series, so residual (t,i) compares the i-th step predicted at row t with observation t+1+i.", "quantifier": "every series, state, constraint and horizon", "why_tests_cant": "for all inputs", "anchors": ["pyforecaster/forecasting_models/holtwinters.py:constrainify", "pyforecaster/forecasting_models/holtwinters.py:hankel", "pyforecaster/forecasting_models/holtwinters.py:HoltWinters.fit"]}
{"id": "C43", "title": "Rolling memory of stateful forecasters", "statement": "generate_recent_history yields at each row the last m values of (stored window ++ observed series), and handing over the final window makes consecutive chunks equal one run.", "quantifier": "every series, window, split", "why_tests_cant": "induction over length", "anchors": ["pyforecaster/forecasting_models/fast_adaptive_models.py:generate_recent_history", "pyforecaster/forecasting_models/fast_adaptive_models.py:StatefulForecaster"]}
{"id": "C44", "title": "Predicting does not change a fitted stateful model", "statement": "For Fourier/Kalman models predict leaves the states such that repeating the same predict gives the same output; fitting in chunks equals fitting at once.", "quantifier": "all histories of predict/fit calls", "why_tests_cant": "history property", "anchors": ["pyforecaster/forecasting_models/fast_adaptive_models.py:Fourier_es", "pyforecaster/forecasting_models/fast_adaptive_models.py:FK"]}
{"id": "C45", "title": "Expert combination stays inside the experts' hull", "statement": "FK_multi's combined forecast lies between the smallest and largest expert forecast at each step (weights nonnegative, sum one).", "quantifier": "every set of experts and weights", "why_tests_cant": "for all weights", "anchors": ["pyforecaster/forecasting_models/fast_adaptive_models.py:FK_multi"]}
{"id": "C46", "title": "Kalman covariance update", "statement": "After kalman_update the covariance stays positive semidefinite and equals the Bayesian posterior covariance.", "quantifier": "every prior covariance, observation matrix, noise", "why_tests_cant": "matrix identity for all inputs", "anchors": ["pyforecaster/utilities.py:kalman_update"]}
{"id": "C47", "title": "Persistence benchmark", "statement": "The persistent forecasters repeat the last (seasonal) observation available at prediction time for each step, using no later data.", "quantifier": "every series, season and horizon", "why_tests_cant": "off-by-one alignment over all lengths", "anchors": ["pyforecaster/forecasting_models/benchmarks.py:Persistent", "pyforecaster/forecasting_models/benchmarks.py:SeasonalPersistent"]}
{"id": "C48", "title": "Discrete distribution benchmark is a probability", "statement": "DiscreteDistr class probabilities are nonnegative and sum to one (up to its regularisation).", "quantifier": "every sample and class set", "why_tests_cant": "for all samples", "anchors": ["pyforecaster/forecasting_models/benchmarks.py:DiscreteDistr"]}
{"id": "C49", "title": "Refitting replaces the old model", "statement": "Calling fit a second time on hybrid boosters, LightGBM forecasters, random forests and brutal regressors makes predictions depend on the second data only.", "quantifier": "all histories of fit calls", "why_tests_cant": "history property", "anchors": ["pyforecaster/forecasting_models/gradientboosters.py:LGBMHybrid.fit", "pyforecaster/forecaster.py:LGBForecaster.fit", "pyforecaster/forecasting_models/randomforests.py:QRF.fit", "pyforecaster/forecasting_models/random_fourier_features.py:BrutalRegressor.fit"]}
{"id": "C50", "title": "Hybrid models cover every step once", "statement": "For hybrid models (n_single single-step models + one multi-step model) the prediction for step k comes from single model k if k<n_single and from the multi-step model at position k-n_single otherwise.", "quantifier": "every n_single and horizon", "why_tests_cant": "for all splits", "anchors": ["pyforecaster/forecasting_models/gradientboosters.py:LGBMHybrid", "pyforecaster/forecasting_models/randomforests.py:QRF"]}
{"id": "C51", "title": "Boosting decomposition", "statement": "For additive (boosted) random-feature models the training target equals the sum of all stage predictions plus the final residual; binning of the brutal regressor always selects a valid bin.", "quantifier": "every sequence of base learners and data", "why_tests_cant": "induction over stages for arbitrary learners", "anchors": ["pyforecaster/forecasting_models/random_fourier_features.py:AdditiveRFFRegression", "pyforecaster/forecasting_models/random_fourier_features.py:BrutalRegressor"]}
{"id": "C52", "title": "Weight projection keeps convexity constraints", "statement": "After every optimisation step the projected weights are nonnegative where required, other weights are untouched, and projecting again changes nothing.", "quantifier": "all weight trees, all optimisation histories", "why_tests_cant": "history/invariant", "anchors": ["pyforecaster/forecasting_models/neural_models/neural_utils.py:reproject_weights"]}
{"id": "C53", "title": "Partially input-convex networks are convex in the controls", "statement": "With nonnegative z-weights and a convex nondecreasing activation the network output is convex in the control inputs for every fixed exogenous input, for any depth and width; with the monotone options it is nondecreasing.", "quantifier": "every network, every pair of control vectors, every convex combination", "why_tests_cant": "infinitely many inputs, layers by induction", "anchors": ["pyforecaster/forecasting_models/neural_models/layers.py:PICNNLayer", "pyforecaster/forecasting_models/neural_models/ICNN.py:PICNN_module"]}
{"id": "C54", "title": "Invertible activations", "statement": "linloglin and invcondiff are strictly increasing and their inverse functions undo them.", "quantifier": "every real input", "why_tests_cant": "for all reals; boundaries between pieces", "anchors": ["pyforecaster/forecasting_models/neural_models/layers.py:linloglin", "pyforecaster/forecasting_models/neural_models/layers.py:linloglin_inverse", "pyforecaster/forecasting_models/neural_models/layers.py:invcondiff", "pyforecaster/forecasting_models/neural_models/layers.py:invcondiff_inverse"]}
{"id": "C55", "title": "Causal invertible network is causal and invertible", "statement": "Output i of the embedding depends only on inputs 0..i, and invert(predict(x)) = x for every depth, width and weights.", "quantifier": "every weight vector, input, depth", "why_tests_cant": "all sizes, induction on layers and triangular solve", "anchors": ["pyforecaster/forecasting_models/neural_models/layers.py:CausalInvertibleLayer", "pyforecaster/forecasting_models/neural_models/INN.py:CausalInvertibleModule", "pyforecaster/forecasting_models/neural_models/layers.py:vector_to_lower_triangular"]}
{"id": "C56", "title": "Mini-batches visit each row at most once per epoch", "statement": "In each epoch the batches are disjoint slices of a permutation of the rows, all of the batch size.", "quantifier": "every dataset size, batch size, permutation", "why_tests_cant": "for all sizes", "anchors": ["pyforecaster/forecasting_models/neural_models/base_nn.py:NN.fit"]}
{"id": "C57", "title": "Early stopping returns the best parameters", "statement": "The parameters kept at the end of training are those with the smallest validation loss seen.", "quantifier": "every sequence of losses", "why_tests_cant": "for all loss histories", "anchors": ["pyforecaster/forecasting_models/neural_models/base_nn.py:NN.fit"]}
{"id": "C58", "title": "LSTM windows are aligned with targets", "statement": "Row i of the recurrent model's input is the window of history rows ending at the row before its first target; the number of predictions equals the number of rows minus the history; a prediction depends only on earlier rows; a network exact on its samples gives exact forecasts; validation targets are separate from training targets.", "quantifier": "every length, history, horizon, scaling and network", "why_tests_cant": "off-by-one for all lengths", "anchors": ["pyforecaster/forecasting_models/neural_models/LSTM_bidir.py"]}
{"id": "C59", "title": "Gaussian copula sampling has the requested shape", "statement": "For every number of rows, scenarios and dimension the copula sample has shape (rows, steps, scenarios).", "quantifier": "every combination of sizes", "why_tests_cant": "size-dependent squeezes break at size one", "anchors": ["pyforecaster/copula.py:HourlyGaussianCopula.sample"]}
{"id": "C60", "title": "Hyper-parameter search returns the best trial", "statement": "tune_hyperpars returns parameters attaining the smallest score among the sampled ones; the objective evaluated per trial is the mean of the fold scores.", "quantifier": "every list of scores", "why_tests_cant": "for all score lists", "anchors": ["pyforecaster/forecasting_models/holtwinters.py:tune_hyperpars", "pyforecaster/trainer.py:optuna_objective", "pyforecaster/trainer.py:cross_validate"]}
{"id": "C61", "title": "Multi-index conversion keeps every entry", "statement": "from_tensor_to_pdmultiindex / convert_multiindex place entry (row, step, level) in the column labelled (step, level).", "quantifier": "every shape", "why_tests_cant": "for all shapes", "anchors": ["pyforecaster/utilities.py:from_tensor_to_pdmultiindex", "pyforecaster/utilities.py:convert_multiindex"]}
{"id": "C62", "title": "Save/load of neural forecasters keeps behaviour", "statement": "A neural forecaster saved and loaded predicts what the original predicted, quantiles included.", "quantifier": "all fitted states", "why_tests_cant": "state enumeration", "anchors": ["pyforecaster/forecasting_models/neural_models/base_nn.py:NN.save", "pyforecaster/forecasting_models/neural_models/base_nn.py:NN.load"]}
{"id": "C63", "title": "Neural gas refinement yields a valid tree", "statement": "Refining a scenario tree by neural gas never fails, leaves every node value within the range spanned by the initial tree and the scenarios, and the returned scenarios and node values agree with the returned tree.", "quantifier": "every tree, scenario set, sequence of drawn scenarios and number of iterations", "why_tests_cant": "for all draws and iteration counts", "anchors": ["pyforecaster/tree_builders.py: NeuralGas.gen_tree, update_tree_from_scenarios"]}
{"id": "C64", "title": "Retrieving scenarios from a tree", "statement": "retrieve_scenarios_indexes lists for every leaf the root-to-leaf path, one row per leaf, each entry the parent of the next.", "quantifier": "every tree", "why_tests_cant": "for all trees", "anchors": ["pyforecaster/scenred.py:retrieve_scenarios_indexes"]}
{"id": "C65", "title": "Simulated transforms announce the real metadata", "statement": "Simulating a transform (with a frame, or without one when the sampling time is known) gives exactly the metadata the real transform produces, and does not change the result of the next transform; every sequence of transformers that can be applied can be simulated.", "quantifier": "every transformer, frame and state", "why_tests_cant": "the two code paths are separate; equality must hold for all configurations", "anchors": ["pyforecaster/formatter.py:Transformer.transform", "pyforecaster/formatter.py:Formatter._simulate_transform"]}
{"id": "C66", "title": "Threaded and serial transforms agree", "statement": "Applying the transformers in parallel gives the same frame as applying them one after the other.", "quantifier": "every list of transformers and every frame", "why_tests_cant": "for all lists of transformers", "anchors": ["pyforecaster/formatter.py:Formatter._transform"]}
{"id": "C67", "title": "Time limits are the extremes of all features", "statement": "get_time_lims returns the smallest start time and the largest end time over all features of all transformers.", "quantifier": "every metadata table", "why_tests_cant": "nested group-by minima for all tables", "anchors": ["pyforecaster/formatter.py:Formatter.get_time_lims"]}
{"id": "C68", "title": "Every cross-validation fold can be trained on", "statement": "Every fold of time_kfcv has a nonempty training part for every accepted number of folds.", "quantifier": "every index and number of folds", "why_tests_cant": "for all indices", "anchors": ["pyforecaster/formatter.py:Formatter.time_kfcv"]}
{"id": "C69", "title": "Subsampling keeps every hour represented", "statement": "When at most m hours occur in the data and m rows are kept for scenario generation, every hour of the data keeps at least one row.", "quantifier": "all data, caps m and random draws", "why_tests_cant": "a draw that starves an hour is a rare random event", "anchors": ["pyforecaster/forecaster.py: ScenarioGenerator._subsample_stratified_by_hour"]}
{"id": "C70", "title": "Fitting and predicting leave the caller's data alone", "statement": "fit and predict never change the frame passed by the caller, whatever its column types.", "quantifier": "all frames and call histories", "why_tests_cant": "a test that does not compare the input afterwards never notices", "anchors": ["pyforecaster/forecaster.py: encode_categorical"]}
{"id": "C71", "title": "Training uses the parameters the estimator reports", "statement": "After any sequence of set_params calls, fit trains with the values get_params returns, and scenario generation uses the reported quantile levels.", "quantifier": "all parameter histories", "why_tests_cant": "tests fit right after construction", "anchors": ["pyforecaster/forecaster.py: LGBForecaster.__init__, set_params, ScenarioGenerator.__init__"]}
{"id": "C72", "title": "A copy built from get_params is configured like the original", "statement": "The constructor applied to get_params() yields an estimator with the same configuration, scenario generation included.", "quantifier": "all constructor arguments", "why_tests_cant": "a test would have to compare every attribute for every argument", "anchors": ["pyforecaster/forecaster.py: get_params, LinearForecaster.__init__", "pyforecaster/scenarios_generator.py: ScenGen.__init__"]}
{"id": "C73", "title": "Scenarios can be generated from the frame predict_quantiles returns", "statement": "Passing a frame of quantiles with two column levels to the scenario generator uses, for each row, step and level, the value of that step and level; in particular for the frame returned by predict_quantiles.", "quantifier": "every frame, number of targets and levels", "why_tests_cant": "shape-dependent; wrong only for some size combinations", "anchors": ["pyforecaster/scenarios_generator.py: ScenGen.predict_scenarios", "pyforecaster/forecaster.py: quantiles_to_df"]}
{"id": "C74", "title": "predict_scenarios works with every generator option", "statement": "predict_scenarios returns the generated scenarios, with or without an additional initial node, for every horizon.", "quantifier": "every horizon, quantile forecast and option", "why_tests_cant": "tests use the default option", "anchors": ["pyforecaster/forecaster.py: ScenarioGenerator.predict_scenarios", "pyforecaster/scenarios_generator.py: ScenGen.sample_scenarios"]}
{"id": "C75", "title": "Initial tree values lie in the range of their own step", "statement": "When a scenario tree is initialised by quantiles every node gets a value, the root the median of the first step, and every other node a value within the range of the scenarios at its step.", "quantifier": "every tree shape and scenario set", "why_tests_cant": "for all trees and scenarios", "anchors": ["pyforecaster/tree_builders.py: ScenarioTree.init_vals"]}
{"id": "C76", "title": "A node schedule is used as given", "statement": "The quantile base tree has as many steps as the node schedule has entries (plus a root when one is missing), and the caller's schedule is not modified.", "quantifier": "every schedule and number of scenarios", "why_tests_cant": "depends on a coincidence between schedule length and number of scenarios", "anchors": ["pyforecaster/tree_builders.py: ScenarioTree.gen_init_tree"]}
{"id": "C77", "title": "Neural gas pulls the nearest scenario hardest and stops when converged", "statement": "In each iteration the tree scenario closest to the drawn scenario is pulled at least as strongly as any other, and the stopping tolerance decides when to stop.", "quantifier": "every scenario set, draw and tolerance", "why_tests_cant": "for all distance orderings", "anchors": ["pyforecaster/tree_builders.py: NeuralGas.gen_tree"]}
{"id": "C78", "title": "Gradient refinement reduces its learning rate and returns the refined scenarios", "statement": "DiffTree lowers its learning rate when the loss increased, and the scenarios it returns are those of the refined tree.", "quantifier": "every loss function and gradient", "why_tests_cant": "for all loss functions", "anchors": ["pyforecaster/tree_builders.py: DiffTree.gen_tree"]}
{"id": "C79", "title": "Reconciled forecasts are the nearest coherent ones", "statement": "With a positive definite precision the reconciled forecast exists and is the unique coherent forecast closest to the base forecast in the norm given by the precision.", "quantifier": "every hierarchy, precision matrix and forecast", "why_tests_cant": "optimality against all coherent forecasts", "anchors": ["pyforecaster/reconciliation/reconciliation.py: HierarchicalReconciliation.fit_reconciliation, reconcile"]}
{"id": "C80", "title": "Hierarchy levels are distances from the top", "statement": "get_hierarchy_levels assigns to every series its distance from the top aggregate.", "quantifier": "every hierarchy", "why_tests_cant": "recursion over all trees", "anchors": ["pyforecaster/reconciliation/reconciliation.py: get_hierarchy_levels, explore_hierarchy"]}
{"id": "C81", "title": "Each step ahead is reconciled with its own weights", "statement": "predict reconciles the forecasts of a step ahead with the weights fitted on the errors of that step.", "quantifier": "every number of steps and error covariances", "why_tests_cant": "needs steps with different error structure", "anchors": ["pyforecaster/reconciliation/reconciliation.py: HierarchicalReconciliation.fit, predict"]}
{"id": "C82", "title": "Scenario errors come from the hour of the forecast", "statement": "predict_scenarios adds to each forecast row training errors observed at the hour of that row, for prediction frames of any length.", "quantifier": "every training and prediction index and every random draw", "why_tests_cant": "tests predict on the training frame", "anchors": ["pyforecaster/reconciliation/reconciliation.py: HierarchicalReconciliation.predict_scenarios"]}
{"id": "C83", "title": "Every documented reconciliation method works", "statement": "reconcile returns reconciled forecasts for each of the methods minT, dummy and bayes.", "quantifier": "every hierarchy and forecast", "why_tests_cant": "one method is not exercised by any test", "anchors": ["pyforecaster/reconciliation/reconciliation.py: HierarchicalReconciliation.reconcile"]}
{"id": "C84", "title": "Memory reduction never increases memory nor touches the caller's data", "statement": "reduce_mem_usage gives every integer column a type at most as wide as before and leaves the caller's frame as it was.", "quantifier": "every integer column of every width", "why_tests_cant": "boundary values of every width", "anchors": ["pyforecaster/big_data_utils.py:reduce_mem_usage_series", "pyforecaster/big_data_utils.py:reduce_mem_usage"]}
{"id": "C85", "title": "Memory reduction of floats is harmless", "statement": "reduce_mem_usage keeps NaN positions and the order of float values, changes a value by at most 2^-24 relative, and keeps different values different.", "quantifier": "every float column", "why_tests_cant": "all real values, rounding boundaries", "anchors": ["pyforecaster/big_data_utils.py:reduce_mem_usage_series"]}
{"id": "C86", "title": "An exactly seasonal series is forecast exactly", "statement": "If the series is a level plus two periodic patterns and the state holds them in phase, every forecast of HoltWinters equals the future value, for all smoothing parameters, horizons and lengths.", "quantifier": "every level, patterns, periods, parameters, phase and length", "why_tests_cant": "induction over the series, modular indices", "anchors": ["pyforecaster/forecasting_models/holtwinters.py:run"]}
{"id": "C87", "title": "Random search returns the best trial", "statement": "Tuning the Holt-Winters parameters returns the (first) trial with the smallest score, whether the trials run in parallel or serially.", "quantifier": "every score function and list of trials", "why_tests_cant": "for all trials, shared mutable arguments", "anchors": ["pyforecaster/forecasting_models/holtwinters.py:tune_hyperpars", "pyforecaster/forecasting_models/holtwinters.py:fit_sample"]}
{"id": "C88", "title": "Prediction continues the fitted recursion, refitting restarts it", "statement": "HoltWinters.predict runs the recursion that was fitted, with the same parameters, and fitting again does not depend on the data of the previous fit.", "quantifier": "every parameters, states and histories of fits", "why_tests_cant": "history property", "anchors": ["pyforecaster/forecasting_models/holtwinters.py:HoltWinters.predict", "pyforecaster/forecasting_models/holtwinters.py:HoltWinters.fit"]}
{"id": "C89", "title": "The Fourier basis is orthonormal", "statement": "Over any window of m consecutive rows, the columns of the Fourier basis used by the Fourier models are orthonormal and m-periodic, for every number of harmonics the constructor accepts.", "quantifier": "every window length, number of harmonics, phase", "why_tests_cant": "trigonometric identity for all sizes", "anchors": ["pyforecaster/forecasting_models/fast_adaptive_models.py:get_basis", "pyforecaster/forecasting_models/fast_adaptive_models.py:Fourier_es.reinit_pars"]}
{"id": "C90", "title": "Fourier smoothing converges to the signal", "statement": "On a series made of the model's harmonics, the fitted coefficients approach the true ones geometrically with ratio 1-alpha, and once they are reached every forecast equals the future values.", "quantifier": "every signal of the span, length, smoothing factor", "why_tests_cant": "induction over the length; real analysis", "anchors": ["pyforecaster/forecasting_models/fast_adaptive_models.py:Fourier_es.run"]}
{"id": "C91", "title": "The better expert gets more weight", "statement": "FK_multi gives a forecaster that predicts every future value exactly at least as much score as one whose forecasts are one step late.", "quantifier": "every series, number of experts, row", "why_tests_cant": "holds for all series; tests only see typical ones", "anchors": ["pyforecaster/forecasting_models/fast_adaptive_models.py:FK_multi.run"]}
{"id": "C92", "title": "Exact experts give numbers", "statement": "FK_multi forecasts are numbers whenever all experts' forecasts are numbers.", "quantifier": "every series and experts", "why_tests_cant": "depends on a division by zero on special series", "anchors": ["pyforecaster/forecasting_models/fast_adaptive_models.py:FK_multi.run"]}
{"id": "C93", "title": "Unseen times of day are not predicted as zero", "statement": "DiscreteDistr does not silently turn an unknown distribution into a forecast of zero: a time of day absent from training gives a missing prediction or an error.", "quantifier": "every training set and time of day", "why_tests_cant": "absence of data is rarely tested", "anchors": ["pyforecaster/forecasting_models/benchmarks.py:DiscreteDistr.predict"]}
{"id": "C94", "title": "Energy-aware training is kept", "statement": "After LGBEnergyAware.fit, the single-step models used by predict are those trained with the unbalance-aware targets.", "quantifier": "every data set, learner and number of single models", "why_tests_cant": "depends on the parallel flag and on call order", "anchors": ["pyforecaster/forecasting_models/gradientboosters.py:LGBEnergyAware.fit"]}
{"id": "C95", "title": "Random forest prediction shapes", "statement": "QRF predict returns one row per input row and one column per step (per step and level for quantiles), for every number of rows, single models, remaining steps and levels.", "quantifier": "every shape", "why_tests_cant": "degenerate sizes are many", "anchors": ["pyforecaster/forecasting_models/randomforests.py:QRF.predict"]}
{"id": "C96", "title": "Random forest quantile arrays match the frame", "statement": "The numpy array made from a QRF quantile frame has at (row, step, level) the value the frame stores under that step and level.", "quantifier": "every frame", "why_tests_cant": "reshape order is only visible with distinct sizes", "anchors": ["pyforecaster/forecasting_models/randomforests.py:QRF.quantiles_to_numpy"]}
{"id": "C97", "title": "Quasi-convex networks and positive deviations", "statement": "The predicted standard deviations are positive, outputs given z_min and z_max stay between them, and the PIQCNN models are quasi-convex in the controls.", "quantifier": "every network, every input and control vector", "why_tests_cant": "infinitely many inputs", "anchors": ["pyforecaster/forecasting_models/neural_models/ICNN.py:PICNN_module", "pyforecaster/forecasting_models/neural_models/ICNN.py:PartiallyIQCNN_module", "pyforecaster/forecasting_models/neural_models/ICNN.py:PIQCNNSigmoid"]}
{"id": "C98", "title": "Each supported activation is inverted by the invertible layer", "statement": "For every activation name accepted by the layer, inverting the activation of a number gives the number back.", "quantifier": "every activation, every real number", "why_tests_cant": "for all reals", "anchors": ["pyforecaster/forecasting_models/neural_models/layers.py:CausalInvertibleLayer.invert_activation", "pyforecaster/forecasting_models/neural_models/layers.py:inverse_softplus"]}
{"id": "C99", "title": "A perfect end-to-end invertible forecaster forecasts the target", "statement": "If the training loss of the end-to-end invertible forecaster is zero on a row then its forecast for that row equals the target.", "quantifier": "every network, predictor, row and target", "why_tests_cant": "all networks and data", "anchors": ["pyforecaster/forecasting_models/neural_models/INN.py:full_end_to_end_loss_fn", "pyforecaster/forecasting_models/neural_models/INN.py:quasi_end_to_end_loss_fn", "pyforecaster/forecasting_models/neural_models/INN.py:CausalInvertibleNN"]}
{"id": "C100", "title": "A stateful forecaster can be copied and pickled", "statement": "Pickling and unpickling, or deep-copying, a fitted Fourier or Kalman forecaster gives a forecaster with the same states.", "quantifier": "every instance and every state", "why_tests_cant": "all states", "anchors": ["pyforecaster/forecasting_models/fast_adaptive_models.py:Fourier_es", "pyforecaster/forecasting_models/fast_adaptive_models.py:FK", "pyforecaster/forecasting_models/fast_adaptive_models.py:FK_multi"]}
{"id": "C101", "title": "Optimising the controls leaves the other inputs alone", "statement": "The frame returned by PICNN.optimize has the same columns, the same values outside the optimisation variables, and feeds the network with exactly the controls the search ended on.", "quantifier": "every one-row frame, set of normalised columns, scaler with non-zero deviations, list of variables and search result", "why_tests_cant": "all frames and scalers", "anchors": ["pyforecaster/forecasting_models/neural_models/ICNN.py:PICNN.optimize"]}
{"id": "C102", "title": "The optimised controls improve the objective, and its value is reported", "statement": "PICNN.optimize returns controls at least as good as the given ones together with their objective value, after at most n_iter updates, for every positive n_iter.", "quantifier": "every objective, optimiser, tolerance, number of iterations and starting point", "why_tests_cant": "all objectives and optimisers", "anchors": ["pyforecaster/forecasting_models/neural_models/ICNN.py:PICNN.optimize"]}
{"id": "C103", "title": "Probabilistic networks report the deviation of the target and ordered quantiles", "statement": "predict(return_sigma=True) reports the standard deviation on the target's scale, and predict_quantiles is non-decreasing in the level.", "quantifier": "every network output, target scaler and list of levels in (0, 1)", "why_tests_cant": "all outputs and scalers", "anchors": ["pyforecaster/forecasting_models/neural_models/base_nn.py:NN.predict", "pyforecaster/forecasting_models/neural_models/base_nn.py:NN.predict_quantiles"]}
{"id": "C104", "title": "Structured networks have ordered quantiles of the objective", "statement": "The quantiles of the objective are non-decreasing in the level for both distributions, their median is the distribution's median and the log-normal parameters match the objective as mean.", "quantifier": "every objective value, head output and pair of levels", "why_tests_cant": "all real parameters", "anchors": ["pyforecaster/forecasting_models/neural_models/ICNN.py:StructuredPICNN.predict_quantiles"]}
{"id": "C105", "title": "The recurrent forecaster uses the most recent observation", "statement": "The forecast issued at the last row depends on the last observation, and a frame of exactly the history length gives one forecast.", "quantifier": "every frame, history, scaling and network", "why_tests_cant": "all frames", "anchors": ["pyforecaster/forecasting_models/neural_models/LSTM_bidir.py"]}
{"id": "C106", "title": "Quantile forecasts cover the calibration rows", "statement": "After fitting a forecaster that conditions on the hour (any learner that predicts row by row, any formatter normalisation, any subsampling limit), its quantile forecasts for the calibration rows cover them: among the rows of an hour (or all rows when an hour is missing), more than q(n-1) observations lie at or below the q-quantile and more than (1-q)(n-1) at or above it, for every step. Fitting succeeds whenever targets and features have the same index.", "quantifier": "every learner, data set, normalisation, subsampling limit, random generator, step and level", "why_tests_cant": "coverage is a statement about every data set and every draw of the subsample", "anchors": ["pyforecaster/forecaster.py:ScenarioGenerator.fit", "pyforecaster/forecaster.py:ScenarioGenerator._estimate_err_distr", "pyforecaster/forecaster.py:LinearForecaster._predict_quantiles"]}
{"id": "C107", "title": "Trees can be pre-computed on every data set", "statement": "Fitting with pre-computed trees (online_tree_reduction=False or prefit_trees=True) succeeds on every data set the forecaster accepts otherwise.", "quantifier": "every data set, subsampling limit and random generator", "why_tests_cant": "depends on which hours are present after a random subsample", "anchors": ["pyforecaster/scenarios_generator.py:ScenGen.fit", "pyforecaster/forecaster.py:ScenarioGenerator.fit"]}
{"id": "C108", "title": "The copula uses correlation matrices", "statement": "The matrix estimated for each hour is symmetric, has a unit diagonal (up to the 1e-6 regularisation), holds the correlations of the errors of the steps, and is positive definite.", "quantifier": "every table of errors, number of rows and steps, estimation method", "why_tests_cant": "a claim about every data set; a few random data sets do not show an unbounded diagonal", "anchors": ["pyforecaster/copula.py:HourlyGaussianCopula.fit"]}
{"id": "C109", "title": "Scenarios can be sampled for every hour of the training data", "statement": "Sampling scenarios succeeds for every hour of the training data, also when the errors of a step are constant in that hour.", "quantifier": "every data set, hour and step", "why_tests_cant": "needs data with exactly forecast steps, for example photovoltaic production at night", "anchors": ["pyforecaster/copula.py:HourlyGaussianCopula.fit", "pyforecaster/copula.py:HourlyGaussianCopula.sample"]}
{"id": "C110", "title": "A random state makes scenarios reproducible", "statement": "Two calls of predict_scenarios with the same random_state and inputs return the same scenarios.", "quantifier": "every input and state of the global random generator", "why_tests_cant": "depends on the hidden state of the global generator", "anchors": ["pyforecaster/scenarios_generator.py:ScenGen.sample_scenarios", "pyforecaster/copula.py:HourlyGaussianCopula.sample"]}
{"id": "C111", "title": "Rows get their own draws", "statement": "The copula draws of different rows are different draws, also with a random state.", "quantifier": "every seed, set of rows and hours", "why_tests_cant": "a statistical test on few rows does not show that the same generator is restarted", "anchors": ["pyforecaster/copula.py:HourlyGaussianCopula.sample"]}
{"id": "C112", "title": "The graphical lasso is tuned on the most frequent hour", "statement": "With cov_est_method='glasso_cv' the regularisation is optimised on the hour with most observations.", "quantifier": "every data set", "why_tests_cant": "with balanced data any hour is acceptable", "anchors": ["pyforecaster/copula.py:HourlyGaussianCopula.fit"]}
{"id": "C113", "title": "Default node counts give a valid tree", "statement": "Without node counts, a tree is built with the default schedule: one count per step, powers of two that never decrease, at most half the number of scenarios, starting from a single root; every count is a multiple of the one before so the tree can be built. Counts passed to the call or to the constructor take precedence. This holds for every number of scenarios.", "quantifier": "every number of scenarios and steps", "why_tests_cant": "the schedule is computed by rounding logarithms, for every pair of sizes", "anchors": ["pyforecaster/tree_builders.py:ScenarioTree.gen_init_tree"]}
{"id": "C114", "title": "Each hour has the tree of its own scenarios", "statement": "Pre-computed trees: the tree of every hour of the day has the branches and probabilities obtained from the scenarios of that hour.", "quantifier": "every tree builder, every set of scenarios, every hour", "why_tests_cant": "24 trees depend on 24 random samples", "anchors": ["pyforecaster/scenarios_generator.py:ScenGen.fit", "pyforecaster/tree_builders.py:DiffTree.gen_tree", "pyforecaster/tree_builders.py:ScenredTree.gen_tree", "pyforecaster/tree_builders.py:QuantileTree.gen_tree"]}
{"id": "C115", "title": "predict_trees returns a list with one tree per row", "statement": "The result of predict_trees is a list with as many trees as rows passed, in their order.", "quantifier": "every number of rows", "why_tests_cant": "must hold for all sizes, including one", "anchors": ["pyforecaster/forecaster.py:ScenarioGenerator.predict_trees"]}
{"id": "C116", "title": "Parallel tree prediction equals the serial one", "statement": "With parallel_preds=True predict_trees returns the same trees in the same order as serially, whatever the number of cores, rows and columns and the order in which the workers finish.", "quantifier": "every number of rows, columns, cores and every schedule of the workers", "why_tests_cant": "quantifies over schedules", "anchors": ["pyforecaster/scenarios_generator.py:ScenGen.predict_trees", "pyforecaster/scenarios_generator.py:tree_gen_chunk", "pyforecaster/big_data_utils.py:fdf_parallel"]}
{"id": "C117", "title": "Refining a tree never moves it away from the samples", "statement": "refine_scenarios keeps the number of nodes of every step and never increases, at any step, the total distance of the samples from their closest node, whatever the random candidates; the value it gives to the root minimises the total distance among all values.", "quantifier": "every tree, samples, metric and sequence of random candidates", "why_tests_cant": "quantifies over random candidates", "anchors": ["pyforecaster/scenred.py:refine_scenarios", "pyforecaster/scenred.py:set_distance"]}
{"id": "C118", "title": "Each series is forecast by the model of its level", "statement": "After fit, every aggregate is forecast by the model trained on the rows of that aggregate, and every bottom series by the model trained on the rows of all bottom series, whatever the names of the series.", "quantifier": "every hierarchy, data set, learner and series name", "why_tests_cant": "names are arbitrary strings", "anchors": ["pyforecaster/reconciliation/reconciliation.py:HierarchicalReconciliation.fit", "pyforecaster/reconciliation/reconciliation.py:HierarchicalReconciliation.get_predictions"]}
{"id": "C119", "title": "Reconciled scenarios are coherent", "statement": "If the training targets add up along the hierarchy, every scenario returned by predict_scenarios with method='reconciled' adds up at every step, whatever the rows drawn.", "quantifier": "every hierarchy, data set, number of scenarios and random draws", "why_tests_cant": "quantifies over random draws", "anchors": ["pyforecaster/reconciliation/reconciliation.py:HierarchicalReconciliation.predict_scenarios", "pyforecaster/reconciliation/reconciliation.py:HierarchicalReconciliation.fit"]}
{"id": "C120", "title": "Vanilla scenarios are base forecasts plus their errors", "statement": "predict_scenarios with method='vanilla' adds errors of the base forecasts to the base forecasts, as documented.", "quantifier": "every data set and random draw", "why_tests_cant": "quantifies over random draws", "anchors": ["pyforecaster/reconciliation/reconciliation.py:HierarchicalReconciliation.predict_scenarios"]}
{"id": "C121", "title": "Minimum-trace weights exist for every data set", "statement": "The shrunk covariance of the errors is positive definite and the reconciliation weights exist for every table of errors.", "quantifier": "every table of errors, number of series and rows", "why_tests_cant": "a claim about all matrices", "anchors": ["pyforecaster/reconciliation/reconciliation.py:HierarchicalReconciliation.estimate_covariance", "pyforecaster/reconciliation/reconciliation.py:HierarchicalReconciliation.fit_reconciliation"]}
{"id": "C122", "title": "Quantiles of reconciled forecasts", "statement": "predict_quantiles of the reconciler returns for every row, series and step quantiles that are nondecreasing in the level and cover the scenarios with their level, for both methods.", "quantifier": "every data set, level, series, step and random draw", "why_tests_cant": "quantifies over random draws and all data", "anchors": ["pyforecaster/reconciliation/reconciliation.py:HierarchicalReconciliation.predict_quantiles", "pyforecaster/reconciliation/reconciliation.py:HierarchicalReconciliation.get_quantiles"]}
{"id": "C123", "title": "Rolling forecasts never use later observations", "statement": "For the forecasts of the statsmodels wrapper: the forecasts of a row are determined by the fitted model and the rows before it, whatever the later rows contain, and predicting a longer frame leaves the forecasts of the earlier rows unchanged.", "quantifier": "all library objects (forecast, append, apply arbitrary), models, horizons, series and rows", "why_tests_cant": "needs two runs compared for every series and every library behaviour", "anchors": ["pyforecaster/forecasting_models/statsmodels_wrapper.py:get_forecasts", "pyforecaster/forecasting_models/statsmodels_wrapper.py:ExponentialSmoothing.predict"]}
{"id": "C124", "title": "Column t+k of a row forecasts the time k steps after the row", "statement": "A wrapped model that knows the future of the series exactly returns, in row t and column t+k, the value of the series at time t+k, so that its residuals and its error quantiles are zero.", "quantifier": "all perfect libraries, series, start times, lengths, horizons, rows and steps", "why_tests_cant": "a test with real data sees only a small bias", "anchors": ["pyforecaster/forecasting_models/statsmodels_wrapper.py:get_forecasts", "pyforecaster/forecasting_models/statsmodels_wrapper.py:StatsModelsWrapper.fit"]}
{"id": "C125", "title": "The bootstrap summarises the requested number of resamples", "statement": "bootstrap(series, stat, n_sampling) returns the mean and the standard deviation of the statistic over n_sampling resamples.", "quantifier": "all series, statistics, numbers and outcomes of the draws", "why_tests_cant": "the result is random, a test can only check rough agreement", "anchors": ["pyforecaster/stat_utils.py:bootstrap"]}
{"id": "C126", "title": "A resample has the size of the series and draws its values with replacement", "statement": "Every resample of the bootstrap has as many values as the series, each of them the value of the drawn label.", "quantifier": "all series, labels and draws", "why_tests_cant": "depends on the draws and on repeated labels", "anchors": ["pyforecaster/stat_utils.py:bootstrap"]}
{"id": "C127", "title": "Masked cells do not influence the scores", "statement": "With a mask, summary_scores returns for every group the score over exactly the cells of the group where the mask is true; forecasts and observations elsewhere can be changed without changing any score.", "quantifier": "all forecasts, observations, masks, grouping columns, axes and scores", "why_tests_cant": "all values of the masked cells have to be considered", "anchors": ["pyforecaster/metrics.py:summary_scores", "pyforecaster/metrics.py:summary_score"]}
{"id": "C128", "title": "Continuous grouping variables are cut into balanced classes, each column for itself", "statement": "summary_scores cuts a continuous grouping column into n_quantiles classes which are intervals in increasing order and have the same number of rows up to one of the ideal share; the scores by a column do not depend on which other grouping columns are passed.", "quantifier": "all columns, numbers of classes and companions", "why_tests_cant": "balance holds for every sample; the interaction of columns needs particular dtypes", "anchors": ["pyforecaster/metrics.py:summary_scores"]}
{"id": "C129", "title": "Scaled inputs have mean zero and unit variance and can be scaled back", "statement": "Every column given to the learner of the random feature and neural forecasters sums to zero over the fitting rows and its squares sum to the number of rows, or is constantly zero if the column is constant; scaling back a scaled row returns the row, and scaling preserves the order of values.", "quantifier": "all columns, tables and rows", "why_tests_cant": "needs all real columns, including constant ones", "anchors": ["pyforecaster/forecasting_models/random_fourier_features.py:RFFRegression.fit", "pyforecaster/forecasting_models/neural_models/base_nn.py:NN.get_normalized_inputs"]}
{"id": "C130", "title": "Held-out rows do not influence the trained model", "statement": "With val_ratio, what the learner is trained on depends only on the first rows: two datasets that agree on the rows before the split train the same model.", "quantifier": "all learners, ratios and pairs of datasets", "why_tests_cant": "a hyperproperty: compares two trainings for every content of the held-out rows", "anchors": ["pyforecaster/forecaster.py:LinearForecaster.fit", "pyforecaster/forecasting_models/random_fourier_features.py:RFFRegression.fit", "pyforecaster/forecasting_models/neural_models/base_nn.py:NN.fit"]}
{"id": "C131", "title": "Random features are drawn once, and each boosting stage helps", "statement": "A fitted random feature regressor predicts with the weights it was fitted with, whatever the state of the generator, fitting it again on the same data returns the same regressor, given weights make fitting deterministic, rows are predicted independently of each other, and the learner only sees features in [-1, 1]. Adding stages to an additive regressor never increases its training error.", "quantifier": "all generators, learners, weights, data sets and numbers of stages", "why_tests_cant": "depends on the random generator and on all stages", "anchors": ["pyforecaster/forecasting_models/random_fourier_features.py:Base.set_weight", "pyforecaster/forecasting_models/random_fourier_features.py:RFFRegression.predict", "pyforecaster/forecasting_models/random_fourier_features.py:AdditiveRFFRegression.fit"]}
{"id": "C132", "title": "Normalised targets are scaled back from the frame passed to predict", "statement": "A forecaster whose formatter normalised the target by columns of the frame predicts, scaled back, for every frame that has these columns.", "quantifier": "all column names and normalisers", "why_tests_cant": "must hold for every formatter configuration", "anchors": ["pyforecaster/forecasting_models/random_fourier_features.py:RFFRegression.predict", "pyforecaster/forecaster.py:LinearForecaster.predict", "pyforecaster/formatter.py:Formatter.denormalize"]}
{"id": "C133", "title": "Orthogonal random features are orthogonal", "statement": "The matrix of orthogonal random features has one column per feature and one row per input, and within a block the frequency vectors of the features are orthogonal.", "quantifier": "all dimensions, orthogonal matrices and scales", "why_tests_cant": "random draws; needs all orthogonal matrices", "anchors": ["pyforecaster/forecasting_models/random_fourier_features.py:get_orf_matrix"]}
{"id": "C134", "title": "Quantile forecasts of the smoothing models cover the training rows", "statement": "The quantile forecasts of Holt-Winters, of the Fourier models and of the wrapped statsmodels are ordered by level, and for every level q and step more than q(n-1) of the n training rows are at most their q-quantile forecast and more than (1-q)(n-1) at least.", "quantifier": "all series, forecasts, covariates, levels and steps", "why_tests_cant": "calibration must hold for every training series", "anchors": ["pyforecaster/forecasting_models/holtwinters.py:HoltWinters.fit", "pyforecaster/forecasting_models/holtwinters.py:HoltWinters.predict", "pyforecaster/forecasting_models/fast_adaptive_models.py:StatefulForecaster.fit"]}
{"id": "C135", "title": "Saved states can be restored", "statement": "set_states with the states returned earlier by get_states puts the model back in the earlier state, and setting one state leaves the others unchanged.", "quantifier": "all states and histories in between", "why_tests_cant": "any history may lie between saving and restoring", "anchors": ["pyforecaster/forecasting_models/holtwinters.py:HoltWinters.get_states", "pyforecaster/forecasting_models/holtwinters.py:HoltWinters.set_states"]}
{"id": "C136", "title": "The tuning score compares each forecast with the values it forecasts", "statement": "The score of a candidate is the mean, over the test rows with n_sa later observations and over the steps, of the squared difference between the forecast and the observation it is meant for, the model having been trained on the earlier rows only.", "quantifier": "all models, frames, ratios and horizons", "why_tests_cant": "an off-by-one would still rank candidates plausibly", "anchors": ["pyforecaster/forecasting_models/holtwinters.py:score_autoregressive", "pyforecaster/forecasting_models/holtwinters.py:hankel"]}
{"id": "C137", "title": "Tuned parameters lie within their limits and have the best score", "statement": "Every candidate has each of its parameters within the given limits, and the returned candidate has the lowest score of all, the first one in case of ties.", "quantifier": "all limits, draws, numbers of candidates and scores", "why_tests_cant": "random draws and arbitrary scores", "anchors": ["pyforecaster/forecasting_models/holtwinters.py:tune_hyperpars"]}
{"id": "C138", "title": "Trial ranks order the trials", "statement": "In the table of trials, rank 1 are exactly the trials with the smallest value, a smaller value has a smaller rank, equal values have equal ranks, ranks have no gaps, and trials without value have no rank.", "quantifier": "all studies", "why_tests_cant": "ties and failed trials in every combination", "anchors": ["pyforecaster/trainer.py:retrieve_cv_results"]}
{"id": "C139", "title": "The most important frequencies are those of the signal", "statement": "find_most_important_frequencies returns, in increasing order, the numbers of periods of the n_max strongest components of the signal; for a sampled wave with j periods and n_max 1 it returns j.", "quantifier": "all signals, numbers of components and orders of ties", "why_tests_cant": "needs all signals; ties depend on the sorting algorithm", "anchors": ["pyforecaster/utilities.py:find_most_important_frequencies"]}
{"id": "C140", "title": "The likelihood loss is least at the mean and variance of the data", "statement": "The loss a probabilistic network (kind 'maximum_likelihood', distribution 'normal') is trained with is, among constant forecasts, least exactly at the mean and the variance of the targets; with the forecasts given, it is least when each variance equals the squared error of its own row.", "quantifier": "every non-constant column of targets and every forecast and positive variance; every set of rows with non-zero errors", "why_tests_cant": "a test compares the loss at a few points", "anchors": ["base_nn.py:probabilistic_loss", "base_nn.py:probabilistic_loss_fn"]}
{"id": "C141", "title": "The likelihood loss of a network is always a number", "statement": "Whatever the weights, the likelihood loss of a probabilistic network is a number, so that training can continue.", "quantifier": "all network outputs and all targets", "why_tests_cant": "training runs from a few seeds rarely meet a negative variance", "anchors": ["base_nn.py:probabilistic_loss", "base_nn.py:FeedForwardModule", "ICNN.py:PICNN_module.__call__"]}
{"id": "C142", "title": "The ranked probability score grows with the error", "statement": "With kind 'crps' and a normal distribution the loss of a row is positive, depends on the size of the error only, grows strictly with it, is least for an exact forecast, where it grows with the deviation, and is measured in the units of the target.", "quantifier": "all forecasts, observations and positive variances", "why_tests_cant": "a property of a transcendental function over all reals", "anchors": ["base_nn.py:probabilistic_loss"]}
{"id": "C143", "title": "Log-normal networks predict the quantiles of the distribution they are trained on", "statement": "The distribution for which the loss of a log-normal structured network is least is the distribution whose quantiles predict_quantiles returns; the loss is a number for every objective.", "quantifier": "all positive data sets, all forecasts and deviations", "why_tests_cant": "it compares training with prediction for all data sets", "anchors": ["base_nn.py:probabilistic_loss", "ICNN.py:StructuredPICNN.predict_quantiles", "ICNN.py:structured_probabilistic_loss_fn"]}
{"id": "C144", "title": "The order penalty rewards forecasts that rank the objectives correctly", "statement": "The monotonicity term of the structured losses is least exactly when the forecast objectives are ordered like the observed ones, is larger the more the order is violated, and training reacts to it.", "quantifier": "all batches of distinct objectives", "why_tests_cant": "it quantifies over all orders of all batches", "anchors": ["ICNN.py:monotonic_objective_right", "ICNN.py:structured_loss_fn"]}
{"id": "C145", "title": "The embedding penalty is least for standardised embeddings", "statement": "The regularisation of the embedded controls is never negative, and zero exactly when every embedding has mean zero and variance one over the batch.", "quantifier": "all batches of embeddings in which no embedding is identically zero", "why_tests_cant": "an inequality over all batches", "anchors": ["ICNN.py:embedded_loss_fn"]}
{"id": "C146", "title": "Declared causes are enforced in training", "statement": "With causal_df the training loss contains a penalty that is zero exactly when no target reacts to a control that is not among its causes, and is positive otherwise.", "quantifier": "all tables of causes, all sensitivities, all networks that accept causal_df", "why_tests_cant": "tests use one table and one network", "anchors": ["ICNN.py:causal_loss_fn", "ICNN.py:_my_jmp", "ICNN.py:PICNN.set_arch", "ICNN.py:PIQCNN.set_arch"]}
{"id": "C147", "title": "A network is trained with the requested score and distribution", "statement": "A probabilistic network is trained with the loss named by probabilistic_loss_kind and distribution.", "quantifier": "all networks, kinds and distributions", "why_tests_cant": "the wrong loss still trains", "anchors": ["base_nn.py:NN.set_arch", "base_nn.py:FFNN.set_arch", "ICNN.py:PICNN.set_arch", "INN.py:CausalInvertibleNN.set_arch"]}
{"id": "C148", "title": "Bins without nesting hold the requested windows", "statement": "With nested=False and aggregation bins, the cell of a feature column in row i is the function of the samples of its bin counted back from the lagged row, for every row for which these samples exist, as with nested=True.", "quantifier": "all series, bin edges, functions and lags", "why_tests_cant": "tests compare the two modes on one series without gaps and drop incomplete rows first", "anchors": ["pyforecaster/formatter.py:Transformer.transform", "pyforecaster/formatter.py:Reducer"]}
{"id": "C149", "title": "Metadata of bins without nesting", "statement": "With nested=False every metadata row gives the function, the lag and the time window of the column it is named after.", "quantifier": "all bin edges, lags, functions and sampling times", "why_tests_cant": "tests look at one lag at most", "anchors": ["pyforecaster/formatter.py:Transformer.transform"]}
{"id": "C150", "title": "Features can be renamed relative to the prediction time", "statement": "rename_features_prediction_time renames every transformed feature by its time offset from the requested step ahead and leaves the other columns alone.", "quantifier": "all formatters, frames and steps ahead", "why_tests_cant": "no finite set of formatters shows that the call can never succeed", "anchors": ["pyforecaster/formatter.py:Formatter.rename_features_prediction_time"]}
{"id": "C151", "title": "The predictors of a multi-predictor model look back over different histories", "statement": "FK_multi builds n_predictors predictors whose histories increase, cover the horizon and the periodicity, and end with m.", "quantifier": "every n_predictors, m, n_sa, periodicity and extra arguments", "why_tests_cant": "grids of integers: rounding and the lower limits collide only for some combinations", "anchors": ["pyforecaster/forecasting_models/fast_adaptive_models.py:FK_multi.reinit_pars"]}
{"id": "C152", "title": "The predictors use the requested periodicity", "statement": "A periodicity given to FK_multi is the periodicity its predictors copy the past from.", "quantifier": "every periodicity, horizon and set of extra arguments", "why_tests_cant": "a wrong periodicity only changes the numbers, nothing fails", "anchors": ["pyforecaster/forecasting_models/fast_adaptive_models.py:FK_multi.__init__", "pyforecaster/forecasting_models/fast_adaptive_models.py:FK_multi.reinit_pars"]}
{"id": "C153", "title": "Parameters given for the predictors are used", "statement": "The alphas, omegas, ns_harmonics and submodels_pars given to FK_multi are the parameters of its predictors.", "quantifier": "every list of parameters", "why_tests_cant": "unused parameters only change the numbers", "anchors": ["pyforecaster/forecasting_models/fast_adaptive_models.py:FK_multi.__init__"]}
{"id": "C154", "title": "Each horizon of a multi-horizon model has the parameters and constraints declared for it", "statement": "Model i of HoltWintersMulti has horizon models_periods[i], parameters alphas[i], gammas_1[i], gammas_2[i] and the declared constraints.", "quantifier": "every list of horizons, parameters and constraints", "why_tests_cant": "missing constraints show only on data that leave them", "anchors": ["pyforecaster/forecasting_models/holtwinters.py:HoltWintersMulti.__init__", "pyforecaster/forecasting_models/holtwinters.py:HoltWintersMulti.reinit_pars"]}
{"id": "C155", "title": "Every horizon can be forecast", "statement": "A Fourier smoother with valid parameters runs on every series, for every number of steps ahead, and reconstructs the last period.", "quantifier": "every history length, horizon, periodicity, stored state and series", "why_tests_cant": "slices with negative bounds are valid python and depend on the combination of lengths", "anchors": ["pyforecaster/forecasting_models/fast_adaptive_models.py:Fourier_es.run", "pyforecaster/forecasting_models/fast_adaptive_models.py:Fourier_es.store_basis"]}
{"id": "C156", "title": "A reconfigured forecaster can be run again", "statement": "After changing the number of harmonics and calling reinit_pars, FK runs on new data.", "quantifier": "every pair of harmonic counts and every earlier and later series", "why_tests_cant": "needs a history of calls: run, reconfigure, run", "anchors": ["pyforecaster/forecasting_models/fast_adaptive_models.py:FK.reinit_pars", "pyforecaster/forecasting_models/fast_adaptive_models.py:FK.run"]}
{"id": "C157", "title": "A forecaster that tunes itself tunes at each fit", "statement": "With optimize_hyperpars=True, fit uses the parameters that are best on the data it is given.", "quantifier": "every forecaster, search result and sequence of data sets", "why_tests_cant": "needs several fits on different data, with a stochastic search", "anchors": ["pyforecaster/forecasting_models/fast_adaptive_models.py:StatefulForecaster.tune_hyperpars", "pyforecaster/forecasting_models/holtwinters.py:tune_hyperpars"]}
{"id": "C158", "title": "After fitting, the seasonal benchmark continues from the end of its data", "statement": "A fitted SeasonalPersistent forecasts the rows that follow the frame it was fitted on with the values of the last season of that frame.", "quantifier": "every series, season length, horizon and validation ratio", "why_tests_cant": "a stale season gives plausible values, and exact ones on periodic test data", "anchors": ["pyforecaster/forecasting_models/benchmarks.py:SeasonalPersistent.fit", "pyforecaster/forecasting_models/benchmarks.py:SeasonalPersistent.predict"]}
{"id": "C159", "title": "The errors of the persistence benchmarks come from earlier values", "statement": "The errors from which Persistent and SeasonalPersistent make quantiles and scenarios are those of forecasts that use only values up to the row.", "quantifier": "every series, horizon, season length, row and step", "why_tests_cant": "leakage makes the quantiles too narrow without any failure", "anchors": ["pyforecaster/forecasting_models/benchmarks.py:Persistent.fit", "pyforecaster/forecasting_models/benchmarks.py:SeasonalPersistent.fit"]}
{"id": "C160", "title": "Capping the rows after the fit only selects errors", "statement": "With max_scengen_rows the errors used are those of the same rows without the cap.", "quantifier": "every series and every choice of rows", "why_tests_cant": "depends on which rows the generator draws", "anchors": ["pyforecaster/forecaster.py:ScenarioGenerator.fit", "pyforecaster/forecasting_models/benchmarks.py:SeasonalPersistent.fit"]}
{"id": "C161", "title": "A feed-forward network has as many outputs as asked", "statement": "The number of outputs of the feed-forward network is n_out.", "quantifier": "every depth or list of sizes, selector, parameters and input", "why_tests_cant": "shapes broadcast silently, and only for some lengths", "anchors": ["pyforecaster/forecasting_models/neural_models/base_nn.py:FeedForwardModule"]}
{"id": "C162", "title": "Split heads are independent", "statement": "With split_heads, an output depends on the inputs, on the shared layers and on its own head only.", "quantifier": "every pair of parameters that agree on the shared layers and on that head, every input", "why_tests_cant": "independence is a statement about all parameters", "anchors": ["pyforecaster/forecasting_models/neural_models/base_nn.py:FeedForwardModule"]}
{"id": "C163", "title": "Persistent inputs and skip connections are added to the outputs", "statement": "With pass_x_selector the forecasts are those of the network plus the selected inputs, and with skip_connection a linear function of the inputs is added as well.", "quantifier": "every network, selection and input", "why_tests_cant": "a dropped term is compensated by training on the test data", "anchors": ["pyforecaster/forecasting_models/neural_models/base_nn.py:FeedForwardModule"]}
{"id": "C164", "title": "An untrained last layer gives persistence", "statement": "With pass_x_selector pointing at the columns that hold the last values of the targets, a network whose last layer is zero forecasts these values.", "quantifier": "every frame, scaling option, selection and row", "why_tests_cant": "shifts by a mean are invisible on standardised test data", "anchors": ["pyforecaster/forecasting_models/neural_models/base_nn.py:FeedForwardModule", "pyforecaster/forecasting_models/neural_models/base_nn.py:NN.predict", "pyforecaster/forecasting_models/neural_models/base_nn.py:NN.fit"]}
{"id": "C165", "title": "Quantile forecasts of the networks accept frames", "statement": "predict_quantiles of a network returns for a frame that its predict accepts.", "quantifier": "every network, with and without normalisation, probabilistic or not", "why_tests_cant": "depends on the combination of class and options", "anchors": ["pyforecaster/forecasting_models/neural_models/base_nn.py:NN.predict_quantiles", "pyforecaster/forecasting_models/neural_models/base_nn.py:LSTMNN", "pyforecaster/forecasting_models/neural_models/INN.py:CausalInvertibleNN.predict_quantiles"]}
{"id": "C166", "title": "The invertible forecaster is trained on the targets", "statement": "The loss of CausalInvertibleNN is zero exactly for forecasts equal to the targets, and its forecasts have a column per target.", "quantifier": "every mode, network, predictor and batch", "why_tests_cant": "a loss that ignores the targets still decreases", "anchors": ["pyforecaster/forecasting_models/neural_models/INN.py:loss_fn", "pyforecaster/forecasting_models/neural_models/INN.py:full_end_to_end_loss_fn", "pyforecaster/forecasting_models/neural_models/INN.py:CausalInvertibleNN.predict"]}
{"id": "C167", "title": "The loss of the quasi end-to-end mode is a number", "statement": "The loss with end_to_end='quasi' is a finite non-negative number, zero exactly when the embeddings of the targets are forecast exactly.", "quantifier": "every batch of embeddings and forecasts", "why_tests_cant": "undefined values come from particular shapes", "anchors": ["pyforecaster/forecasting_models/neural_models/INN.py:quasi_end_to_end_loss_fn"]}
{"id": "C168", "title": "n_hidden_y sets the width of the predictor", "statement": "The hidden layers of the network that forecasts the embeddings have n_hidden_y neurons, as given to the constructor or to set_params.", "quantifier": "every constructor call followed by any calls of set_params", "why_tests_cant": "a size that is ignored changes no shape that is visible outside", "anchors": ["pyforecaster/forecasting_models/neural_models/INN.py:CausalInvertibleNN", "pyforecaster/forecasting_models/neural_models/base_nn.py:NN.set_params"]}
{"id": "C169", "title": "Options of scenario generation take effect", "statement": "A keyword given to the constructor of a forecaster configures its scenario generation, copula and tree builder, or is refused.", "quantifier": "every set of keywords and every forecaster class", "why_tests_cant": "a misspelt or dropped option leaves a default that works", "anchors": ["pyforecaster/forecaster.py:ScenarioGenerator.__init__", "pyforecaster/scenarios_generator.py:ScenGen.__init__", "pyforecaster/forecasting_models/neural_models/base_nn.py:FFNN.__init__", "pyforecaster/forecasting_models/neural_models/LSTM_bidir.py:LSTM_Forecaster.__init__"]}
{"id": "C170", "title": "Pre-computed trees are those of the last fit", "statement": "After a fit, turning online tree reduction off makes predict_trees use the trees of that fit, for every hour; a fit that fails changes none.", "quantifier": "every sequence of fits and settings, and every set of hours in the data", "why_tests_cant": "depends on the order of calls and on a crash in the middle of a fit", "anchors": ["pyforecaster/scenarios_generator.py:ScenGen.fit", "pyforecaster/scenarios_generator.py:ScenGen.predict_trees", "pyforecaster/forecaster.py:ScenarioGenerator.online_tree_reduction"]}
{"id": "C171", "title": "The node schedule passed to predict_trees is used or refused", "statement": "predict_trees with nodes_at_step returns trees with that schedule, or raises.", "quantifier": "every schedule and mode", "why_tests_cant": "ignored arguments give valid trees", "anchors": ["pyforecaster/forecaster.py:ScenarioGenerator.predict_trees", "pyforecaster/scenarios_generator.py:ScenGen.predict_trees"]}
{"id": "C172", "title": "Every copula that can be chosen generates scenarios", "statement": "A forecaster built with any of the copula types offered can be fitted and generates scenarios.", "quantifier": "every copula type, option and data", "why_tests_cant": "only one type is exercised", "anchors": ["pyforecaster/copula.py:ConditionalGaussianCopula", "pyforecaster/scenarios_generator.py:ScenGen.sample_scenarios", "pyforecaster/dictionaries.py"]}
{"id": "C173", "title": "Any widths give a network with one forecast per target", "statement": "For every choice of n_hidden_x, n_out, n_latent, n_layers, number of controls and augmentation, the network evaluates, and returns n_out forecasts, followed by n_out deviations if it is probabilistic (by one if it is structured).", "quantifier": "every network class and every combination of widths and options", "why_tests_cant": "a test fixes one combination of widths", "anchors": ["pyforecaster/forecasting_models/neural_models/ICNN.py:PICNN_module", "pyforecaster/forecasting_models/neural_models/ICNN.py:PartiallyIQCNN_module", "pyforecaster/forecasting_models/neural_models/ICNN.py:PICNN.set_arch", "pyforecaster/forecasting_models/neural_models/layers.py:PICNNLayer"]}
{"id": "C174", "title": "Forecasts respect z_min and z_max", "statement": "Forecasts of a network given z_min and z_max lie between them; one of the two can be given alone; bounds can be numbers or one per target.", "quantifier": "every network output, every pair of bounds, every training target", "why_tests_cant": "the sigmoid is close to its bounds only for rare inputs", "anchors": ["pyforecaster/forecasting_models/neural_models/layers.py:PICNNLayer", "pyforecaster/forecasting_models/neural_models/base_nn.py:NN.predict"]}
{"id": "C175", "title": "The options of a convex network take effect", "statement": "augment_ctrl_inputs and layer_normalization change the network as documented by their names, whether given to the constructor or to set_params.", "quantifier": "every network class, every number of controls and every combination of the other options", "why_tests_cant": "options are tested one value at a time", "anchors": ["pyforecaster/forecasting_models/neural_models/ICNN.py:RecStablePICNN.set_arch", "pyforecaster/forecasting_models/neural_models/ICNN.py:PICNN.__init__", "pyforecaster/forecasting_models/neural_models/base_nn.py:NN.set_params"]}
{"id": "C176", "title": "Embedded controls come back with their own length", "statement": "A network with embedded controls returns n_out forecasts, an embedding of n_embeddings numbers and as many reconstructed controls as there are optimization_vars, for every choice of widths and options.", "quantifier": "every combination of widths, depths and options", "why_tests_cant": "a test fixes one combination of widths", "anchors": ["pyforecaster/forecasting_models/neural_models/ICNN.py:LatentPICNN_module", "pyforecaster/forecasting_models/neural_models/ICNN.py:LatentStructuredPICNN.set_arch"]}
{"id": "C177", "title": "A tuned hyper-parameter is the one the model is trained with", "statement": "When parameters are set on a tree-based forecaster, by hand or by a tuning trial, the learners of its next fit are created with these values and with the old values of the other parameters.", "quantifier": "all constructor arguments and all dictionaries of parameters", "why_tests_cant": "The effect of a parameter on a randomised learner is not visible in a score threshold, and tests cannot enumerate the dictionaries.", "anchors": ["pyforecaster/forecasting_models/gradientboosters.py:get_lgb_pars", "pyforecaster/forecasting_models/randomforests.py:__init__,_fit,fit", "pyforecaster/forecaster.py:set_params", "pyforecaster/trainer.py:objective"]}
{"id": "C178", "title": "Weights of the observations are used in training", "statement": "The weights given to fit are paired with the rows the learners are trained on, whatever part is held out for validation, and influence the forecasts of every step.", "quantifier": "all learners, tables, weights, validation ratios and numbers of single-step models", "why_tests_cant": "A test fixes one ratio and one number of models; the interaction of all of them with the weights needs a universal statement.", "anchors": ["pyforecaster/forecasting_models/randomforests.py:fit,_fit", "pyforecaster/forecaster.py:train_val_split"]}
{"id": "C179", "title": "Options of a forecast of a tree model are accepted and consistent with training", "statement": "predict accepts its documented options (the mean, levels, a period) in serial and parallel execution, and presents to every single-step model the columns it was trained on.", "quantifier": "all numbers of single-step and global steps, execution modes, options and metadata tables", "why_tests_cant": "The options interact with the execution mode and the number of models; tests cover single combinations.", "anchors": ["pyforecaster/forecasting_models/randomforests.py:predict,_predict,predict_multi_step,predict_quantiles", "pyforecaster/forecasting_models/gradientboosters.py:predict,dataset_at_stepahead"]}
{"id": "C180", "title": "The training set of the global model has the requested size", "statement": "The global model is trained on the requested fraction of the observations of every step, at least one table's worth over all steps, drawn from the table, and on all of them when the fraction is one.", "quantifier": "all numbers of rows, steps, fractions and random draws", "why_tests_cant": "Rounding and the random draw matter at boundary sizes; a test fixes one size and one seed.", "anchors": ["pyforecaster/forecasting_models/gradientboosters.py:fit"]}
{"id": "C181", "title": "The energy-aware forecast accumulates the effect of control", "statement": "The extra input of every step is the sum, over the previous steps, of the difference between the forecast with the control columns at zero and the forecast; without control actions it is zero; the first steps do not depend on the later ones.", "quantifier": "all models, numbers of steps and input rows", "why_tests_cant": "The recursion runs over any number of steps and any learner.", "anchors": ["pyforecaster/forecasting_models/gradientboosters.py:LGBEnergyAware.predict"]}
{"id": "C182", "title": "Optimising in the latent space optimises the controls", "statement": "The controls returned by the optimisation of the latent network have the reported objective value under the network's own forecast, are no worse than the initial ones, and the other inputs are returned unchanged.", "quantifier": "all networks, objectives, optimisers, numbers of iterations, tolerances and inputs", "why_tests_cant": "The gap between the latent and the reconstructed controls depends on the trained networks; tests only check that a call returns.", "anchors": ["pyforecaster/forecasting_models/neural_models/ICNN.py:LatentStructuredPICNN.optimize,decode,encode,latent_pred"]}
{"id": "C183", "title": "The history of the optimisation is the path of the optimiser", "statement": "The returned history lists the embeddings of all updates, in order, from the embedding of the initial controls to the solution.", "quantifier": "all networks, optimisers, numbers of iterations and tolerances", "why_tests_cant": "It ranges over every number of rounds and every way of stopping.", "anchors": ["pyforecaster/forecasting_models/neural_models/ICNN.py:LatentStructuredPICNN.optimize"]}
{"id": "C184", "title": "Columns of a frame reach the inputs of the network they were trained for", "statement": "A neural forecaster uses each column of the frame passed to predict for the input it was trained for, scaled as declared, whatever the order of the columns, or refuses the frame.", "quantifier": "all lists of columns, declarations of unnormalised inputs, orders and values", "why_tests_cant": "The orders of columns grow factorially; a wrong order gives plausible forecasts.", "anchors": ["pyforecaster/forecasting_models/neural_models/base_nn.py:NN.fit,NN.get_normalized_inputs"]}
{"id": "C185", "title": "Controls of a convex network are found by name", "statement": "The forecast of a convex network does not depend on where the control columns stand in the frame, with any declaration of unnormalised inputs.", "quantifier": "all frames, controls and declarations", "why_tests_cant": "It ranges over all positions of the columns and all declarations.", "anchors": ["pyforecaster/forecasting_models/neural_models/ICNN.py:PICNN.get_normalized_inputs"]}
{"id": "C186", "title": "The invertible forecaster aligns its frames", "statement": "Exogenous columns go to the exogenous inputs wherever they stand, the remaining columns to the inputs they were trained for, and inverted frames keep their index.", "quantifier": "all frames and lists of exogenous columns", "why_tests_cant": "It ranges over all orders of the columns and all indices.", "anchors": ["pyforecaster/forecasting_models/neural_models/INN.py:CausalInvertibleNN.reorder_inputs,fit,predict,invert"]}
{"id": "C187", "title": "The feed-forward network composes its layers", "statement": "When a feed-forward network returns, its outputs are the last layer's weighted sums plus biases of the last hidden values, and the values of each hidden layer are the normalised positive parts of the weighted sums plus biases of the previous ones, starting from the inputs; with split heads each output is computed from the last hidden values by its own two layers, the first as wide as the hidden layers.", "quantifier": "all parameters, normalisations, numbers of layers and inputs", "why_tests_cant": "Unit tests run one trained network; the composition has to hold for all weights and depths.", "anchors": ["pyforecaster/forecasting_models/neural_models/base_nn.py:FeedForwardModule.__call__"]}
{"id": "C188", "title": "Quantile frames name the targets like point forecasts", "statement": "The frame predict_quantiles returns has, in the order of the columns of predict, the label of each target with all quantile levels below it.", "quantifier": "all forecasters, target names, horizons and lists of levels", "why_tests_cant": "It ranges over all classes, names and horizons; tests compare shapes.", "anchors": ["pyforecaster/forecaster.py:ScenarioGenerator.quantiles_to_df,predict_quantiles", "pyforecaster/forecasting_models/holtwinters.py:HoltWintersMulti.predict", "pyforecaster/forecasting_models/fast_adaptive_models.py:FK_multi.fit,predict", "pyforecaster/forecasting_models/statsmodels_wrapper.py:StatsModelsWrapper.fit", "pyforecaster/forecasting_models/neural_models/base_nn.py:NN.predict_quantiles"]}
{"id": "C189", "title": "A tuning trial scores the model with the sampled parameters", "statement": "The model that a trial of hyperpar_optimizer trains and scores has the sampled values of the sampled parameters and the user's values of all others, and after the search the model trains with the values it reports.", "quantifier": "all forecaster classes, constructor arguments, histories of set_params, sampled dictionaries and both kinds of cross-validation", "why_tests_cant": "The effect of a parameter on a score is not an assertion, and the dictionaries cannot be enumerated.", "anchors": ["pyforecaster/trainer.py:optuna_objective,cross_validate", "pyforecaster/forecaster.py:ScenarioGenerator.set_params,get_params", "pyforecaster/forecasting_models/neural_models/base_nn.py:FFNN.__init__,LSTMNN.__init__"]}
{"id": "C190", "title": "A search without a search space works for every forecaster", "statement": "hyperpar_optimizer called without param_space_fun samples parameters that the model has, for every forecaster of the package.", "quantifier": "all forecaster classes", "why_tests_cant": "Only the registered classes are exercised; the claim is about all of them.", "anchors": ["pyforecaster/trainer.py:default_param_space_fun,hyperpar_optimizer", "pyforecaster/dictionaries.py:HYPERPAR_MAP"]}
{"id": "C191", "title": "Setting the controls of a convex network reconfigures it", "statement": "After set_params the width of the layers of the controls and the optimiser of the controls are those of the declared controls, augmentation and learning rate.", "quantifier": "all lists of controls, options and settings", "why_tests_cant": "It ranges over all histories of settings.", "anchors": ["pyforecaster/forecasting_models/neural_models/ICNN.py:PICNN.__init__,set_arch", "pyforecaster/forecasting_models/neural_models/base_nn.py:NN.set_params"]}
{"id": "C192", "title": "get_scenarios draws errors of the hour of each row", "statement": "get_scenarios returns, for every row of forecasts and scenario, the forecast plus a training error observed at the same hour of the day, with rows of one hour drawing independently; an hour without training errors raises; this holds for each available method.", "quantifier": "every training and prediction index, error sample, number of scenarios and random draw", "why_tests_cant": "quantifies over random draws and all indices", "anchors": ["pyforecaster/reconciliation/reconciliation.py:HierarchicalReconciliation.get_scenarios"]}
{"id": "C193", "title": "The score of a level is the mean of the scores of its series", "statement": "compute_kpis reports for every level of the hierarchy the mean, over the series of that level, each counted once, of the metric between the forecasts of the series and its own observations, for point and for quantile forecasts.", "quantifier": "every hierarchy with a top of at least two members, names of series, forecasts, observations and metric", "why_tests_cant": "the order of the names matters, which a test fixes", "anchors": ["pyforecaster/reconciliation/reconciliation.py:HierarchicalReconciliation.compute_kpis", "pyforecaster/reconciliation/reconciliation.py:HierarchicalReconciliation.get_target_matrix", "pyforecaster/utilities.py:convert_multiindex_pandas_to_tensor", "pyforecaster/metrics.py:quantile_scores"]}
{"id": "C194", "title": "Every fitted forecaster generates scenarios", "statement": "After fit, predict_scenarios returns, for every row whose hour occurred in calibration, the requested number of scenarios, obtained from the forecast of the row and the calibration errors of the last fit, whatever was fitted before.", "quantifier": "every forecaster class, every sequence of fits, all rows, forecasts, levels and random draws", "why_tests_cant": "tests call predict_scenarios only on the linear forecaster after one fit; the composition of calibration, quantiles, copula and interpolation must hold for all histories and inputs", "anchors": ["pyforecaster/forecaster.py: ScenarioGenerator.fit, predict_scenarios", "pyforecaster/scenarios_generator.py: ScenGen.fit, sample_scenarios", "pyforecaster/forecasting_models/holtwinters.py: HoltWinters.fit", "pyforecaster/forecasting_models/fast_adaptive_models.py: StatefulForecaster.fit", "pyforecaster/forecasting_models/statsmodels_wrapper.py: StatsModelsWrapper.fit"]}
{"id": "C195", "title": "A cap on the calibration rows is used or refused", "statement": "A forecaster constructed with max_scengen_rows either raises, or calibrates on exactly that many of its rows (all of them if there are fewer); values that are not positive whole numbers raise.", "quantifier": "every forecaster class, all values of the option, all generators and data sets", "why_tests_cant": "tests try one cap on one class", "anchors": ["pyforecaster/forecaster.py: _validate_max_scengen_rows, ScenarioGenerator.__init__, _maybe_subsample_for_scengen", "pyforecaster/forecasting_models/holtwinters.py: _reject_postfit_row_cap_kwargs", "pyforecaster/forecasting_models/fast_adaptive_models.py: StatefulForecaster.__init__", "pyforecaster/forecasting_models/statsmodels_wrapper.py: StatsModelsWrapper.__init__"]}
{"id": "C196", "title": "The recurrent network has as many outputs as asked", "statement": "LSTMNN forecasts one value for each of the n_out targets, however the layers are given.", "quantifier": "every depth, list of sizes, weights, scaler and row", "why_tests_cant": "ranges over all architectures and weights", "anchors": ["pyforecaster/forecasting_models/neural_models/base_nn.py:LSTMModule", "pyforecaster/forecasting_models/neural_models/base_nn.py:LSTMNN"]}
{"id": "C197", "title": "The recurrent network forecasts each row by itself, within a fixed range", "statement": "LSTMNN reads the columns of a row in order through its stacked layers, each starting empty, and forecasts from the last output; whatever the row, a forecast stays within a range around the mean of its target that is fixed once the network is trained.", "quantifier": "every architecture, weights, scaler and row", "why_tests_cant": "a bound over all real inputs and all weights", "anchors": ["pyforecaster/forecasting_models/neural_models/base_nn.py:LSTMModule.__call__", "pyforecaster/forecasting_models/neural_models/base_nn.py:LSTMNN.check_inputs"]}
{"id": "C198", "title": "The bidirectional forecaster merges history and other columns", "statement": "In LSTM_Forecaster the effect of the history on a forecast can depend on the other columns of the row.", "quantifier": "every trained network, frame, history and horizon", "why_tests_cant": "a statement about all weights: no training run can show that none would do", "anchors": ["pyforecaster/forecasting_models/neural_models/LSTM_bidir.py:LSTM_Forecaster._build_model"]}
{"id": "C199", "title": "Re-initialising Holt-Winters forgets the past", "statement": "After reinit(values) the states and forecasts of HoltWinters depend on the given values only, not on what the model had seen before.", "quantifier": "every parameters, states before, values and later series", "why_tests_cant": "ranges over all histories before the call", "anchors": ["pyforecaster/forecasting_models/holtwinters.py:HoltWinters.reinit"]}
{"id": "C200", "title": "The random search of Holt-Winters picks the best trial", "statement": "With optimization_budget trials, the smoothing parameters kept are those with the least root mean squared error of the forecasts over the last nine tenths of the training series, all trials being compared from the same start, and the fitted forecasts are the ones of that trial.", "quantifier": "every series, targets, state and list of trials", "why_tests_cant": "ranges over all draws of the trials and all series", "anchors": ["pyforecaster/forecasting_models/holtwinters.py:HoltWinters.rand_search", "pyforecaster/forecasting_models/holtwinters.py:HoltWinters.rmse"]}
{"id": "C201", "title": "Holt-Winters does not depend on the unit", "statement": "Multiplying the series, the constraints, the stored state and the covariates' effects by a factor (kW to W) multiplies the forecasts of HoltWinters, its fitted values and its state by that factor, missing values included.", "quantifier": "every factor >= 0, parameters, stored state, series with missing values and effects", "why_tests_cant": "a statement relating the runs on all rescalings of all series", "anchors": ["pyforecaster/forecasting_models/holtwinters.py:HoltWinters.predict", "pyforecaster/forecasting_models/holtwinters.py:HoltWinters.fit", "pyforecaster/forecasting_models/holtwinters.py:run"]}
{"id": "C202", "title": "Holt-Winters follows an offset of the data", "statement": "Adding a constant to the series (Celsius to Kelvin) adds the constant to the forecasts of HoltWinters.", "quantifier": "every offset, parameters, stored state and series", "why_tests_cant": "a statement relating the runs on all translations of all series", "anchors": ["pyforecaster/forecasting_models/holtwinters.py:HoltWinters._run", "pyforecaster/forecasting_models/holtwinters.py:HoltWinters.predict"]}
{"id": "C203", "title": "Quantile forecasts follow the unit, the offset and the sign of the data", "statement": "Multiplying targets and forecasts by a positive factor, or adding a constant, does the same to the predicted quantiles; for the opposite data the quantile at level q is the opposite of the one at level 1-q. The benchmarks' forecasts and errors follow in the same way.", "quantifier": "every factor, offset, list of levels, validation set, hours and forecasts", "why_tests_cant": "a statement relating the results for all rescalings of all data sets", "anchors": ["pyforecaster/forecaster.py:ScenarioGenerator._predict_quantiles", "pyforecaster/forecaster.py:ScenarioGenerator.fit", "pyforecaster/forecasting_models/benchmarks.py:Persistent", "pyforecaster/forecasting_models/benchmarks.py:SeasonalPersistent"]}
{"id": "C204", "title": "Scores follow the unit of the data", "statement": "rmse, quantile scores and crps are multiplied by the factor when data and forecasts are, reliability does not change, none of them changes with an offset, and the relative scores mape and nmae do not depend on the unit.", "quantifier": "every factor, offset, frame with missing values, levels and grouping", "why_tests_cant": "a statement relating the scores of all rescalings of all frames", "anchors": ["pyforecaster/metrics.py:rmse", "pyforecaster/metrics.py:quantile_scores", "pyforecaster/metrics.py:crps", "pyforecaster/metrics.py:reliability", "pyforecaster/metrics.py:mape", "pyforecaster/metrics.py:nmae"]}
{"id": "C205", "title": "Fourier_es and FK give one forecast per observation, from the past only", "statement": "For every call, Fourier_es and FK return one row of n_sa values per observation, row k being the same whatever comes after observation k; each row of FK is a periodic signal plus the smoothed last error, fading quadratically along the horizon.", "quantifier": "every parameters, stored state, series, cut of the series, in fit and in predict", "why_tests_cant": "ranges over all continuations of all series", "anchors": ["pyforecaster/forecasting_models/fast_adaptive_models.py:Fourier_es.run", "pyforecaster/forecasting_models/fast_adaptive_models.py:FK.run", "pyforecaster/forecasting_models/fast_adaptive_models.py:update_predictions"]}
{"id": "C206", "title": "Fourier_es and FK do not depend on the unit", "statement": "Multiplying all data given to Fourier_es or FK by a factor multiplies their forecasts by the factor, from the first fit on.", "quantifier": "every factor, parameters, state and series", "why_tests_cant": "a statement relating the runs on all rescalings of all series", "anchors": ["pyforecaster/forecasting_models/fast_adaptive_models.py:Fourier_es.run", "pyforecaster/forecasting_models/fast_adaptive_models.py:FK.run", "pyforecaster/utilities.py:kalman"]}
{"id": "C207", "title": "Fourier_es and FK follow an offset of the data", "statement": "Adding a constant to all data given to Fourier_es or FK adds it to their forecasts.", "quantifier": "every offset, parameters, state and series", "why_tests_cant": "a statement relating the runs on all translations of all series", "anchors": ["pyforecaster/forecasting_models/fast_adaptive_models.py:Fourier_es.run", "pyforecaster/forecasting_models/fast_adaptive_models.py:FK.run", "pyforecaster/utilities.py:kalman"]}
{"id": "C208", "title": "The loss of a deterministic network is least at the mean", "statement": "The loss a network without a distribution is trained with is never negative, is zero exactly when the predictions equal the targets, and among constant forecasts is least exactly at the mean of the targets.", "quantifier": "every column of targets and all predictions of its length", "why_tests_cant": "a test compares the loss at a few points", "anchors": ["base_nn.py:loss_fn"]}
{"id": "C209", "title": "A convex network computes the recursion of its stored parameters", "statement": "The prediction of a trained input-convex network is the value of the documented recursion: features start at the inputs and latent values at one, each layer adds the latent values gated by 'wzu' through 'wz', the controls gated by 'wyu' through 'wy' and the features through 'wuz', and the last layer is not activated. Nothing else in the parameter dictionary or in the object enters.", "quantifier": "all parameter dictionaries with a layer entry each, all inputs, controls, activations, sizes and numbers of layers", "why_tests_cant": "a test evaluates one network at a few points", "anchors": ["ICNN.py:PICNN_module", "layers.py:PICNNLayer", "ICNN.py:PICNN.predict"]}
{"id": "C210", "title": "Scenario options can be searched and copied for every forecaster", "statement": "Every forecaster can be searched over, and copied with, the options common to all forecasters: quantile levels, validation share, tree nodes, and the seed and row limit of the scenario generator.", "quantifier": "every forecaster class, every choice of options, every forecaster a user can hold", "why_tests_cant": "ranges over all classes, option sets and histories", "anchors": ["pyforecaster/forecaster.py:ScenarioGenerator.get_params", "pyforecaster/trainer.py:hyperpar_optimizer"]}
{"id": "C211", "title": "The scenario tree does not depend on origin or unit of the data", "statement": "Adding a constant to a variable, or expressing it in another unit, leaves number, probabilities and links of the scenarios in the tree as they were and changes the values in its nodes accordingly.", "quantifier": "all scenarios, node counts, tolerances, offsets and factors", "why_tests_cant": "needs all data and all merges of a greedy loop of unbounded length", "anchors": ["pyforecaster/scenred.py:scenred", "pyforecaster/scenred.py:get_dist"]}
{"id": "C212", "title": "Reconciliation does not depend on the unit and follows offsets", "statement": "Data in another unit give the same reconciliation weights and the reconciled forecasts in that unit; a constant bias of the base forecasts does not change the weights; an offset of the forecasts comes back in the reconciled ones exactly if the offset sums up along the hierarchy.", "quantifier": "all hierarchies, error samples, forecasts, factors and offsets", "why_tests_cant": "needs all real data and all hierarchies", "anchors": ["pyforecaster/reconciliation/reconciliation.py:HierarchicalReconciliation.fit_reconciliation", "pyforecaster/reconciliation/reconciliation.py:HierarchicalReconciliation.reconcile"]}
{"id": "C213", "title": "Scenarios follow the unit and the origin of the data", "statement": "If the errors of the steps are multiplied by factors of the same sign and moved by offsets, the copula that is fitted stays the same; and if the data (errors, predicted quantiles, initial observations) are expressed in another unit or with another origin, the sampled scenarios of the same seed are those of the original data in the new unit.", "quantifier": "all errors, hours, factors, offsets, quantiles, levels, seeds, samplers that depend on the matrix only, noise", "why_tests_cant": "a test uses one data set in one unit; absolute constants in the noise show only when the data are very small, and the shrinkage mixes the variances of all steps", "anchors": ["pyforecaster/copula.py:HourlyGaussianCopula.fit", "pyforecaster/scenarios_generator.py:ScenGen.sample_scenarios", "pyforecaster/scenarios_generator.py:interp_scens"]}
{"id": "C214", "title": "Initial trees share out the scenarios", "statement": "When a tree is initialised by quantiles, the scenarios of a node are shared out among its children by the quantiles of the next step: every scenario is kept in exactly one node of each step, and the values of the children of a node are in increasing order.", "quantifier": "all trees, numbers of steps, numbers of children, scenarios (ties included)", "why_tests_cant": "a test checks the values of one small tree; losing or doubling a scenario at a cell boundary depends on ties and on rounding of the boundaries, for every node of every depth", "anchors": ["pyforecaster/tree_builders.py:ScenarioTree.init_vals"]}
{"id": "C215", "title": "Fitted trees are not worse than initial ones", "statement": "The loss of a scenario tree is the sum over the scenarios of the mean squared distance to the nearest path; it is zero iff every scenario is a path of the tree. Fitting a differentiable tree with the default learning rate returns a tree whose loss is not above that of the initial tree.", "quantifier": "all tree shapes, node values, scenarios, numbers of iterations and evaluation steps, all ways of sharing derivatives at ties", "why_tests_cant": "a test runs one small set of scenarios; whether gradient steps overshoot depends on the ratio of scenarios to steps, for every tree", "anchors": ["pyforecaster/tree_builders.py:ScenarioTree.metric_loss", "pyforecaster/tree_builders.py:ScenarioTree.compute_distances", "pyforecaster/tree_builders.py:DiffTree.gen_tree"]}
{"id": "C216", "title": "The smooth loss of a tree is between nearest and average distances", "statement": "The smooth loss of a scenario tree is at least the sum of the distances of the scenarios to their nearest paths and at most the sum of their mean distances to all paths, and it is zero for a tree that contains every scenario.", "quantifier": "all tree shapes, node values, scenarios, numbers of steps and paths", "why_tests_cant": "a test compares a few numbers; the bounds rest on the order of the weights for all distances", "anchors": ["pyforecaster/tree_builders.py:metric_loss", "pyforecaster/tree_builders.py:ScenarioTree.compute_distances"]}
{"id": "C217", "title": "Nodes per step of a tree", "statement": "The numbers of nodes per time read off a tree have one entry for each step, entry t is the number of nodes at step t, they sum to the number of nodes, and for a tree built from given numbers of nodes they are these numbers.", "quantifier": "all rooted trees, all specifications of nodes per step", "why_tests_cant": "a test counts the nodes of one tree; that no step is skipped follows from the shape of every tree", "anchors": ["pyforecaster/scenred.py:get_nodes_per_time_from_tree", "pyforecaster/tree_builders.py:ScenarioTree.gen_init_tree"]}
{"id": "C218", "title": "Reconciliation checks the series it is given", "statement": "Data for reconciliation are accepted only if they contain exactly the series of the hierarchy; the base forecasts then have one column for each of them.", "quantifier": "all hierarchies, all frames in global form", "why_tests_cant": "a test passes complete data; missing leaves and foreign series are accepted for every hierarchy", "anchors": ["pyforecaster/reconciliation/reconciliation.py:HierarchicalReconciliation.check_x", "pyforecaster/reconciliation/reconciliation.py:HierarchicalReconciliation.get_predictions"]}
{"id": "C219", "title": "New convex networks are convex", "statement": "An input-convex network is convex in its control inputs as soon as it is created, before any training, for every seed; with a non-negative recurrent activation it is also monotone.", "quantifier": "all random draws, layer sizes, numbers of layers, inputs", "why_tests_cant": "a test draws one seed; one negative weight in one layer for one seed breaks convexity", "anchors": ["pyforecaster/forecasting_models/neural_models/neural_utils.py:positive_lecun", "pyforecaster/forecasting_models/neural_models/layers.py:PICNNLayer"]}
