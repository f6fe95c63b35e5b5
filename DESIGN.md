# Formal model of pyforecaster in Coq 8.16

## Layout

* `rocq/theories/Model/` - executable Gallina models of the python functions. Every definition cites file and lines in `/repo`.
* `rocq/theories/Spec/` - small independent specifications, written without reference to the model's helpers.
* `rocq/theories/Proof/` - lemmas and proofs.
* `rocq/theories/Properties/` - one file per area with nothing but the property theorems (`exact lemma`), `Print Assumptions`, and satisfiability examples.

Conventions: real-valued data are exact reals (`R`), i.e. floating point rounding is not modelled; `NaN` is `None`;
timestamps and offsets are integers (`Z`, nanoseconds or sampling steps); exceptions are values; external code
(random generators, learners, FFT, `eval`) is a universally quantified function or list in the theorem statement.
A property that the code violates is stated in full and refuted by a theorem with suffix `_refuted`; the part that does
hold is proved next to it.

## Trusted base

* The Coq 8.16.1 kernel (`coqc`), which checks every proof of `rocq/theories`. No kernel check is switched off, there are no plugins, no axioms of our own, no `Admitted`.
* The axioms of the standard library listed below by `Print Assumptions` (real numbers and their logic: `ClassicalDedekindReals.sig_forall_dec`, `sig_not_dec`, `FunctionalExtensionality.functional_extensionality_dep`, and `Classical_Prop.classic` where lemmas of the standard library use it). mathcomp, Flocq and Coquelicot add none.
* The reading of the python code: the model files are a transcription by hand, with file and line citations. What they leave out is listed under "What is modelled".
* Hypotheses of the theorems about external code (contracts of numpy's generator, of optuna, of scikit-learn scalers, of the error function...) are visible in each statement, never axioms.


## Plan per property

* **C01 Feature columns never look outside their lag/aggregation window.** Signal = list of (option R); shift and rolling modelled as pandas does them; aggregation function universally quantified. Non-interference + closed form, by case analysis on indices.
* **C02 Declared feature time windows are right.** Metadata formulas over Z (nanoseconds); theorem relates them to the index window of C01.
* **C03 Nested aggregation bins: metadata labels the column it sits next to.** Column-name and metadata lists generated in code order; equality theorem for one function and one lag, refutation otherwise.
* **C04 A transformer is a function of the data it is given.** Transformer object state = agg_freq field; refutation by a two-call history, positive theorem for equal sampling times.
* **C05 transform returns aligned, complete rows.** Frame = rows of (features, targets) options; two-stage mask modelled; equality with a filter.
* **C06 Cross-validation folds separate training from test.** Times in Z ns, linspace split as rational floor; order reasoning.
* **C07 Cross-validation tests cover everything, the promised number of times.** Same model; induction on the shift times.
* **C08 Step-ahead pruning keeps exactly the relevant features.** Boolean mask per metadata row; specification over Z.modulo; keep_last_seconds refutation.
* **C09 Target normalisation round trip.** Normalisers as pointwise functions applied per unique target; iteration lemma.
* **C10 Normaliser registry has unique names.** Fold over a list of registration calls; invariant NoDup.
* **C11 Time features are stable between fit and predict.** State machine with option bool flag; invariant over histories.
* **C12 Holiday coding priority.** Sequential overwrites modelled; case analysis.
* **C13 Frequency strings are normalised once and for all.** Strings as list of ascii; six sequential replacements; induction on the string.
* **C14 Feature names identify time offsets.** Decimal printing with padding modelled; read-back function as the spec.
* **C15 Global form is a faithful re-arrangement.** Long-form table as list; Permutation.
* **C16 Scenario-generation subsampling is exact.** Random draws are oracle lists; allocation loops with fuel; termination and exactness.
* **C17 Train/validation split is a chronological partition.** firstn/skipn with real floor.
* **C18 Empirical error quantiles are ordered and within the observed errors.** np.quantile linear interpolation on a sorted list over R.
* **C19 Predicted quantiles do not cross and are a shift of the error distribution.** Map over rows/steps/levels; hour lookup.
* **C20 Quantile array <-> frame round trip.** 3-d arrays as nested lists; reshape/swapaxes modelled on flat lists.
* **C21 Predictive mass function is a (sub-)probability.** Histogram with half-open bins, last closed; counting.
* **C22 Categorical encoding is stable and invertible.** Encoder state = option (assoc of sorted uniques); history invariant.
* **C23 Estimator parameters round trip.** Association list model.
* **C24 Scenario interpolation respects the quantile function.** Piecewise linear interpolation over R.
* **C25 Scenario reduction conserves probability.** scenred inner and outer loop modelled on matrices as functions/lists over R; invariant.
* **C26 Scenario reduction yields a tree.** Same model.
* **C27 The network built from reduced scenarios is a rooted tree with consistent probabilities.** Graph building loop over time; invariant over added nodes.
* **C28 Superimposing a forecast shifts every node by its step value and leaves the stored tree untouched.** Heap-free functional model with explicit copy vs alias.
* **C29 Quantile trees have consistent probabilities.** Level lists and descendant counting.
* **C30 Pinball score is proper and nonnegative.** R; convexity of the pinball and optimality of order statistics.
* **C31 Reliability lies in [0,1] and counts exceedances.** Counting.
* **C32 Point scores behave like distances.** R; axis choice by shapes.
* **C33 Reconciled forecasts are coherent.** mathcomp matrices over any field; block matrices.
* **C34 Reconciliation leaves coherent forecasts alone.** Same.
* **C35 Summation matrix matches the hierarchy.** Hierarchy as rose tree of strings; unroll recursion.
* **C36 Chunking loses nothing.** nat/Z floor arithmetic of linspace.
* **C37 Parallel map equals sequential map.** map/concat.
* **C38 Memory reduction never changes integers.** Z with wrap-around casts.
* **C39 Holt-Winters state makes fitting chunk-invariant.** run as a fold with rings of seasonal states; append law.
* **C40 Holt-Winters survives missing observations.** NaN as None; refutation.
* **C41 Holt-Winters multi covers each step exactly once.** first-covering-model selection.
* **C42 Seasonal values within constraints, windows aligned.** Lists.
* **C43 Rolling memory of stateful forecasters.** Lists; append law.
* **C44 Predicting does not change a fitted stateful model.** State machines with oracle transforms.
* **C45 Expert combination stays inside the experts' hull.** Convex combination over R.
* **C46 Kalman covariance update.** mathcomp matrices; scalar refutation.
* **C47 Persistence benchmark.** Lists; off-by-one refutation.
* **C48 Discrete distribution benchmark is a probability.** Counting over R.
* **C49 Refitting replaces the old model.** fit as state transformer on a list of models; refutations.
* **C50 Hybrid models cover every step once.** Index arithmetic.
* **C51 Boosting decomposition.** Fold with oracle learners.
* **C52 Weight projection keeps convexity constraints.** Weight tree as inductive; invariant over histories.
* **C53 Partially input-convex networks are convex in the controls.** Vectors as lists over R; induction over layers.
* **C54 Invertible activations.** Real analysis with ln/exp.
* **C55 Causal invertible network is causal and invertible.** Lower triangular matrices as lists; forward substitution.
* **C56 Mini-batches visit each row at most once per epoch.** Slices of a permutation.
* **C57 Early stopping returns the best parameters.** State machine of losses; refutation.
* **C58 LSTM windows are aligned with targets.** Index arithmetic.
* **C59 Gaussian copula sampling has the requested shape.** Shape algebra of squeeze/expand/swapaxes.
* **C60 Hyper-parameter search returns the best trial.** argmin over lists.
* **C61 Multi-index conversion keeps every entry.** Flat index arithmetic.
* **C62 Save/load of neural forecasters keeps behaviour.** Field sets saved; refutation.
* **C63 Neural gas refinement yields a valid tree.** Averages.
* **C64 Retrieving scenarios from a tree.** Trees.

* **C65 Simulated transforms announce the real metadata.** A second model of the simulated path; equality with the metadata of the real one by the same closed forms.
* **C66 Threaded and serial transforms agree.** Both paths over the same transformer list; induction on it.
* **C67 Time limits are the extremes of all features.** Minimum and maximum over metadata lists.
* **C68 Every cross-validation fold can be trained on.** Model of C06; explicit empty training set.
* **C69 Subsampling keeps every hour represented.** Model of C16; witness draw.
* **C70 Fitting and predicting leave the caller's data alone.** Encoder model returns the caller's frame too.
* **C71 Training uses the parameters the estimator reports.** Estimator as two dictionaries (attributes, frozen copies).
* **C72 A copy built from get_params is configured like the original.** Same model.
* **C73 Scenarios can be generated from the frame predict_quantiles returns.** Column-level model of the two layouts.
* **C74 predict_scenarios works with every generator option.** Shape algebra with the additional node.
* **C75 Initial tree values lie in the range of their own step.** Model of init_vals with interpolation from C24.
* **C76 A node schedule is used as given.** Heap-free model returning the caller's array after the call.
* **C77 Neural gas pulls the nearest scenario hardest and stops when converged.** One update step and the loop with fuel.
* **C78 Gradient refinement reduces its learning rate and returns the refined scenarios.** Loop with an arbitrary gradient oracle.
* **C79 Reconciled forecasts are the nearest coherent ones.** mathcomp matrices over a real field; normal equations.
* **C80 Hierarchy levels are distances from the top.** Breadth-first exploration of a hierarchy dictionary.
* **C81 Each step ahead is reconciled with its own weights.** Fit loop as a fold that overwrites the weights.
* **C82 Scenario errors come from the hour of the forecast.** Row selection by a mask of another frame.
* **C83 Every documented reconciliation method works.** Label alignment of the two operands.
* **C84 Memory reduction never increases memory nor touches the caller's data.** Integer widths; caller's frame as part of the result.
* **C85 Memory reduction of floats is harmless.** Flocq binary32 rounding.
* **C86 An exactly seasonal series is forecast exactly.** Invariant of the recursion of C39.
* **C87 Random search returns the best trial.** Fold over trials with shared mutable arguments.
* **C88 Prediction continues the fitted recursion, refitting restarts it.** Model of C39 with state.
* **C89 The Fourier basis is orthonormal.** Trigonometric sums over R.
* **C90 Fourier smoothing converges to the signal.** Geometric convergence of the recursion over R.
* **C91 The better expert gets more weight.** Softmax-like weights over R.
* **C92 Exact experts give numbers.** NaN as None.
* **C93 Unseen times of day are not predicted as zero.** Frequency table.
* **C94 Energy-aware training is kept.** State machine of the fit.
* **C95 Random forest prediction shapes.** Shape algebra.
* **C96 Random forest quantile arrays match the frame.** Flat index arithmetic.
* **C97 Quasi-convex networks and positive deviations.** Network of C53 with heads; explicit counterexample networks.
* **C98 Each supported activation is inverted by the invertible layer.** Real analysis.
* **C99 A perfect end-to-end invertible forecaster forecasts the target.** Network of C55 with a predictor oracle.
* **C100 A stateful forecaster can be copied and pickled.** Object as attribute dictionary; unpickling starts from an empty one.
* **C101 Optimising the controls leaves the other inputs alone.** One-row frames as association lists; scaling and its inverse.
* **C102 The optimised controls improve the objective, and its value is reported.** Loop with an arbitrary update and objective; induction on rounds.
* **C103 Probabilistic networks report the deviation of the target and ordered quantiles.** Formulas over R with an increasing odd function for erfinv.
* **C104 Structured networks have ordered quantiles of the objective.** Same; log-normal parameters over R.
* **C105 The recurrent forecaster uses the most recent observation.** Model of C58; non-interference.
* **C106 Quantile forecasts cover the calibration rows.** Composition of the models of C16, C18 and C19 with the learner as an argument; the residuals of the calibration rows are the pooled errors shifted by their quantile, then C18.
* **C107 Trees can be pre-computed on every data set.** Same model; success exactly when every hour is present; a 48-row witness loses an hour by subsampling.
* **C108 The copula uses correlation matrices.** Sample covariances over R; Gram matrices, Cauchy-Schwarz; the shrunk estimate is computed on a family of two-row tables.
* **C109 Scenarios can be sampled for every hour of the training data.** Same model with entries that may fail to be numbers.
* **C110 A random state makes scenarios reproducible.** Composition of the copula, interpolation and noise models; the noise is an argument.
* **C111 Rows get their own draws.** scipy's sampler is an arbitrary function of seed, covariance and shape.
* **C112 The graphical lasso is tuned on the most frequent hour.** Model of value_counts and argmax; induction on the insertion.
* **C113 Default node counts give a valid tree.** Powers of two indexed by a reversed nondecreasing list; multiples by subtraction of exponents; empty schedule refuted below eight scenarios.
* **C114 Each hour has the tree of its own scenarios.** Trees per hour with the builder and the refinement as parameters; shapes compared.
* **C115 predict_trees returns a list with one tree per row.** Case analysis on the number of rows.
* **C116 Parallel tree prediction equals the serial one.** Instance of the order-independence theorem of the parallel helper; refuted without workers.
* **C117 Refining a tree never moves it away from the samples.** Invariant of the candidate loop (distance decreases, length fixed); median from strict quantile coverage.
* **C118 Each series is forecast by the model of its level.** Dictionaries as association lists, training and prediction as parameters; a collision of keys refutes it.
* **C119 Reconciled scenarios are coherent.** Coherent rows are closed under sum and difference; rows are drawn whole.
* **C120 Vanilla scenarios are base forecasts plus their errors.** The scenarios are computed and compared with the documented ones.
* **C121 Minimum-trace weights exist for every data set.** Gram matrices over any real field plus a multiple of the identity; inverse of a positive definite matrix; zero covariance for constant errors.
* **C122 Quantiles of reconciled forecasts.** Composition of C82 with the quantile lemmas of C18.
* **C123 Rolling forecasts never use later observations.** The results object is an abstract state with arbitrary forecast/append/apply; induction over the rows.
* **C124 Column t+k of a row forecasts the time k steps after the row.** A clairvoyant library (contract on clock and forecasts) and exact computation of rows and residuals.
* **C125 The bootstrap summarises the requested number of resamples.** Closed form of the sample sizes arange(100, n, 500); mean and std characterised by their equations.
* **C126 A resample has the size of the series and draws its values with replacement.** Label lookup with and without repeated labels.
* **C127 Masked cells do not influence the scores.** Masked frames reduced to the group cells kept by the mask, on top of C32; extensionality of the scores.
* **C128 Continuous grouping variables are cut into balanced classes, each column for itself.** Exact count of a tie-free sample below its quantiles; pigeonhole for merged integer columns.
* **C129 Scaled inputs have mean zero and unit variance and can be scaled back.** The scaler on lists of reals; total of affine images and of squares.
* **C130 Held-out rows do not influence the trained model.** Fitting as a function of the rows with an arbitrary learner; two runs compared. For the scaled forecasters equality of the scaled rows forces equal means, hence equal held-out values.
* **C131 Random features are drawn once, and each boosting stage helps.** Weights as options filled by arbitrary generators; induction over the stages of the boosting.
* **C132 Normalised targets are scaled back from the frame passed to predict.** Frames as lists of named or numbered columns; selection of missing names raises.
* **C133 Orthogonal random features are orthogonal.** Entries of the matrix by block and position; inner products with an orthogonal matrix scaled by rows.
* **C134 Quantile forecasts of the smoothing models cover the training rows.** Error quantiles per step as order statistics of the residual table; the recursion on a constant series has a fixed point.
* **C135 Saved states can be restored.** Attributes as options; case analysis.
* **C136 The tuning score compares each forecast with the values it forecasts.** Windows of the test part by position; the mean as a double sum.
* **C137 Tuned parameters lie within their limits and have the best score.** Affine image of draws in [0, 1); first minimum, and first NaN, of a list.
* **C138 Trial ranks order the trials.** Dense ranks as numbers of distinct smaller values; pigeonhole for the order, predecessor for the absence of gaps.
* **C139 The most important frequencies are those of the signal.** The discrete Fourier transform with the orthogonality relations of C89; the sort is any order by decreasing magnitude.
* **C140 The likelihood loss is least at the mean and variance of the data.** Bias-variance decomposition of a sum of squares, then ln x <= x - 1 with equality at one only.
* **C141 The likelihood loss of a network is always a number.** The softplus is positive; one NaN makes a mean NaN.
* **C142 The ranked probability score grows with the error.** The derivative of the score in the standardised error is 2 cdf - 1 (mean value theorem, symmetry of the distribution function from its derivative); the distribution function is any function with the contract, shown to exist as an integral.
* **C143 Log-normal networks predict the quantiles of the distribution they are trained on.** C140 for the logarithms; closed form of the predicted median.
* **C144 The order penalty rewards forecasts that rank the objectives correctly.** Sorting permutations of distinct values are unique; the correlation of two permutations as one minus a sum of squared differences.
* **C145 The embedding penalty is least for standardised embeddings.** ln x <= x - 1, column by column.
* **C146 Declared causes are enforced in training.** A mean of non-negative numbers is zero iff all are; keyword arguments compared with signatures.
* **C147 A network is trained with the requested score and distribution.** Case analysis of set_arch with signatures and defaults.
* **C148 Bins without nesting hold the requested windows.** The forward windows, the reducer and the shift on the reduced frame (Model/FlatBins.v); the set of kept rows is computed for complete series and for series with one gap, cells follow from a lemma on double shifts of a reduced column; the recent rows are shown to be missing for every series.
* **C149 Metadata of bins without nesting.** The three products that build the metadata; equality with the requested entries for one lag by a combine/flat_map lemma, two lags by computation with symbolic lags.
* **C150 Features can be renamed relative to the prediction time.** The lookup of the columns the transformers write; universal failure, plus what holds when the column exists.
* **C151 The predictors of a multi-predictor model look back over different histories.** FkConfig.v: keyword dictionaries and integer grid; monotonicity of floor division; witness with a colliding floor.
* **C152 The predictors use the requested periodicity.** FkConfig.v: lemmas on dict.update; the copy has no entry for the periodicity.
* **C153 Parameters given for the predictors are used.** FkConfig.v: equality of the built predictors under a change of the ignored arguments.
* **C154 Each horizon of a multi-horizon model has the parameters and constraints declared for it.** FkConfig.v: fields of the models built by HoltWintersMulti.
* **C155 Every horizon can be forecast.** FkConfig.v: python slices with negative bounds; refinement to the closed formula of FourierEs.v, emptiness of the slice otherwise.
* **C156 A reconfigured forecaster can be run again.** FkConfig.v: invariant on the row lengths of the record through any run.
* **C157 A forecaster that tunes itself tunes at each fit.** FkConfig.v: parameters and attributes as dictionaries through two fits.
* **C158 After fitting, the seasonal benchmark continues from the end of its data.** BenchFit.v: positions of the stored season in the frame, with and without validation rows.
* **C159 The errors of the persistence benchmarks come from earlier values.** BenchFit.v: closed formula of every error entry for every kept row.
* **C160 Capping the rows after the fit only selects errors.** BenchFit.v: rows kept as a list of positions; witness where two kept rows are not consecutive.
* **C161 A feed-forward network has as many outputs as asked.** FeedForward.v: lengths of the outputs from the sizes of the layers and of the shortcut.
* **C162 Split heads are independent.** FeedForward.v: two parameter sets that agree on the shared layers and on one head.
* **C163 Persistent inputs and skip connections are added to the outputs.** FeedForward.v: the network with a selector against the one without.
* **C164 An untrained last layer gives persistence.** FeedForward.v with Scaling.v: the forecast of a zero last layer through both scalers.
* **C165 Quantile forecasts of the networks accept frames.** FeedForward.v: which data each call accepts, by class and option.
* **C166 The invertible forecaster is trained on the targets.** Embedding.v: loss of a batch; training as an arbitrary function of the loss.
* **C167 The loss of the quasi end-to-end mode is a number.** Embedding.v: the denominator is zero exactly for constant rows.
* **C168 n_hidden_y sets the width of the predictor.** Embedding.v: attributes as a dictionary through the constructor and set_params.
* **C169 Options of scenario generation take effect.** ScenConfig.v: keyword arguments as association lists through the constructors.
* **C170 Pre-computed trees are those of the last fit.** ScenConfig.v: invariant of the trees through any sequence of fits and settings.
* **C171 The node schedule passed to predict_trees is used or refused.** ScenConfig.v: which argument reaches the generation of a tree.
* **C172 Every copula that can be chosen generates scenarios.** ScenConfig.v: sampling by copula type.
* **C173 Any widths give a network with one forecast per target.** The lengths of all vectors of PICNNLayer and of the modules are computed from the options (element-wise operations broadcast or raise); induction over the layers.
* **C174 Forecasts respect z_min and z_max.** The last layer's sigmoid on reals, followed by the target scaler; lengths of bounds by the model of C173.
* **C175 The options of a convex network take effect.** The module that every set_arch builds is a function of the settings; the length model shows which options raise, equality of modules which are ignored.
* **C176 Embedded controls come back with their own length.** The length model for encoder, decoder and predictor.
* **C177 A tuned hyper-parameter is the one the model is trained with.** Attributes and the dictionary of learner parameters as association lists; lookup after set_params, for all dictionaries; refutations are equalities of the learners' dictionaries.
* **C178 Weights of the observations are used in training.** fit over abstract learners; the split of train_val_split; refutations by a length argument.
* **C179 Options of a forecast of a tree model are accepted and consistent with training.** A boolean model of the calls with keywords, characterised by an equivalence; columns by the pruning model.
* **C180 The training set of the global model has the requested size.** Floor of a real product; bounds by real inequalities, draws as an arbitrary function below the number of rows.
* **C181 The energy-aware forecast accumulates the effect of control.** The loop as recursion on the steps with the list of unbalances; induction generalised over the list.
* **C182 Optimising in the latent space optimises the controls.** The loop with the multiplier threaded; equal to the plain loop of C101/C102 because the multiplier stays zero (function extensionality), whose theorems then apply; a one-dimensional network refutes the general claim.
* **C183 The history of the optimisation is the path of the optimiser.** Invariant of the rounds: entry 10 i + j is the embedding after j updates from the start of round i.
* **C184 Columns of a frame reach the inputs of the network they were trained for.** Frames of one row as lists of named values, the scaler by the names of its training and the check of names of scikit-learn (stated in the model); list reasoning, a swap of any two neighbouring unnormalised columns refutes.
* **C185 Controls of a convex network are found by name.** The same model with the selection by name; the frame without controls is given by an inductive relation.
* **C186 The invertible forecaster aligns its frames.** Reordering as concatenation of picked and remaining columns; the index of the inverse is computed.
* **C187 The feed-forward network composes its layers.** Induction over the layers; the specification has its own weighted sums and positive parts.
* **C188 Quantile frames name the targets like point forecasts.** Labels are integers or texts; one constructor per family with its `target_cols` and its columns of `predict`; induction over the product of labels and levels; decimal numbers never start with the letter t.
* **C189 A tuning trial scores the model with the sampled parameters.** An estimator is its attributes and those it was built with; the copy is the constructor applied to what `get_params` reports; proved for every class description, every history of settings.
* **C190 A search without a search space works for every forecaster.** Table of the signatures of all forecasters (transcribed from the constructors), checked against the names of the spaces.
* **C191 Setting the controls of a convex network reconfigures it.** Direct, on a record of declared and derived attributes.
* **C192 get_scenarios draws errors of the hour of each row.** Positions of the rows of an hour are an injective numbering; the errors of an hour are a filtered list.
* **C193 The score of a level is the mean of the scores of its series.** The top has strictly more leaves than any other aggregate (sizes along paths), so C80 applies; the scores of a level are a filtered sum, equal to the sum over any duplicate-free list with the same members. Concrete counterexample for quantiles.
* **C194 Every fitted forecaster generates scenarios.** Composition: C19 for the quantiles, C109/C59 for the copula and C24 for the interpolation, after a fold over the history of fits; for the classes with a fit of their own an invariant of the fold: the copula is never fitted.
* **C195 A cap on the calibration rows is used or refused.** Case analysis on the classes, with C16 for the classes that subsample.
* **C196 The recurrent network has as many outputs as asked.** Model of the layer sizes and of the last dense layer; number proved, refuted for a list of sizes.
* **C197 The recurrent network forecasts each row by itself, within a fixed range.** Gate equations as a relation over layers, times and units; induction on times and layers; logistic and tanh bounds over R.
* **C198 The bidirectional forecaster merges history and other columns.** Model of the keras graph; additivity proved for every network, composed with the model of predict on frames.
* **C199 Re-initialising Holt-Winters forgets the past.** An exact symmetry of the recursion (an amount moved between level and season) kept by every step, so no number of runs removes it; a concrete counterexample for the forecasts.
* **C200 The random search of Holt-Winters picks the best trial.** Model of the scores of the trials with the states handed from one to the next; least score by induction on the trials, a counterexample with a drifting level.
* **C201 Holt-Winters does not depend on the unit.** Equivariance of one step by ring, then induction on the series and on the re-runs; constraints scaled.
* **C202 Holt-Winters follows an offset of the data.** The level absorbs the offset, by induction on the series; a universal counterexample for new forecasters.
* **C203 Quantile forecasts follow the unit, the offset and the sign of the data.** Sorting commutes with increasing maps and reverses under negation; interpolation is affine; lifted to tables, hours and frames by map laws.
* **C204 Scores follow the unit of the data.** Linearity of the grouped means; the added constants of mape and nmae refute the claim for every single forecast.
* **C205 Fourier_es and FK give one forecast per observation, from the past only.** Windows of a prefix are those of the series; induction on the rows, with the record of coefficients shown irrelevant.
* **C206 Fourier_es and FK do not depend on the unit.** Linearity of basis products, smoothing and filter; induction on the rows; FK over abstract operations with a contract, the filter's part proved over matrices.
* **C207 Fourier_es and FK follow an offset of the data.** The sum of a basis function over a window, from orthonormality, is 0 or sqrt m, so only the constant's coefficient moves; counterexample for new forecasters.
* **C208 The loss of a deterministic network is least at the mean.** The mean of the squared differences over a list; nonnegative terms sum to zero only if each is zero; bias and variance for the minimum.
* **C209 A convex network computes the recursion of its stored parameters.** The stored dense maps read by name; the fold over the layers gives the sequences of features and latent values of the specification; uniqueness by induction on the layer.
* **C210 Scenario options can be searched and copied for every forecaster.** Tables of the 28 signatures decided by computation, lifted to all sets of options; a copy keeps what the signature names and takes the default of the rest.
* **C211 The scenario tree does not depend on origin or unit of the data.** The normalised city-block distance of the code as functions of indices; bounded by the root of twice the number of scenarios per value; two reductions in lockstep whose distances differ by a common factor; for every change of unit two steps of four scenarios with a tolerance between the two relative costs.
* **C212 Reconciliation does not depend on the unit and follows offsets.** Matrices over an ordered field: centring absorbs a bias, a factor leaves the weights; reconciled rows are linear in the base forecasts, and coherent offsets are fixed points.
* **C213 Scenarios follow the unit and the origin of the data.** `CopulaFit.hour_cov`, `seeded_scenarios` and `ScenGen.interp1d` with rescaled errors and quantiles; covariances are bilinear, so the factors cancel in the correlations; the interpolation is affine in the values; the exact term by which the noise deviates is part of the statement, and the shrunk diagonal is unchanged iff all factors are equal (at the step with the largest factor the weighted sum of differences is negative otherwise).
* **C214 Initial trees share out the scenarios.** `TreeBuild.init_vals`: an invariant over the order in which nodes are processed says that every processed node is linked to the shares and values of its children (each node has one parent, so nothing is overwritten); quantiles are monotone in the level, level 0 is the minimum and level 1 the maximum, so the cells cover; by induction on the step no scenario is lost.
* **C215 Fitted trees are not worse than initial ones.** `TreeLoss.metric_loss` and its gradient with arbitrary shares at ties: the loss is below every weighted sum of distances and equal to the one of the current nearest paths, which is a quadratic in the node values, so a step changes it by an exact amount; the number of visits of a node is at most the number of scenarios. Without ties the nearest paths stay nearest under small changes, hence the derivative. For a path the quadratic is the loss, and the step overshoots.
* **C216 The smooth loss of a tree is between nearest and average distances.** `TreeLoss.soft_loss`: the weights are positive, sum to one and decrease with the distance; a weighted mean is at least the minimum, and Chebyshev's sum inequality bounds it by the plain mean.
* **C217 Nodes per step of a tree.** `TreeLoss.get_nodes_per_time_from_tree`: times of rooted trees are closed downwards (each node has a parent one step before), so no step is skipped; counts by position; the counts of quantile trees from C29.
* **C218 Reconciliation checks the series it is given.** `HierarchyCheck.check_x` against `Hierarchy.forecast_columns`: membership by cases; for every hierarchy with a leaf the frame of its aggregates is accepted, and further series are.
* **C219 New convex networks are convex.** `PicnnInit.positive_lecun` is an absolute value, so the sign conditions of C53 hold for every draw.

## What is modelled, file by file

| file | modelled | not modelled |
|---|---|---|
| formatter.py | Transformer (constructor, transform with nested and flat bins, simulate, lags, metadata), Formatter.transform (serial and threaded), row filter, normalisers, time features, holidays, time_kfcv, pruning, time limits, global form, renaming, hr_timedelta, frequency strings | plots, progress bars, cat_encoding (depends on how pandas assigns a Categorical to several columns), loading of holiday calendars (calendar data are arguments), normaliser expressions that are not row-wise |
| forecaster.py | encode_categorical, fit after training, subsampling, train/validation split, error distribution, quantiles, conversions array/frame and their labels, predictive mass function, parameters (get/set), scenario prediction, trees | LightGBM and linear learners (oracles), logging |
| scenarios_generator.py, copula.py, scenred.py, tree_builders.py | covariance estimation of the copula, tuning of the graphical lasso, seeding, sampling shapes, interpolation, distances of normalised scenarios, scenario reduction, network building, superimposition, quantile trees, the losses of trees and their gradient, nodes per step, neural gas and gradient loops, refinement, tree pre-computation and prediction | the graphical lasso and the eigen-decomposition of the normal sampler themselves, networkx drawing |
| metrics.py, stat_utils.py | rmse, mape, nmae, quantile scores, crps, reliability, scorer, summary scores with masks and classes, bootstrap | plotting |
| reconciliation.py | hierarchy matrix, levels, all reconciliation methods, covariance weights, check of the series, base forecasts by level, scenarios and quantiles | kpi tables |
| big_data_utils.py | chunking, parallel map, memory reduction of integers and floats | thread pool internals, progress bars |
| trainer.py, dictionaries.py | score key, cross validation, random fold, objective, copies made by cross-validation, search, default search spaces, ranks | optuna samplers and pruners |
| holtwinters.py | run, missing values, multi, parameters, random search, tuning, quantiles, saved states | numba compilation |
| fast_adaptive_models.py | basis, Fourier_es, FK, FK_multi state machines, expert weights, Kalman covariance, quantiles, pickling | parameters of the sub-models |
| benchmarks.py, randomforests.py, gradientboosters.py, random_fourier_features.py, statsmodels_wrapper.py | persistence, discrete distribution, hybrid models, their options, weights and training sets, energy-aware recursion, boosting, random features (draws kept, orthogonal draws), scaling, quantile shapes, rolling forecasts | tree learners, statsmodels (oracles), random draws (oracles) |
| neural_models/* | activations, feed-forward network with heads, shortcuts and scalers, invertible layers and their losses, input-convex layers, projection, losses and their keywords, training loop, LSTM samples and networks, saving, optimisation of controls, probabilistic heads, scaling of inputs | jax/flax/optax internals (gradients and updates are oracles) |
| utilities.py | Kalman filter, tensor/frame conversion, dominant frequencies | logger |
| outlier_detection.py, diagnostics.py, plot_utils.py | nothing | plotting, parameter tables and thin wrappers |

Numbers are exact: reals for float64 (rounding is not modelled, except for the float32 reduction, which uses Flocq), integers for timestamps. Frames are lists of named columns; row labels are assumed unique where pandas would refuse or duplicate, and the statements say so.

## What `Print Assumptions` lists

Generated from the compiled development. The axioms are all from the standard library (`Reals`, `Logic`). No theorem depends on an axiom of this development.

* closed under the global context: C01_bin_feature_values, C01_causality, C01_feature_values, C02_declared_windows, C02_declared_windows_bins, C02_declared_windows_refuted, C03_bin_metadata_partial, C03_bin_metadata_refuted, C04_history_refuted, C04_same_sampling_history_partial, C05_aligned_rows, C06_fold_separation, C06_target_leak_refuted, C07_folds_cover, C08_last_seconds_refuted, C08_pruned_features_partial, C08_pruned_frame, C08_tolerance_refuted, C09_applications, C09_normalised_once_refuted, C09_round_trip, C10_first_wins, C10_list_lags_refuted, C10_outcome, C10_unique_names, C11_stable_names, C11_total, C11_values, C12_day_codes, C13_freq_normalisation, C14_lag_names_injective, C14_lag_names_readable, C14_offsets_injective, C14_offsets_readable, C15_long_format, C15_reorder_consistent_partial, C15_reorder_permutes, C15_reorder_refuted, C16_index_mismatch, C16_subsample_exact, C16_unchanged, C17_no_split, C20_duplicate_levels_refuted, C20_round_trip_partial, C22_code_order, C22_code_range, C22_code_unique, C22_encoding_history, C22_encoding_never_changes, C23_params_round_trip, C33_coherent_partial, C33_labels_refuted, C33_positions, C34_projection, C34_twice, C34_unchanged, C35_cycle, C35_leaves, C36_any_cut_points, C36_partition, C37_arrays_lose_data_refuted, C37_missing_task_no_result, C37_pairs_in_order, C37_pieces_in_order, C37_slicewise_partial, C38_integers_unchanged, C41_any_order, C41_errors_single_model_partial, C41_errors_unfilled_refuted, C41_first_reaching_partial, C41_unsorted_refuted, C42_windows, C43_window_across_calls, C43_window_is_last_values, C46_covariance_valid, C46_gain_optimal, C46_reported_covariance_refuted, C46_reported_not_larger_partial, C47_persistent_repeats, C47_seasonal_causal, C47_seasonal_long_horizon_refuted, C47_seasonal_one_step_late_refuted, C47_seasonal_values_partial, C49_lgb_refit_refuted, C49_parallel_refit_partial, C49_serial_refit_refuted, C50_lgb_steps, C50_multi_step_training_rows, C50_single_beyond_horizon, C50_steps_covered, C52_names, C55_weights_layout, C56_each_row_once, C56_epoch_batches, C56_rows_left_out_refuted, C56_small_sample_refuted, C58_exact_network_exact_forecast, C58_only_past_rows, C58_predictions_aligned, C58_samples_aligned, C58_split_overlap_refuted, C60_random_fold_datetime_refuted, C60_random_fold_labels_refuted, C60_random_fold_masks, C60_random_fold_range_index_partial, C60_unknown_name_refused, C61_after_selection_refuted, C61_full_product_partial, C61_round_trip, C62_empirical_quantiles_refuted, C62_gaussian_quantiles_partial, C62_latent_depth_refuted, C62_latent_partial, C62_own_hour_partial, C62_point_forecasts, C64_paths, C65_chained_refuted, C65_simulation_partial, C66_chained_refuted, C66_threads_partial, C67_time_limits, C68_five_folds_partial, C68_short_history_partial, C68_two_folds_refuted, C69_kept_partial, C69_starved_hour_refuted, C70_caller_frame_refuted, C70_numeric_partial, C71_constructed_partial, C71_levels_partial, C71_levels_stale_refuted, C71_training_frozen_refuted, C71_training_stale_refuted, C72_copy_partial, C72_copy_refuted, C72_kept_partial, C72_reset_refuted, C76_kept_partial, C76_length_refuted, C79_nearest, C79_weights_exist, C80_from_top_partial, C80_levels_partial, C80_top_refuted, C81_last_step_refuted, C81_own_step_refuted, C81_proportional_partial, C82_no_scenarios_refuted, C82_other_length_refuted, C82_training_hours_partial, C83_bayes_refuted, C84_callers_frame_refuted, C84_extreme_values_grow_refuted, C84_never_larger_partial, C84_width, C87_serial_one_partial, C94_energy_models_partial, C94_energy_models_replaced_refuted, C95_mean_shape_partial, C95_quantile_shape_refuted, C96_one_target_partial, C96_quantiles_scrambled_refuted, C96_quantiles_wrong_refuted, C100_copy_refuted, C100_update_in_place, C105_history_only_refuted, C105_last_row_unused_refuted, C112_always_zero_refuted, C112_hour_partial, C112_hour_refuted, C113_default_schedule_partial, C113_few_refuted, C113_priority_partial, C114_own_partial, C114_scratch_partial, C114_shared_refuted, C115_list_partial, C115_single_refuted, C116_parallel_partial, C116_single_core_refuted, C118_name_refuted, C118_own_model_partial, C119_coherent, C119_returned, C120_errors_refuted, C120_own_errors_refuted, C120_unchanged_partial, C121_constant_errors_refuted, C121_weights_partial, C122_vanilla_refuted, C123_causal, C123_split, C124_exactly_partial, C124_first_row_refuted, C124_next_row_partial, C124_shifted_refuted, C126_duplicates_refuted, C126_size_partial, C126_values_partial, C132_others_partial, C132_rff_refuted, C135_one_state_partial, C135_reset_refuted, C135_round_trip_partial, C146_deterministic_refuted, C146_ignored_refuted, C146_probabilistic_partial, C147_ignored_refuted, C147_requested_partial, C148_gap_refuted, C148_recent_refuted, C148_values_partial, C149_lags_refuted, C149_one_lag_partial, C150_bypassed_partial, C150_fails_refuted, C150_renamed_partial, C157_arguments_partial, C157_first_fit_partial, C157_later_fits_refuted, C165_arrays_partial, C165_frames_partial, C165_recurrent_refuted, C165_unnormalised_refuted, C168_accepted_partial, C168_default_partial, C168_width_refuted, C169_classes_partial, C169_dictionary_refuted, C169_lstm_options_refuted, C169_lstm_refuted, C169_network_refuted, C169_options_partial, C169_truth_partial, C169_unknown_refuted, C170_failed_fit_refuted, C170_online_refuted, C170_prefit_partial, C171_online_partial, C171_prefitted_refuted, C172_conditional_refuted, C172_hourly_partial, C173_forecasts_partial, C173_quasi_partial, C173_quasi_refuted, C173_structured_partial, C173_wide_refuted, C174_min_alone_raises_refuted, C174_min_alone_refuted, C174_structured_refuted, C175_layer_norm_refuted, C175_set_params_refuted, C175_stable_refuted, C176_bounds_refuted, C176_default_widths_partial, C176_given_widths_partial, C176_lengths_partial, C176_probabilistic_refuted, C177_boosters_partial, C177_depth_refuted, C177_forests_partial, C177_tuned_refuted, C179_columns_partial, C179_options_partial, C179_options_refuted, C179_period_refuted, C179_quantiles_partial, C186_index_refuted, C186_unscaled_partial, C188_distinct_partial, C188_multi_adaptive_refuted, C188_multi_smoothing_refuted, C188_networks_refuted, C188_same_labels_partial, C188_wrapped_refuted, C189_frozen_refuted, C189_full_partial, C189_kept_partial, C189_lost_refuted, C189_networks_refuted, C189_random_fold_partial, C190_registered_partial, C190_unregistered_refuted, C191_constructed_partial, C191_stale_refuted, C192_conditional_refuted, C192_hour_partial, C192_turns_partial, C192_unseen, C193_order_refuted, C193_paired_refuted, C193_points_partial, C193_quantiles_partial, C195_ignored_refuted, C195_invalid, C195_refused_partial, C195_used_partial, C206_filter, C207_filter_partial, C210_adaptive_partial, C210_common_partial, C210_copies_refuted, C210_network_partial, C210_seed_refuted, C212_linear, C212_offset, C212_weights, C217_counts, C218_columns_partial, C218_leaves_refuted, C218_once, C218_strangers_refuted
* `ClassicalDedekindReals.sig_forall_dec`: C28_predicted_trees, C28_probabilities, C28_superimpose, C28_unseen_hour, C59_copula_partial, C59_single_scenario_refuted, C59_unseen_hour, C60_search_best_partial, C73_documented_layout, C73_own_frame_refuted, C124_residuals_refuted, C133_shape_partial, C181_causal_partial, C181_frame_refuted
* `ClassicalDedekindReals.sig_forall_dec`, `FunctionalExtensionality.functional_extensionality_dep`: C16_seed, C17_split_partition, C18_error_distribution, C18_quantile_bounds, C18_quantile_coverage, C18_quantile_definition, C18_quantile_monotone, C19_quantiles_partial, C19_unconditional_raises_refuted, C19_unconditional_refuted, C21_always_defined, C21_probability_mass, C24_all_steps, C24_interpolation, C24_level_order, C24_monotone, C24_scenarios, C24_tails_refuted, C24_within_range, C24_wrong_init, C25_probability, C26_counts, C26_exact_counts, C26_one_root, C26_tolerance, C26_tree, C27_any_tree, C27_equal_values_refuted, C27_needs_root, C27_network, C27_one_step_refuted, C27_same_start_refuted, C29_domain, C29_quantile_tree, C30_constant_optimal, C30_crps, C30_layout_refuted, C30_quantile_scores, C31_missing_refuted, C31_monotone, C31_reliability_partial, C32_mape, C32_mape_overall, C32_nmae, C32_nmae_overall, C39_after_missing_refuted, C39_causal_partial, C39_chunks_partial, C40_complete_series_partial, C40_missing_poisons_refuted, C42_residuals_aligned, C42_seasonal_values_within, C42_unchanged_inside, C42_within_after_a_period, C44_predict_leaves_no_trace_fk, C44_record_grows_refuted, C45_weights_probability, C48_expected_is_mean, C48_missing_times_zero_refuted, C48_probabilities, C48_probability_sum, C49_brutal_refit_refuted, C51_bins_valid, C51_boosting_decomposition, C51_brutal_decomposition, C51_empty_bin_refuted, C51_full_samples_numbers_partial, C52_idempotent, C52_invariant_of_training, C52_nonnegative, C52_only_constrained_weights_change, C52_succeeds, C53_relu_convex, C53_relu_nondecreasing, C54_leaky_undone, C56_oversized_batch_refuted, C57_early_stop_best_partial, C57_out_of_epochs_refuted, C57_patience_ignored_refuted, C60_named_score_is_mean, C60_random_fold_names_refuted, C60_random_fold_single, C60_score_is_mean, C63_positions, C74_additional_node_refuted, C74_without_node_partial, C75_initial_values_partial, C75_own_step_refuted, C78_descent_partial, C78_descent_refuted, C86_seasonal_series_exact, C87_parallel_best_partial, C87_serial_fails_refuted, C88_no_trend_partial, C88_refit_keeps_state_refuted, C88_trend_dropped_refuted, C88_trend_held_refuted, C93_unseen_time_zero_refuted, C98_leaky_other_slope_refuted, C101_frame_is_the_solution, C101_other_columns_kept, C102_few_iterations_refuted, C102_no_worse_partial, C102_result, C102_rounds, C102_stale_value_refuted, C102_value_one_update_late, C102_worse_than_start_refuted, C106_calibrated, C106_fit_succeeds, C107_prefit_partial, C107_starved_refuted, C117_median_best, C117_never_worse, C117_root, C122_quantiles_partial, C127_mape_partial, C127_quantiles_refuted, C128_balanced_partial, C128_column_partial, C128_small_integers_reached, C128_small_integers_refuted, C128_texts_refuted, C130_plain_partial, C133_columns_refuted, C133_rows_partial, C134_holt_winters_partial, C134_one_column_refuted, C134_ordered_partial, C134_stateful_partial, C134_wrapped_cover_partial, C134_wrapped_ordered_partial, C136_aligned_partial, C136_short_refuted, C137_best_found_partial, C137_best_partial, C137_nan_refuted, C137_within, C138_ranks, C146_loss_partial, C146_penalty_partial, C151_distinct_refuted, C151_histories_partial, C152_default_partial, C152_ignored_refuted, C153_as_given_partial, C153_given_partial, C153_given_tuning_partial, C153_ignored_refuted, C153_limits_partial, C153_singular_partial, C153_tuning_partial, C153_tuning_refuted, C154_constraints_refuted, C154_parameters_partial, C156_other_size_refuted, C156_same_size_partial, C158_stale_refuted, C158_whole_frame_partial, C159_persistent_partial, C159_validation_partial, C159_whole_frame_refuted, C160_persistent_partial, C160_seasonal_refuted, C160_smoothing_refuses_partial, C161_number_of_outputs_partial, C161_selector_refuted, C161_sizes_refuted, C162_heads_independent, C163_from_the_end_partial, C163_selector_partial, C163_skip_refuted, C167_several_targets_partial, C167_single_target_refuted, C178_default_refuted, C178_held_out_refuted, C178_reduction_refuted, C178_validation_rows_partial, C178_weights_partial, C180_draws_partial, C180_empty_refuted, C180_full_partial, C180_left_out_refuted, C180_monotone_partial, C180_rows_partial, C180_size_partial, C181_no_control_partial, C181_recursion_partial, C182_descends_partial, C182_frame_partial, C182_gap_refuted, C182_penalty_refuted, C182_total_partial, C182_value_partial, C182_written_partial, C183_history_partial, C183_short_refuted, C184_refused_partial, C184_stale_refuted, C184_swapped_refuted, C184_trained_partial, C185_controls_partial, C185_unscaled_refuted, C186_exogenous_partial, C186_order_refuted, C187_dense, C187_heads, C199_forecasts_partial, C199_forecasts_refuted, C199_state_refuted, C201_covariates, C201_fit, C201_forecasts, C202_constant_refuted, C202_fresh_refuted, C202_offset_partial, C203_factor, C203_offset, C203_persistence, C203_seasonal, C203_sign, C204_crps_offset_partial, C204_crps_partial, C204_mape_refuted, C204_nmae_refuted, C204_reliability_partial, C204_scores_offset_partial, C204_scores_partial, C205_fk_causal, C205_fk_row, C205_fk_rows, C206_fk, C208_exact, C208_mean, C209_unique, C214_cells, C214_covered, C214_once_partial, C214_once_refuted, C214_order, C215_default_partial, C215_default_refuted, C215_descends_partial, C215_gradient, C215_unit, C215_zero, C217_round_trip
* `ClassicalDedekindReals.sig_forall_dec`, `ClassicalDedekindReals.sig_not_dec`, `FunctionalExtensionality.functional_extensionality_dep`: C32_axis_refuted, C32_rmse, C32_rmse_overall, C32_scorer_partial, C32_scorer_square_refuted, C44_chunked_fit_partial, C44_chunked_fit_refuted, C44_predict_leaves_no_trace_fourier, C45_experts_hull, C45_scores_probability, C53_augmented_refuted, C53_convex_partial, C53_fitted_convex_partial, C77_pull_partial, C89_basis_orthonormal_partial, C89_basis_periodic, C89_half_window_refuted, C90_coefficients_converge, C90_forecasts_exact, C92_no_error_gives_nan_refuted, C92_numbers_partial, C97_bounded_output, C103_deviation_refuted, C103_deviation_unscaled_refuted, C103_order_by_sign_partial, C103_raw_order, C103_raw_values, C103_reported_deviation, C103_reported_deviation_unscaled, C103_reversed_refuted, C104_normal_order, C108_shrunk_partial, C108_shrunk_refuted, C108_vanilla, C109_constant_refuted, C109_varying_partial, C110_additional_length_partial, C110_additional_partial, C110_noise_partial, C110_reproducible_refuted, C111_same_draws_refuted, C111_same_hour_partial, C125_few_refuted, C125_last_ignored_refuted, C125_summary_partial, C127_masked_partial, C127_rmse_partial, C129_inverse, C129_monotone, C129_network, C129_round_trip, C129_standardised, C130_network_refuted, C130_network_scale_refuted, C130_scaled_refuted, C131_boosting, C131_bounded_features, C131_given_weights, C131_rows, C131_weights_kept, C139_shifted_refuted, C139_top_partial, C142_exact, C142_units, C144_best_partial, C144_flat_refuted, C144_reversed_refuted, C155_beyond_history_refuted, C155_ignored_period_refuted, C155_long_period_refuted, C155_within_history_partial, C164_centred_partial, C164_default_refuted, C174_max_alone_refuted, C174_units_refuted, C174_within_partial, C194_custom_fit_refuted, C194_last_fit_partial, C196_number_partial, C196_sizes_refuted, C197_bounded, C197_recurrence, C198_history_bounded_partial, C198_network_partial, C198_no_interaction_refuted, C200_first_missing_refuted, C200_least_partial, C200_missing_refuted, C200_score, C200_wrong_refuted, C204_rmse_offset_partial, C204_rmse_partial, C205_fourier_causal, C205_fourier_rows, C206_fourier, C206_fourier_fresh, C207_constant_refuted, C207_fresh_refuted, C207_offset_partial, C209_value, C211_origin, C211_tree, C211_unit_partial, C211_unit_refuted, C213_copula, C213_offset, C213_shrunk_refuted, C213_unit_partial, C213_unit_refuted, C216_zero_partial, C216_zero_refuted, C219_convex_partial, C219_scale
* `ClassicalDedekindReals.sig_forall_dec`, `ClassicalDedekindReals.sig_not_dec`, `Classical_Prop.classic`, `FunctionalExtensionality.functional_extensionality_dep`: C53_bounded_output_refuted, C53_fitted_monotone_partial, C53_monotone_partial, C54_invcondiff_clipped_refuted, C54_invcondiff_increasing, C54_invcondiff_undone_partial, C54_linloglin_flat_refuted, C54_linloglin_increasing_partial, C54_linloglin_nearly_undone, C54_linloglin_nondecreasing, C54_linloglin_undone_partial, C54_softplus_undone, C55_causal, C55_default_undone_partial, C55_identity_refuted, C55_leaky_undone_partial, C55_undone_partial, C63_refinement, C63_returned_values_refuted, C77_nearest_partial, C77_nearest_refuted, C77_tolerance_refuted, C77_two_leaves_partial, C85_again, C85_distinct_values_collapse_refuted, C85_floats_close_partial, C85_kept_exactly, C85_large_columns_unchanged, C91_flat_partial, C91_late_expert_preferred_refuted, C91_ranking_partial, C97_derivative_net_refuted, C97_sigma_positive, C97_sigmoid_net_refuted, C98_identity_refuted, C98_inverse_refuted, C98_softplus_collapse_refuted, C98_softplus_large_partial, C99_zero_full_loss_exact, C99_zero_quasi_loss_refuted, C104_lognormal_order, C104_mean_matched_partial, C104_median, C104_positive_head, C104_zero_deviation_refuted, C140_minimum, C140_rows, C141_convex_partial, C141_feed_forward_refuted, C142_increasing, C142_positive, C142_symmetric, C143_crps_mean_partial, C143_crps_partial, C143_crps_spread_partial, C143_fitted_partial, C143_likelihood_refuted, C143_negative_refuted, C145_embedding, C166_default_forecast_refuted, C166_default_loss_partial, C166_default_loss_refuted, C166_end_to_end_partial, C167_target_partial, C216_between, C219_monotone_partial

## Findings: where the code does not do what the property says

Each is a theorem with suffix `_refuted`; the notes are those of MANIFEST.json.

* **C02 Declared feature time windows are right** (C02_declared_windows_refuted). Holds on the stated inputs; refuted in general by C02_declared_windows_refuted (aggregation window not a multiple of the sampling time).
* **C03 Nested aggregation bins: metadata labels the column it sits next to** (C03_bin_metadata_refuted). The code mislabels metadata when two of (lags, functions, bins) have more than one entry; proved for the remaining case, refuted otherwise.
* **C04 A transformer is a function of the data it is given** (C04_history_refuted). Holds for histories with one sampling time; refuted in general: the aggregation length is frozen at first use.
* **C06 Cross-validation folds separate training from test** (C06_target_leak_refuted). The second theorem records that the dead-band ignores the target horizon.
* **C08 Step-ahead pruning keeps exactly the relevant features** (C08_last_seconds_refuted, C08_tolerance_refuted). Exact characterisation of what the code keeps; the documented tolerance and keep_last_seconds are refuted.
* **C09 Target normalisation round trip** (C09_normalised_once_refuted). Row-wise expressions. The expression is applied once per normalised signal, to all targets (refutes the reading that each target is normalised once).
* **C10 Normaliser registry has unique names** (C10_list_lags_refuted). 
* **C15 Global form is a faithful re-arrangement** (C15_reorder_refuted). Consistency between training and prediction holds when all signals rank the features alike; refuted otherwise.
* **C19 Predicted quantiles do not cross and are a shift of the error distribution** (C19_unconditional_refuted, C19_unconditional_raises_refuted). Proved for conditional_to_hour=True; with False the code indexes steps by the hour (refuted).
* **C20 Quantile array <-> frame round trip** (C20_duplicate_levels_refuted). Proved for pairwise different levels; refuted for repeated levels.
* **C24 Scenario interpolation respects the quantile function** (C24_tails_refuted). The last theorem says exactly when a draw below the lowest level falls below any given bound: the curve is extrapolated, so scenarios of nonnegative quantiles can be negative.
* **C27 The network built from reduced scenarios is a rooted tree with consistent probabilities** (C27_same_start_refuted, C27_equal_values_refuted, C27_one_step_refuted). Proved when scenarios differ at every step; with a common first value the reduction keeps several roots and raises, nodes with equal values at a step are merged into one, and one-step scenarios give an empty graph.
* **C30 Pinball score is proper and nonnegative** (C30_layout_refuted). Proved for unambiguous layouts; the second documented layout is misread when the numbers of levels and targets agree.
* **C31 Reliability lies in [0,1] and counts exceedances** (C31_missing_refuted). Proved for complete observations; a missing observation counts as non-exceedance.
* **C32 Point scores behave like distances** (C32_scorer_square_refuted, C32_axis_refuted). Proved when the number of labels identifies the axis, and without labels (a single row labelled 1); refuted for square frames.
* **C33 Reconciled forecasts are coherent** (C33_labels_refuted). Coherent for every projection when the forecast columns come in the order used for fitting; otherwise the result is labelled by position and can be incoherent.
* **C37 Parallel map equals sequential map** (C37_arrays_lose_data_refuted). Proved for the ray path, for every order of execution; the path for plain arrays (use_ray=False) applies f to the first piece only and loses the rest.
* **C39 Holt-Winters state makes fitting chunk-invariant** (C39_after_missing_refuted). Proved for every state made of numbers (as a fit on a complete series leaves it); after a missing value the memory restarts from the last value of the next call, so forecasts depend on later rows.
* **C40 Holt-Winters survives missing observations** (C40_missing_poisons_refuted). Without missing values all forecasts are numbers; after one missing value every forecast of the call is NaN.
* **C41 Holt-Winters multi covers each step exactly once** (C41_errors_unfilled_refuted, C41_unsorted_refuted). Point forecasts: proved for increasing horizons; in any other order the last model that crosses a step fills it. Error quantiles: the next model starts at the number of quantiles, leaving rows at zero.
* **C44 Predicting does not change a fitted stateful model** (C44_chunked_fit_refuted, C44_record_grows_refuted). predictions never influence later outputs; fitting in chunks agrees only when the first chunk is a whole number of windows (the phase restarts at each call); FK's record of coefficients grows with every predict
* **C46 Kalman covariance update** (C46_reported_covariance_refuted). the covariance is corrected twice, so it is a valid covariance but smaller than the error covariance of the estimate
* **C47 Persistence benchmark** (C47_seasonal_long_horizon_refuted, C47_seasonal_one_step_late_refuted). The persistent forecaster repeats the last value and the seasonal one is causal, but the seasonal values are one step late (row i, step h is value i+h of state++x), and horizons beyond the season plus one raise.
* **C48 Discrete distribution benchmark is a probability** (C48_missing_times_zero_refuted). Holds for times of day with at least one present value; times with only missing values get an all-zero distribution.
* **C49 Refitting replaces the old model** (C49_serial_refit_refuted, C49_lgb_refit_refuted, C49_brutal_refit_refuted). Holds for hybrids fitted in parallel; serial hybrids and the brutal regressor keep using the first data, and LGBForecaster raises on a second fit.
* **C51 Boosting decomposition** (C51_empty_bin_refuted). Decomposition and bin validity hold for every sequence of learners; a bin with no sampled row has no mean (NaN).
* **C53 Partially input-convex networks are convex in the controls** (C53_bounded_output_refuted, C53_augmented_refuted). Convexity and monotonicity for every depth and width without layer normalisation, also for whatever NN.fit returns. False with z_min/z_max (the sigmoid is not convex) and, for monotonicity, with augmented controls: refuted.
* **C54 Invertible activations** (C54_linloglin_flat_refuted, C54_invcondiff_clipped_refuted). Exact real arithmetic. linloglin is undone except within 1e-12 of zero, where it is constant on each side (refuted); invcondiff is undone up to exp 12, beyond which the inverse is clipped (refuted).
* **C55 Causal invertible network is causal and invertible** (C55_identity_refuted). Causality is proved for all networks. Inversion needs every activation to be undone where it is used: always for leaky relu with the layer's own slope, away from zero for the default; false for the identity activation (refuted).
* **C56 Mini-batches visit each row at most once per epoch** (C56_rows_left_out_refuted, C56_small_sample_refuted, C56_oversized_batch_refuted). Batches are disjoint, of the batch size and from a permutation. Also proved: rows left out when the size does not divide, the ZeroDivisionError below ten rows, and an untrained result for batches larger than the sample.
* **C57 Early stopping returns the best parameters** (C57_patience_ignored_refuted, C57_out_of_epochs_refuted). Proved when training stops early and rel_tol >= 0. When the epochs run out the last parameters are kept, evaluated or not (refuted). stopping_rounds never has an effect for rel_tol >= 0.
* **C58 LSTM windows are aligned with targets** (C58_split_overlap_refuted). Windows, exogenous rows and targets are aligned for every length and history; the validation targets overlap the training targets as soon as the horizon is at least two.
* **C59 Gaussian copula sampling has the requested shape** (C59_single_scenario_refuted). Proved for every number of scenarios except one; a single scenario always raises.
* **C60 Hyper-parameter search returns the best trial** (C60_random_fold_names_refuted, C60_random_fold_datetime_refuted, C60_random_fold_labels_refuted). Scores are means over the folds and the best trial is returned given the study's contract. With cv_type 'random fold', a dictionary of scorers raises KeyError and positional folds are read as labels. The random search of the Holt-Winters models is C87.
* **C61 Multi-index conversion keeps every entry** (C61_after_selection_refuted). Proved for frames whose columns are all pairs of level labels in order; after a selection of columns the level sizes are stale and rows are mixed silently.
* **C62 Save/load of neural forecasters keeps behaviour** (C62_empirical_quantiles_refuted, C62_latent_depth_refuted). Point forecasts survive saving and loading for every class but LatentStructuredPICNN, which needs its encoder and decoder depths passed again. The error distribution is not saved: quantiles of a loaded non-probabilistic network raise KeyError.
* **C63 Neural gas refinement yields a valid tree** (C63_returned_values_refuted). Refinement never fails and stays in range; the returned value list is one iteration old (refuted).
* **C65 Simulated transforms announce the real metadata** (C65_chained_refuted). Simulation fails on transformers that read columns of earlier transformers.
* **C66 Threaded and serial transforms agree** (C66_chained_refuted). Equal when every transformer reads original columns only; refuted for chained transformers.
* **C68 Every cross-validation fold can be trained on** (C68_two_folds_refuted). Refuted for n_k = 2, which the code accepts: every training set is empty. Every fold has training rows if the features look back less than half of the time outside of a test window; with five folds or more this is always so.
* **C69 Subsampling keeps every hour represented** (C69_starved_hour_refuted). The code violates the property: an hour may receive no row. An hour is kept if it has more rows than are left out, or if the draw over the hours gives it a row.
* **C70 Fitting and predicting leave the caller's data alone** (C70_caller_frame_refuted). The code violates the property: categorical columns are overwritten in the caller's frame. A successful call changes the frame exactly if it has a categorical column; numeric columns are kept and a second call changes nothing.
* **C71 Training uses the parameters the estimator reports** (C71_training_frozen_refuted, C71_training_stale_refuted, C71_levels_stale_refuted). The code violates the property: LightGBM parameters and scenario levels are frozen in the constructor. Right as long as set_params is not called.
* **C72 A copy built from get_params is configured like the original** (C72_copy_refuted, C72_reset_refuted). Stored constructor arguments survive; nodes_at_step and everything passed through scengen_kwgs are lost.
* **C73 Scenarios can be generated from the frame predict_quantiles returns** (C73_own_frame_refuted). The documented layout works; the frame that predict_quantiles itself returns is refused or silently transposed.
* **C74 predict_scenarios works with every generator option** (C74_additional_node_refuted). predict_scenarios with additional_node raises for every horizon longer than one step.
* **C75 Initial tree values lie in the range of their own step** (C75_own_step_refuted). Values lie in the range of the previous step's scenarios, not of their own step.
* **C76 A node schedule is used as given** (C76_length_refuted). The schedule length is compared with the number of scenarios, not of steps: a schedule of that length gets an extra step; the caller's array is modified.
* **C77 Neural gas pulls the nearest scenario hardest and stops when converged** (C77_nearest_refuted, C77_tolerance_refuted). The code violates the property: argsort output is used as ranks, and the stopping tolerance has no effect. A pull never moves beyond the drawn scenario; the order is right where the sorting permutation is its own inverse, in particular for two leaves.
* **C78 Gradient refinement reduces its learning rate and returns the refined scenarios** (C78_descent_refuted). The code violates the property for every loss: the rate never changes and the returned scenarios are those before optimisation. The tree values are those of gradient descent with the initial rate and their loss does not grow if no step grows it.
* **C80 Hierarchy levels are distances from the top** (C80_top_refuted). Levels are distances from the chosen root, which is the first aggregate with most leaves; it is the top whenever the top has two members, otherwise it need not be.
* **C81 Each step ahead is reconciled with its own weights** (C81_last_step_refuted, C81_own_step_refuted). The code violates the property: every step is reconciled with the weights of the last one. Right for the steps whose weights are proportional to those of the last step.
* **C82 Scenario errors come from the hour of the forecast** (C82_other_length_refuted, C82_no_scenarios_refuted). Errors are chosen by the hour of the training row at the same position; any prediction frame of another length raises.
* **C83 Every documented reconciliation method works** (C83_bayes_refuted). The code violates the property: label alignment makes every Bayesian reconciliation raise. The methods dummy and minT work for positive definite weights.
* **C84 Memory reduction never increases memory nor touches the caller's data** (C84_extreme_values_grow_refuted, C84_callers_frame_refuted). The width is the smallest whose interior holds the values; away from extreme values the type never grows; a narrow column holding its extreme value gets twice the width; the serial path changes the caller's frame.
* **C85 Memory reduction of floats is harmless** (C85_distinct_values_collapse_refuted). Order, NaN positions, integers up to 2^24 and relative precision 2^-24 are kept; a value is kept exactly if single precision represents it, and reducing again changes nothing; distinct values can become equal.
* **C87 Random search returns the best trial** (C87_serial_fails_refuted). The parallel search returns the first best trial; the serial one fails from the second trial on since the first overwrites the shared arguments.
* **C88 Prediction continues the fitted recursion, refitting restarts it** (C88_trend_dropped_refuted, C88_trend_held_refuted, C88_refit_keeps_state_refuted). With beta=0 predict runs the fitted recursion; otherwise predict holds the trend, and the first forecast differs exactly if alpha and beta are not 0 and the observation is not the one expected. A second fit starts from the state of the first.
* **C89 The Fourier basis is orthonormal** (C89_half_window_refuted). orthonormal when 2 n_harmonics < m; the code also allows n_harmonics = m/2, whose sine column is zero
* **C91 The better expert gets more weight** (C91_late_expert_preferred_refuted). errors compare the forecast of row i+1 with the observation of row i The ranking follows the distance between the forecasts of the next value and the present one, which is the right order if the value does not change.
* **C92 Exact experts give numbers** (C92_no_error_gives_nan_refuted). 0/0 when every expert is exact; contract of the filter: a NaN observation gives a NaN state The weights are undefined exactly if all forecasts of the next value equal the present one.
* **C93 Unseen times of day are not predicted as zero** (C93_unseen_time_zero_refuted). The code predicts 0 for a time of day never seen in training. For times seen the forecast is the regularised mean.
* **C94 Energy-aware training is kept** (C94_energy_models_replaced_refuted). With parallel fitting (the default) the energy-aware models are replaced by plain ones trained on the validation part.
* **C95 Random forest prediction shapes** (C95_quantile_shape_refuted). Exact characterisation: horizon 1 with several rows (mean), and a single multi-step column (quantiles), raise.
* **C96 Random forest quantile arrays match the frame** (C96_quantiles_scrambled_refuted, C96_quantiles_wrong_refuted). The conversion mixes steps and levels. Right for one target.
* **C97 Quasi-convex networks and positive deviations** (C97_derivative_net_refuted, C97_sigmoid_net_refuted). Standard deviations and bounded outputs are proved; the two quasi-convex variants are not quasi-convex (refuted by explicit networks).
* **C98 Each supported activation is inverted by the invertible layer** (C98_identity_refuted, C98_inverse_refuted, C98_softplus_collapse_refuted, C98_leaky_other_slope_refuted). The layer's inverse is wrong for the identity and invcondiff_inverse activations, loses small softplus values, and ignores the slope the activation was built with.
* **C99 A perfect end-to-end invertible forecaster forecasts the target** (C99_zero_quasi_loss_refuted). Proved for the 'full' loss; with the 'quasi' loss a zero error does not give the target (refuted).
* **C100 A stateful forecaster can be copied and pickled** (C100_copy_refuted). Fourier and Kalman forecasters cannot be pickled or deep-copied: __setstate__ needs an attribute a blank instance does not have. Updating the states of an existing instance works.
* **C102 The optimised controls improve the objective, and its value is reported** (C102_stale_value_refuted, C102_few_iterations_refuted, C102_worse_than_start_refuted). The reported value belongs to the controls before the last update; fewer than ten iterations raise; the last controls are returned even when worse than the start.
* **C103 Probabilistic networks report the deviation of the target and ordered quantiles** (C103_deviation_refuted, C103_deviation_unscaled_refuted, C103_reversed_refuted). With a scaled target the mean of the target is added to the deviation; without scaling the variance is returned as deviation. Quantiles are in reverse order when the deviation becomes negative.
* **C104 Structured networks have ordered quantiles of the objective** (C104_zero_deviation_refuted). Ordered for every level and parameters. With a zero deviation all log-normal quantiles are zero instead of the objective.
* **C105 The recurrent forecaster uses the most recent observation** (C105_last_row_unused_refuted, C105_history_only_refuted). The forecast issued at the last row does not use it; a frame of exactly the history length gives no forecast. The other rows are used as promised.
* **C107 Trees can be pre-computed on every data set** (C107_starved_refuted). pre-computing trees raises when an hour is missing, which subsampling alone can cause
* **C108 The copula uses correlation matrices** (C108_shrunk_refuted). with cov_est_method='shrunk' the diagonal is not one and is unbounded
* **C109 Scenarios can be sampled for every hour of the training data** (C109_constant_refuted). a step with constant errors in an hour makes every sampling of that hour raise
* **C110 A random state makes scenarios reproducible** (C110_reproducible_refuted). noise from the global generator is added after the seeded draws
* **C111 Rows get their own draws** (C111_same_draws_refuted). an integer random_state restarts the generator for every hour Rows of the same hour get different draws.
* **C112 The graphical lasso is tuned on the most frequent hour** (C112_hour_refuted, C112_always_zero_refuted). argmax of the sorted counts is always position 0, used as the hour Right exactly if midnight is the most frequent hour.
* **C113 Default node counts give a valid tree** (C113_few_refuted). proved from eight scenarios on; with fewer the default schedule is indexed although it is empty, even when the builder was given its own node counts
* **C114 Each hour has the tree of its own scenarios** (C114_shared_refuted). holds for ScenredTree and for base trees that do not depend on the scenarios; a DiffTree keeps the probabilities and branches of hour 0 for all hours
* **C115 predict_trees returns a list with one tree per row** (C115_single_refuted). a single row gives a bare tree instead of a list
* **C116 Parallel tree prediction equals the serial one** (C116_single_core_refuted). needs two cores; on a single-core machine there is no worker and the call raises
* **C118 Each series is forecast by the model of its level** (C118_name_refuted). an aggregate called 'bottom' is forecast by the model of the bottom series
* **C120 Vanilla scenarios are base forecasts plus their errors** (C120_errors_refuted, C120_own_errors_refuted). method='vanilla' adds errors of the reconciled forecasts to the base forecasts Right where reconciliation changed nothing in training.
* **C121 Minimum-trace weights exist for every data set** (C121_constant_errors_refuted). weights exist as soon as the error of one series varies; when all errors are constant (for example exact forecasts) training raises
* **C122 Quantiles of reconciled forecasts** (C122_vanilla_refuted). method='vanilla' always raises; reconciled quantiles are those of the scenarios, with as many rows as in training
* **C124 Column t+k of a row forecasts the time k steps after the row** (C124_shifted_refuted, C124_first_row_refuted, C124_residuals_refuted). The code violates the property: the forecast of a row is made before the row is given to the model, so column t+1 of row t holds the forecast of time t; the error quantiles of a perfect model are those of the differences of the series. A cell is right exactly where the series does not change in the step before it, and the table read one row lower is right everywhere.
* **C125 The bootstrap summarises the requested number of resamples** (C125_few_refuted, C125_last_ignored_refuted). Not n_sampling resamples but the largest of 100, 600, 1100, .. below it; up to 100 raises.
* **C126 A resample has the size of the series and draws its values with replacement** (C126_duplicates_refuted). Holds for an index without repeated labels; with repeated labels a resample is longer than the series.
* **C127 Masked cells do not influence the scores** (C127_quantiles_refuted). Point forecasts; a mask with quantile forecasts raises, as numpy aligns it with the wrong dimensions.
* **C128 Continuous grouping variables are cut into balanced classes, each column for itself** (C128_small_integers_refuted, C128_texts_refuted). 64 bit integer and float columns; int32 columns are merged into quantile bins, and text columns make the call fail, as soon as another column is a float.
* **C130 Held-out rows do not influence the trained model** (C130_scaled_refuted, C130_network_refuted, C130_network_scale_refuted). Holds for the forecasters without scaler; the random feature regressor and the neural networks fit their scalers before the split, so the inputs of the training depend on the held-out rows whatever the learner.
* **C132 Normalised targets are scaled back from the frame passed to predict** (C132_rff_refuted). The frame given to the formatter is the scaled one with numbered columns, so every prediction with a target normaliser raises.
* **C133 Orthogonal random features are orthogonal** (C133_columns_refuted). The rows of a block are orthogonal, the frequency vectors (columns) are not: of two draws of the scales that differ in one coordinate at least one gives vectors that are not orthogonal.
* **C134 Quantile forecasts of the smoothing models cover the training rows** (C134_one_column_refuted). Holds for the Fourier models, for the wrapped statsmodels and for Holt-Winters frames with more than one column. With the target as only column the error quantiles are those of the corrected forecasts and predict does not correct: a constant series v, with smoothing parameters zero, has all its quantile forecasts at 2v.
* **C135 Saved states can be restored** (C135_reset_refuted). A missing state means keep, so the states of a model that was never run cannot be restored.
* **C136 The tuning score compares each forecast with the values it forecasts** (C136_short_refuted). With at most n_sa test rows the score is NaN whatever the model.
* **C137 Tuned parameters lie within their limits and have the best score** (C137_nan_refuted). Without NaN scores; the first trial whose score is NaN is returned as the best one.
* **C139 The most important frequencies are those of the signal** (C139_shifted_refuted). The positions are those of the largest magnitudes, but one is added: a wave of j periods is reported as j + 1.
* **C141 The likelihood loss of a network is always a number** (C141_feed_forward_refuted). A number for the networks that pass the variances through a softplus; the feed-forward and recurrent networks output them unconstrained, and one output that is not positive makes the loss NaN.
* **C143 Log-normal networks predict the quantiles of the distribution they are trained on** (C143_likelihood_refuted, C143_negative_refuted). The ranked score trains the distribution whose quantiles are predicted, up to the 1e-10 it adds to the deviation, which makes its spread strictly larger than the predicted one; the likelihood trains the forecast to be the median, and predict_quantiles then reads it as the mean, so the predicted median is always below; observations that are not positive make the likelihood NaN.
* **C144 The order penalty rewards forecasts that rank the objectives correctly** (C144_reversed_refuted, C144_flat_refuted). The penalty is least exactly for forecasts that order the rows like the observations; but it correlates sorting permutations instead of ranks, so that a reversed order can be rewarded while one exchanged pair gets the worst value, and it is locally constant, so that training does not react to it.
* **C146 Declared causes are enforced in training** (C146_deterministic_refuted, C146_ignored_refuted). The penalty is zero exactly when no output reacts to a control that is not a cause, the loss with it is zero exactly when in addition the predictions are exact, and the probabilistic convex network is trained with it; the deterministic one is called with an unknown keyword, and all other networks ignore the table.
* **C147 A network is trained with the requested score and distribution** (C147_ignored_refuted). The convex networks use the requested score and distribution; the feed-forward and recurrent ones ignore both, the causal loss ignores the distribution and the invertible network ignores that it should be probabilistic.
* **C148 Bins without nesting hold the requested windows** (C148_recent_refuted, C148_gap_refuted). With nested=False and complete data every computed cell is the requested window statistic, other cells are missing. Refuted: the last total-span minus one rows are always missing, and after a gap the values come from a window too early by the total span.
* **C149 Metadata of bins without nesting** (C149_lags_refuted). With one lag (or none) each metadata row describes its column. Refuted for two lags and two functions: wrong function, lag and times.
* **C150 Features can be renamed relative to the prediction time** (C150_fails_refuted). When the renaming succeeds columns without metadata keep their name and the others get the part before the lag followed by the time relative to the prediction. Refuted: with the tables the transformers build it never succeeds, the column it reads does not exist.
* **C151 The predictors of a multi-predictor model look back over different histories** (C151_distinct_refuted). The histories never decrease, are at least the horizon and the periodicity, and the last one is m; they differ only above that floor, so several predictors can be identical.
* **C152 The predictors use the requested periodicity** (C152_ignored_refuted). The arguments of the predictors are copied before the periodicity is recorded, so every predictor uses its default, the number of steps ahead.
* **C153 Parameters given for the predictors are used** (C153_ignored_refuted, C153_tuning_refuted). Parameters given in submodels_pars, or under the name of the argument of the predictors, are used; alphas, omegas and ns_harmonics change nothing. The predictors tune themselves as optimize_submodels_hyperpars says, but with submodels_pars that option changes nothing.
* **C154 Each horizon of a multi-horizon model has the parameters and constraints declared for it** (C154_constraints_refuted). Horizons, periods and smoothing parameters are passed on; the constraints are not.
* **C155 Every horizon can be forecast** (C155_beyond_history_refuted, C155_long_period_refuted, C155_ignored_period_refuted). With slices as python computes them, the run is the closed formula when the periodicity is at most m; with a horizon above m and the default periodicity the slice is empty and every call fails. A periodicity between m and 2m + n_sa fails on any series of m rows; from 2m + n_sa on it is silently treated as m.
* **C156 A reconfigured forecaster can be run again** (C156_other_size_refuted). The record of coefficients survives the reinitialisation, and stacking rows of another length raises.
* **C157 A forecaster that tunes itself tunes at each fit** (C157_later_fits_refuted). The first tuning writes optimize_hyperpars=False into the forecaster, so later fits keep the parameters of the first data set. The recorded arguments after tuning are those of the best trial, optimize_hyperpars=False, and the former ones.
* **C158 After fitting, the seasonal benchmark continues from the end of its data** (C158_stale_refuted). Without validation rows the season stored is the last one of the frame. With a validation part it is the one before that part, so the forecasts of the following rows are older by the number of validation rows.
* **C159 The errors of the persistence benchmarks come from earlier values** (C159_whole_frame_refuted). With validation rows, and for plain persistence, forecasts in the errors use earlier values only; without them the first season of the errors is forecast from the end of the same frame.
* **C160 Capping the rows after the fit only selects errors** (C160_seasonal_refuted). Row-wise forecasts are unaffected by the choice of rows, and the smoothing models refuse the option; the seasonal benchmark treats the kept rows as consecutive.
* **C161 A feed-forward network has as many outputs as asked** (C161_sizes_refuted, C161_selector_refuted). With a number of layers, and a selector as long as n_out or none, there are n_out outputs. With a list of layer sizes n_out has no effect; with n_out=1 a selector of any length sets the number of outputs.
* **C163 Persistent inputs and skip connections are added to the outputs** (C163_skip_refuted). The forecast is the network's plus the selected inputs. A skip connection asked for together with a selector is dropped silently. Negative positions count from the end.
* **C164 An untrained last layer gives persistence** (C164_default_refuted). With centred inputs an untrained last layer forecasts the selected inputs. By default the inputs are scaled but not centred while the targets are centred, so the forecast is shifted by the mean of the target.
* **C165 Quantile forecasts of the networks accept frames** (C165_recurrent_refuted, C165_unnormalised_refuted). With normalisation every network but the recurrent one returns for a frame. The recurrent one always raises with normalisation; without it the others raise for a frame. Without normalisation the arrays each probabilistic network accepts are listed.
* **C166 The invertible forecaster is trained on the targets** (C166_default_loss_refuted, C166_default_forecast_refuted). With end_to_end='full' the loss of a batch is zero exactly when every row decodes to its target. With the default the loss ignores the targets, and the forecast raises unless there are as many targets as inputs. The default loss is zero exactly when the embeddings have mean zero and unit variance.
* **C167 The loss of the quasi end-to-end mode is a number** (C167_single_target_refuted). The loss of end_to_end='quasi' is a number when some row of embedded targets varies; for a single target it is a division by zero for any data. The target is the embedding of the window advanced by the targets.
* **C168 n_hidden_y sets the width of the predictor** (C168_width_refuted). n_hidden_y is stored under another name by the constructor and ignored by set_params: the width is 200 whatever is asked. The constructor accepts exactly as many inputs as targets and exogenous inputs together, or more.
* **C169 Options of scenario generation take effect** (C169_network_refuted, C169_unknown_refuted, C169_dictionary_refuted, C169_lstm_refuted, C169_lstm_options_refuted). The options the generator, its copula and its tree builder name reach them from the constructor of a forecaster, except logger. Any other name is accepted and ignored; the scengen_dict of FFNN and LSTMNN is such a name; LSTM_Forecaster drops n_scen_fit, additional_node, formatter, conditional_to_hour and logger.  The learning rate of a differentiable tree cannot be set on a network forecaster, whose own learning rate has the same name.
* **C170 Pre-computed trees are those of the last fit** (C170_online_refuted, C170_failed_fit_refuted). With trees asked for in the constructor, a fit on rows of every hour makes them available for every hour. Turning online_tree_reduction off later never does, and a fit that fails for a missing hour leaves trees of two fits.
* **C171 The node schedule passed to predict_trees is used or refused** (C171_prefitted_refuted). Online the schedule passed is used. With pre-computed trees the generator refuses it but the forecaster drops it without a word.
* **C172 Every copula that can be chosen generates scenarios** (C172_conditional_refuted). The hourly copula samples. With the conditional copula fitting works, but sampling scenarios always raises.
* **C173 Any widths give a network with one forecast per target** (C173_wide_refuted, C173_quasi_refuted). Holds for networks without deviations, for structured ones with scalar bounds, and for n_latent = 1 (the default). A probabilistic network raises when n_out and n_latent differ and neither is one; a probabilistic PIQCNN returns n_out numbers in all, half of them deviations.
* **C174 Forecasts respect z_min and z_max** (C174_units_refuted, C174_min_alone_refuted, C174_max_alone_refuted, C174_structured_refuted, C174_min_alone_raises_refuted). The bounds hold for the network's own outputs. By default the target is normalised, and the bounds are applied in normalised units, so that all forecasts can lie above z_max. z_min alone raises, z_max alone is ignored, and one bound per target gives a structured network one deviation per target instead of one. 
* **C175 The options of a convex network take effect** (C175_stable_refuted, C175_set_params_refuted, C175_layer_norm_refuted). augment_ctrl_inputs works when given to the constructor of a network other than RecStablePICNN; there, and in set_params, it makes every forecast raise when there are two or more controls. layer_normalization never reaches the module.
* **C176 Embedded controls come back with their own length** (C176_probabilistic_refuted, C176_bounds_refuted). Holds for networks without deviations and with scalar or no bounds. A probabilistic network with two or more embeddings raises, since the embedding has twice the expected length; so does one bound per target. Without n_latent each part is as wide as its own output.
* **C177 A tuned hyper-parameter is the one the model is trained with** (C177_tuned_refuted, C177_depth_refuted). Boosters read their attributes at every fit, forests use the arguments of the constructor for ever. Refuted for the forest: parameters set on it, also by a trial accepted by the tuner, change what get_params reports and not the forest its next fit trains; max_depth never reaches it. (Full cross-validation trains copies built with the sampled values: C189.)
* **C178 Weights of the observations are used in training** (C178_held_out_refuted, C178_default_refuted, C178_reduction_refuted). Without a validation part every single-step forest is trained with the weights given. Refuted otherwise: with a validation part the weights of all rows meet fewer rows and training fails; the global forest (the only one by default) never sees the weights, and red_frac_multistep does not reduce its rows.
* **C179 Options of a forecast of a tree model are accepted and consistent with training** (C179_options_refuted, C179_period_refuted). Which options predict accepts is characterised exactly; predict_quantiles always answers. Refuted: quantiles='mean', which the code compares with, and a period with parallel execution or single-step models raise; a period other than 24h makes the booster see other columns than in training.
* **C180 The training set of the global model has the requested size** (C180_left_out_refuted, C180_empty_refuted). Sizes of the training set of the global booster, for all fractions up to one. Refuted: with a fraction of one observations can be left out, since rows are drawn with repetition, and with fewer rows than steps and a small fraction the set is empty.
* **C181 The energy-aware forecast accumulates the effect of control** (C181_frame_refuted). The feature of a step is the sum of the differences between the forecasts without and with control of the previous steps. Refuted: with fewer single-step models than targets every forecast raises.
* **C182 Optimising in the latent space optimises the controls** (C182_gap_refuted, C182_penalty_refuted). With networks that invert each other the optimised value is that of the returned controls and no worse than the initial ones; the loop answers exactly when n_iter is at least ten. Refuted in general: the weight of the consistency penalty is zero throughout, so the reported value can be zero while the returned controls are worse than the ones given.
* **C183 The history of the optimisation is the path of the optimiser** (C183_short_refuted). The recorded embeddings are those of consecutive updates, ten for each round, from the embedding of the initial controls. Refuted: the round that stops the loop is not recorded, so the history ends before the solution.
* **C184 Columns of a frame reach the inputs of the network they were trained for** (C184_swapped_refuted, C184_stale_refuted). Frames with the training columns are accepted and scaled as declared; with all columns normalised any other order is refused. Refuted: two unnormalised columns in exchanged order are accepted and give other inputs; a network refitted without columns to normalise keeps its old scaler and cannot forecast.
* **C185 Controls of a convex network are found by name** (C185_unscaled_refuted). Unnormalised controls are found by name wherever they stand. Refuted: with all inputs declared unnormalised a convex network cannot be used at all.
* **C186 The invertible forecaster aligns its frames** (C186_order_refuted, C186_index_refuted). Exogenous columns are found by name, and no scaler is ever fitted. Refuted: another order of the remaining columns is accepted and gives other inputs; the inverted frame has lost its index.
* **C188 Quantile frames name the targets like point forecasts** (C188_multi_smoothing_refuted, C188_multi_adaptive_refuted, C188_wrapped_refuted, C188_networks_refuted). Holds for the linear, boosted and random-feature models, the persistence benchmarks, HoltWinters, Fourier_es and FK. HoltWintersMulti raises, FK_multi and the statsmodels wrappers use other labels, networks return an array and DiscreteDistr returns None.
* **C189 A tuning trial scores the model with the sampled parameters** (C189_frozen_refuted, C189_lost_refuted, C189_networks_refuted). Proved for full cross-validation and every parameter of the signature, and for random folds of the classes that read their attributes. LGBForecaster and QRF ignore sampled values with random folds and after the search. Attributes passed through the keyword dictionary, such as the layers of FFNN and LSTMNN, are reset to their defaults in the copies that are scored.
* **C190 A search without a search space works for every forecaster** (C190_unregistered_refuted). The five registered classes have usable spaces; the default space names model__n_estimators and model__learning_rate, which no forecaster has, so the search raises.
* **C191 Setting the controls of a convex network reconfigures it** (C191_stale_refuted). Right after construction; set_params leaves the width of the control layers and the optimiser of the controls as they were.
* **C192 get_scenarios draws errors of the hour of each row** (C192_conditional_refuted). method='conditional', which the error message names as available, returns the number 0
* **C193 The score of a level is the mean of the scores of its series** (C193_paired_refuted, C193_order_refuted). quantile scores pair the columns of forecasts, sorted by name, with the columns of targets, in the order of the hierarchy, by position
* **C194 Every fitted forecaster generates scenarios** (C194_custom_fit_refuted). proved for the classes whose fit ends with the shared calibration, with error distributions by hour: whatever was fitted before, the scenarios have one value per row, step and scenario, obtained from the quantile curve of the last calibration errors of the hour around the forecast; DiscreteDistr, the Holt-Winters, Fourier and exponential smoothing classes and LSTM_Forecaster never fit the generator, so that predict_scenarios always fails
* **C195 A cap on the calibration rows is used or refused** (C195_ignored_refuted). the classes with the shared calibration use a valid cap exactly and the Holt-Winters and Fourier classes refuse the options; invalid values are refused by all; ExponentialSmoothing accepts the cap and uses all rows
* **C196 The recurrent network has as many outputs as asked** (C196_sizes_refuted). When n_layers is a number the recurrent network has n_out outputs. When it is a list, n_out is ignored and the last size decides.
* **C198 The bidirectional forecaster merges history and other columns** (C198_no_interaction_refuted). The layer that merges the two inputs is not connected to the output: the forecast is a sum of a function of the history and one of the other columns, for every trained network. The effect of the history is bounded.
* **C199 Re-initialising Holt-Winters forgets the past** (C199_state_refuted, C199_forecasts_refuted). reinit runs the recursion over the given values from the present state, 20 times: states that differ by an amount moved between level and season stay different for ever, which does not affect forecasts; with other differences (a trend and no smoothing) the forecasts after reinit still depend on the past.
* **C200 The random search of Holt-Winters picks the best trial** (C200_wrong_refuted, C200_missing_refuted, C200_first_missing_refuted). The chosen parameters have the least root mean squared error among the trials, each measured from its own start: trial i runs after i+2 re-initialisations, so a trial that is better from every start can lose. The forecasts returned come from yet another start and another trend smoothing. With one missing value in the series every error is NaN and the first trial is kept, whatever it is; in general the first trial that leaves a missing forecast wins over all others.
* **C202 Holt-Winters follows an offset of the data** (C202_fresh_refuted, C202_constant_refuted). holds from a state with numbers; a new forecaster starts from level 0 and both seasons at the last value, so it adds the offset twice
* **C204 Scores follow the unit of the data** (C204_mape_refuted, C204_nmae_refuted). mape and nmae add a constant with a unit to their denominator
* **C207 Fourier_es and FK follow an offset of the data** (C207_fresh_refuted, C207_constant_refuted). holds from a state that has the offset, with fewer harmonics than half the window; a new forecaster takes its last forecast to be 0 and counts the whole first value as an error
* **C210 Scenario options can be searched and copied for every forecaster** (C210_seed_refuted, C210_copies_refuted). Quantile levels, validation share and tree nodes are named by all 28 constructors. The seed and the row limit of the scenario generator are accepted by every constructor through its keyword dictionary but named by four: elsewhere a search over them is refused and a copy made during cross-validation falls back to the defaults.
* **C211 The scenario tree does not depend on origin or unit of the data** (C211_unit_refuted). Every set of scenarios of moderate size is reduced to a tree with the code's own distance. Offsets per variable and step leave number, probabilities and shape, and move the values. Refuted for units: for every factor other than one some scenarios are reduced to another number, because 1e-6 is added to the standard deviation; proved for mirrored values, and for any factor if all variables spread alike at all steps.
* **C213 Scenarios follow the unit and the origin of the data** (C213_shrunk_refuted, C213_unit_refuted). Sample correlations do not see units or offsets of the steps, and moving the data moves the scenarios. The diagonal of the shrunk matrices is unchanged only if all steps have the same factor, and the noise of the scenarios is absolute: with a factor other than 1, scenarios follow only where the noise is zero.
* **C214 Initial trees share out the scenarios** (C214_once_refuted). Every scenario stays in some node of every step, the values of siblings are ordered, and which scenarios a child gets is characterised. They are not shared out exactly: scenarios within 1e-6 below an inner boundary, in particular one lying on a quantile, go to both neighbours; this is the only overlap, except for children whose cell is empty, which get all of the parent.
* **C215 Fitted trees are not worse than initial ones** (C215_default_refuted). The loss vanishes exactly for trees containing all scenarios, scales with the square of the unit, and its gradient (where no scenario has two nearest paths) is the one used. Fitting never ends above the loss it starts from if rate times scenarios is at most the number of steps, so with the default rate for up to ten scenarios per step; beyond this, for every unbranched tree away from the mean, the default rate makes the loss larger than at the start.
* **C216 The smooth loss of a tree is between nearest and average distances** (C216_zero_refuted). The smooth loss lies between the loss of the nearest paths and that of the average over all paths. It vanishes only if every path equals every scenario: a tree that contains every scenario and has two different paths has a positive smooth loss.
* **C218 Reconciliation checks the series it is given** (C218_leaves_refuted, C218_strangers_refuted). The check accepts a frame iff the columns of the base forecasts are the series of the frame, and each has one column. It does not compare them with the hierarchy: a frame with the aggregates only is accepted although the leaves are missing, and so is every accepted frame with a further series that belongs to no aggregate.
