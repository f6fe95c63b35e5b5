{"claims": [
 {"property": "C01", "status": "proved", "theorems": ["C01_feature_values", "C01_bin_feature_values", "C01_causality"], "note": ""},
 {"property": "C02", "status": "partial", "theorems": ["C02_declared_windows", "C02_declared_windows_bins", "C02_declared_windows_refuted"], "note": "Holds on the stated inputs; refuted in general by C02_declared_windows_refuted (aggregation window not a multiple of the sampling time)."},
 {"property": "C03", "status": "partial", "theorems": ["C03_bin_metadata_partial", "C03_bin_metadata_refuted", "C01_feature_values"], "note": "The code mislabels metadata when two of (lags, functions, bins) have more than one entry; proved for the remaining case, refuted otherwise."},
 {"property": "C04", "status": "partial", "theorems": ["C04_same_sampling_history_partial", "C04_history_refuted"], "note": "Holds for histories with one sampling time; refuted in general: the aggregation length is frozen at first use."},
 {"property": "C05", "status": "proved", "theorems": ["C05_aligned_rows"], "note": "Assumes unique row labels and unique column names (pandas refuses or duplicates otherwise)."},
 {"property": "C06", "status": "proved", "theorems": ["C06_fold_separation", "C06_target_leak_refuted"], "note": "The second theorem records that the dead-band ignores the target horizon."},
 {"property": "C07", "status": "proved", "theorems": ["C07_folds_cover"], "note": ""},
 {"property": "C08", "status": "partial", "theorems": ["C08_pruned_features_partial", "C08_pruned_frame", "C08_last_seconds_refuted", "C08_tolerance_refuted"], "note": "Exact characterisation of what the code keeps; the documented tolerance and keep_last_seconds are refuted."},
 {"property": "C09", "status": "proved", "theorems": ["C09_round_trip", "C09_applications", "C09_normalised_once_refuted"], "note": "Row-wise expressions. The expression is applied once per normalised signal, to all targets (refutes the reading that each target is normalised once)."},
 {"property": "C10", "status": "proved", "theorems": ["C10_unique_names", "C10_first_wins", "C10_outcome", "C10_list_lags_refuted"], "note": ""},
 {"property": "C100", "status": "partial", "theorems": ["C100_copy_refuted", "C100_update_in_place"], "note": "Fourier and Kalman forecasters cannot be pickled or deep-copied: __setstate__ needs an attribute a blank instance does not have. Updating the states of an existing instance works."},
 {"property": "C101", "status": "proved", "theorems": ["C101_other_columns_kept", "C101_frame_is_the_solution"], "note": "One-row frames."},
 {"property": "C102", "status": "partial", "theorems": ["C102_value_one_update_late", "C102_stale_value_refuted", "C102_few_iterations_refuted", "C102_result", "C102_rounds", "C102_no_worse_partial", "C102_worse_than_start_refuted"], "note": "The reported value belongs to the controls before the last update; fewer than ten iterations raise; the last controls are returned even when worse than the start."},
 {"property": "C103", "status": "partial", "theorems": ["C103_order_by_sign_partial", "C103_reported_deviation", "C103_reported_deviation_unscaled", "C103_deviation_refuted", "C103_deviation_unscaled_refuted", "C103_reversed_refuted", "C103_raw_order", "C103_raw_values"], "note": "With a scaled target the mean of the target is added to the deviation; without scaling the variance is returned as deviation. Quantiles are in reverse order when the deviation becomes negative."},
 {"property": "C104", "status": "partial", "theorems": ["C104_normal_order", "C104_lognormal_order", "C104_median", "C104_positive_head", "C104_mean_matched_partial", "C104_zero_deviation_refuted"], "note": "Ordered for every level and parameters. With a zero deviation all log-normal quantiles are zero instead of the objective."},
 {"property": "C105", "status": "partial", "theorems": ["C105_last_row_unused_refuted", "C105_history_only_refuted", "C58_predictions_aligned"], "note": "The forecast issued at the last row does not use it; a frame of exactly the history length gives no forecast. The other rows are used as promised."},
 {"property": "C106", "status": "proved", "theorems": ["C106_calibrated", "C106_fit_succeeds"], "note": "conditional_to_hour=False is outside the statement (see C19)"},
 {"property": "C107", "status": "partial", "theorems": ["C107_prefit_partial", "C107_starved_refuted"], "note": "pre-computing trees raises when an hour is missing, which subsampling alone can cause"},
 {"property": "C108", "status": "partial", "theorems": ["C108_vanilla", "C108_shrunk_partial", "C108_shrunk_refuted"], "note": "with cov_est_method='shrunk' the diagonal is not one and is unbounded"},
 {"property": "C109", "status": "partial", "theorems": ["C109_varying_partial", "C109_constant_refuted"], "note": "a step with constant errors in an hour makes every sampling of that hour raise"},
 {"property": "C11", "status": "proved", "theorems": ["C11_stable_names", "C11_total", "C11_values"], "note": ""},
 {"property": "C110", "status": "partial", "theorems": ["C110_noise_partial", "C110_additional_partial", "C110_additional_length_partial", "C110_reproducible_refuted"], "note": "noise from the global generator is added after the seeded draws"},
 {"property": "C111", "status": "partial", "theorems": ["C111_same_draws_refuted", "C111_same_hour_partial"], "note": "an integer random_state restarts the generator for every hour Rows of the same hour get different draws."},
 {"property": "C112", "status": "partial", "theorems": ["C112_hour_refuted", "C112_always_zero_refuted", "C112_hour_partial"], "note": "argmax of the sorted counts is always position 0, used as the hour Right exactly if midnight is the most frequent hour."},
 {"property": "C113", "status": "partial", "theorems": ["C113_default_schedule_partial", "C113_priority_partial", "C113_few_refuted"], "note": "proved from eight scenarios on; with fewer the default schedule is indexed although it is empty, even when the builder was given its own node counts"},
 {"property": "C114", "status": "partial", "theorems": ["C114_own_partial", "C114_scratch_partial", "C114_shared_refuted"], "note": "holds for ScenredTree and for base trees that do not depend on the scenarios; a DiffTree keeps the probabilities and branches of hour 0 for all hours"},
 {"property": "C115", "status": "partial", "theorems": ["C115_list_partial", "C115_single_refuted"], "note": "a single row gives a bare tree instead of a list"},
 {"property": "C116", "status": "partial", "theorems": ["C116_parallel_partial", "C116_single_core_refuted"], "note": "needs two cores; on a single-core machine there is no worker and the call raises"},
 {"property": "C117", "status": "proved", "theorems": ["C117_never_worse", "C117_root", "C117_median_best"], "note": ""},
 {"property": "C118", "status": "partial", "theorems": ["C118_own_model_partial", "C118_name_refuted"], "note": "an aggregate called 'bottom' is forecast by the model of the bottom series"},
 {"property": "C119", "status": "proved", "theorems": ["C119_coherent", "C119_returned"], "note": "rows must be as many as the training rows for scenarios to be returned at all (C82)"},
 {"property": "C12", "status": "proved", "theorems": ["C12_day_codes"], "note": ""},
 {"property": "C120", "status": "partial", "theorems": ["C120_errors_refuted", "C120_own_errors_refuted", "C120_unchanged_partial"], "note": "method='vanilla' adds errors of the reconciled forecasts to the base forecasts Right where reconciliation changed nothing in training."},
 {"property": "C121", "status": "partial", "theorems": ["C121_weights_partial", "C121_constant_errors_refuted"], "note": "weights exist as soon as the error of one series varies; when all errors are constant (for example exact forecasts) training raises"},
 {"property": "C122", "status": "partial", "theorems": ["C122_quantiles_partial", "C122_vanilla_refuted"], "note": "method='vanilla' always raises; reconciled quantiles are those of the scenarios, with as many rows as in training"},
 {"property": "C123", "status": "proved", "theorems": ["C123_causal", "C123_split"], "note": "For any behaviour of the library's forecast, append and apply."},
 {"property": "C124", "status": "partial", "theorems": ["C124_shifted_refuted", "C124_first_row_refuted", "C124_residuals_refuted", "C124_exactly_partial", "C124_next_row_partial"], "note": "The code violates the property: the forecast of a row is made before the row is given to the model, so column t+1 of row t holds the forecast of time t; the error quantiles of a perfect model are those of the differences of the series. A cell is right exactly where the series does not change in the step before it, and the table read one row lower is right everywhere."},
 {"property": "C125", "status": "partial", "theorems": ["C125_summary_partial", "C125_few_refuted", "C125_last_ignored_refuted"], "note": "Not n_sampling resamples but the largest of 100, 600, 1100, .. below it; up to 100 raises."},
 {"property": "C126", "status": "partial", "theorems": ["C126_values_partial", "C126_size_partial", "C126_duplicates_refuted"], "note": "Holds for an index without repeated labels; with repeated labels a resample is longer than the series."},
 {"property": "C127", "status": "partial", "theorems": ["C127_rmse_partial", "C127_mape_partial", "C127_masked_partial", "C127_quantiles_refuted"], "note": "Point forecasts; a mask with quantile forecasts raises, as numpy aligns it with the wrong dimensions."},
 {"property": "C128", "status": "partial", "theorems": ["C128_balanced_partial", "C128_column_partial", "C128_small_integers_refuted", "C128_small_integers_reached", "C128_texts_refuted"], "note": "64 bit integer and float columns; int32 columns are merged into quantile bins, and text columns make the call fail, as soon as another column is a float."},
 {"property": "C129", "status": "proved", "theorems": ["C129_standardised", "C129_inverse", "C129_round_trip", "C129_monotone", "C129_network"], "note": "Exact arithmetic; the standard scaler is the library's, its definition is part of the model."},
 {"property": "C13", "status": "proved", "theorems": ["C13_freq_normalisation"], "note": ""},
 {"property": "C130", "status": "partial", "theorems": ["C130_plain_partial", "C130_scaled_refuted", "C130_network_refuted", "C130_network_scale_refuted"], "note": "Holds for the forecasters without scaler; the random feature regressor and the neural networks fit their scalers before the split, so the inputs of the training depend on the held-out rows whatever the learner."},
 {"property": "C131", "status": "proved", "theorems": ["C131_weights_kept", "C131_given_weights", "C131_rows", "C131_bounded_features", "C131_boosting"], "note": "For any generators and learners; boosting for one target and a learner that does no worse on its training data than predicting zero."},
 {"property": "C132", "status": "partial", "theorems": ["C132_others_partial", "C132_rff_refuted"], "note": "The frame given to the formatter is the scaled one with numbered columns, so every prediction with a target normaliser raises."},
 {"property": "C133", "status": "partial", "theorems": ["C133_shape_partial", "C133_rows_partial", "C133_columns_refuted"], "note": "The rows of a block are orthogonal, the frequency vectors (columns) are not: of two draws of the scales that differ in one coordinate at least one gives vectors that are not orthogonal."},
 {"property": "C134", "status": "partial", "theorems": ["C134_ordered_partial", "C134_stateful_partial", "C134_holt_winters_partial", "C134_wrapped_ordered_partial", "C134_wrapped_cover_partial", "C134_one_column_refuted"], "note": "Holds for the Fourier models, for the wrapped statsmodels and for Holt-Winters frames with more than one column. With the target as only column the error quantiles are those of the corrected forecasts and predict does not correct: a constant series v, with smoothing parameters zero, has all its quantile forecasts at 2v."},
 {"property": "C135", "status": "partial", "theorems": ["C135_round_trip_partial", "C135_one_state_partial", "C135_reset_refuted"], "note": "A missing state means keep, so the states of a model that was never run cannot be restored."},
 {"property": "C136", "status": "partial", "theorems": ["C136_aligned_partial", "C136_short_refuted"], "note": "With at most n_sa test rows the score is NaN whatever the model."},
 {"property": "C137", "status": "partial", "theorems": ["C137_within", "C137_best_partial", "C137_best_found_partial", "C137_nan_refuted"], "note": "Without NaN scores; the first trial whose score is NaN is returned as the best one."},
 {"property": "C138", "status": "proved", "theorems": ["C138_ranks"], "note": "The value column only."},
 {"property": "C139", "status": "partial", "theorems": ["C139_top_partial", "C139_shifted_refuted"], "note": "The positions are those of the largest magnitudes, but one is added: a wave of j periods is reported as j + 1."},
 {"property": "C14", "status": "proved", "theorems": ["C14_lag_names_injective", "C14_lag_names_readable", "C14_offsets_readable", "C14_offsets_injective"], "note": ""},
 {"property": "C140", "status": "proved", "theorems": ["C140_minimum", "C140_rows"], "note": "Constant forecasts over any column of data with spread, and free variances per row; exact arithmetic, distribution 'normal', kind 'maximum_likelihood'."},
 {"property": "C141", "status": "partial", "theorems": ["C141_convex_partial", "C141_feed_forward_refuted"], "note": "A number for the networks that pass the variances through a softplus; the feed-forward and recurrent networks output them unconstrained, and one output that is not positive makes the loss NaN."},
 {"property": "C142", "status": "proved", "theorems": ["C142_increasing", "C142_symmetric", "C142_exact", "C142_positive", "C142_units"], "note": "For every variance and every function with the normal density as derivative and one half at zero (such a function exists: see the example)."},
 {"property": "C143", "status": "partial", "theorems": ["C143_crps_partial", "C143_crps_mean_partial", "C143_crps_spread_partial", "C143_fitted_partial", "C143_likelihood_refuted", "C143_negative_refuted"], "note": "The ranked score trains the distribution whose quantiles are predicted, up to the 1e-10 it adds to the deviation, which makes its spread strictly larger than the predicted one; the likelihood trains the forecast to be the median, and predict_quantiles then reads it as the mean, so the predicted median is always below; observations that are not positive make the likelihood NaN."},
 {"property": "C144", "status": "partial", "theorems": ["C144_best_partial", "C144_reversed_refuted", "C144_flat_refuted"], "note": "The penalty is least exactly for forecasts that order the rows like the observations; but it correlates sorting permutations instead of ranks, so that a reversed order can be rewarded while one exchanged pair gets the worst value, and it is locally constant, so that training does not react to it."},
 {"property": "C145", "status": "proved", "theorems": ["C145_embedding"], "note": "For every batch of embeddings in which no column is entirely zero."},
 {"property": "C146", "status": "partial", "theorems": ["C146_penalty_partial", "C146_loss_partial", "C146_probabilistic_partial", "C146_deterministic_refuted", "C146_ignored_refuted"], "note": "The penalty is zero exactly when no output reacts to a control that is not a cause, the loss with it is zero exactly when in addition the predictions are exact, and the probabilistic convex network is trained with it; the deterministic one is called with an unknown keyword, and all other networks ignore the table."},
 {"property": "C147", "status": "partial", "theorems": ["C147_requested_partial", "C147_ignored_refuted"], "note": "The convex networks use the requested score and distribution; the feed-forward and recurrent ones ignore both, the causal loss ignores the distribution and the invertible network ignores that it should be probabilistic."},
 {"property": "C148", "status": "partial", "theorems": ["C148_values_partial", "C148_recent_refuted", "C148_gap_refuted"], "note": "With nested=False and complete data every computed cell is the requested window statistic, other cells are missing. Refuted: the last total-span minus one rows are always missing, and after a gap the values come from a window too early by the total span."},
 {"property": "C149", "status": "partial", "theorems": ["C149_one_lag_partial", "C149_lags_refuted"], "note": "With one lag (or none) each metadata row describes its column. Refuted for two lags and two functions: wrong function, lag and times."},
 {"property": "C15", "status": "partial", "theorems": ["C15_long_format", "C15_reorder_permutes", "C15_reorder_consistent_partial", "C15_reorder_refuted"], "note": "Consistency between training and prediction holds when all signals rank the features alike; refuted otherwise."},
 {"property": "C150", "status": "partial", "theorems": ["C150_bypassed_partial", "C150_renamed_partial", "C150_fails_refuted"], "note": "When the renaming succeeds columns without metadata keep their name and the others get the part before the lag followed by the time relative to the prediction. Refuted: with the tables the transformers build it never succeeds, the column it reads does not exist."},
 {"property": "C151", "status": "partial", "theorems": ["C151_histories_partial", "C151_distinct_refuted"], "note": "The histories never decrease, are at least the horizon and the periodicity, and the last one is m; they differ only above that floor, so several predictors can be identical."},
 {"property": "C152", "status": "partial", "theorems": ["C152_default_partial", "C152_ignored_refuted"], "note": "The arguments of the predictors are copied before the periodicity is recorded, so every predictor uses its default, the number of steps ahead."},
 {"property": "C153", "status": "partial", "theorems": ["C153_given_partial", "C153_singular_partial", "C153_ignored_refuted", "C153_limits_partial", "C153_as_given_partial", "C153_given_tuning_partial", "C153_tuning_partial", "C153_tuning_refuted"], "note": "Parameters given in submodels_pars, or under the name of the argument of the predictors, are used; alphas, omegas and ns_harmonics change nothing. The predictors tune themselves as optimize_submodels_hyperpars says, but with submodels_pars that option changes nothing."},
 {"property": "C154", "status": "partial", "theorems": ["C154_parameters_partial", "C154_constraints_refuted"], "note": "Horizons, periods and smoothing parameters are passed on; the constraints are not."},
 {"property": "C155", "status": "partial", "theorems": ["C155_within_history_partial", "C155_beyond_history_refuted", "C155_long_period_refuted", "C155_ignored_period_refuted"], "note": "With slices as python computes them, the run is the closed formula when the periodicity is at most m; with a horizon above m and the default periodicity the slice is empty and every call fails. A periodicity between m and 2m + n_sa fails on any series of m rows; from 2m + n_sa on it is silently treated as m."},
 {"property": "C156", "status": "partial", "theorems": ["C156_same_size_partial", "C156_other_size_refuted"], "note": "The record of coefficients survives the reinitialisation, and stacking rows of another length raises."},
 {"property": "C157", "status": "partial", "theorems": ["C157_first_fit_partial", "C157_later_fits_refuted", "C157_arguments_partial"], "note": "The first tuning writes optimize_hyperpars=False into the forecaster, so later fits keep the parameters of the first data set. The recorded arguments after tuning are those of the best trial, optimize_hyperpars=False, and the former ones."},
 {"property": "C158", "status": "partial", "theorems": ["C158_whole_frame_partial", "C158_stale_refuted"], "note": "Without validation rows the season stored is the last one of the frame. With a validation part it is the one before that part, so the forecasts of the following rows are older by the number of validation rows."},
 {"property": "C159", "status": "partial", "theorems": ["C159_persistent_partial", "C159_validation_partial", "C159_whole_frame_refuted"], "note": "With validation rows, and for plain persistence, forecasts in the errors use earlier values only; without them the first season of the errors is forecast from the end of the same frame."},
 {"property": "C16", "status": "proved", "theorems": ["C16_subsample_exact", "C16_unchanged", "C16_index_mismatch", "C16_seed"], "note": "Random draws are universally quantified; only numpy's contracts (distinct members, sum of the multinomial) are assumed."},
 {"property": "C160", "status": "partial", "theorems": ["C160_persistent_partial", "C160_smoothing_refuses_partial", "C160_seasonal_refuted"], "note": "Row-wise forecasts are unaffected by the choice of rows, and the smoothing models refuse the option; the seasonal benchmark treats the kept rows as consecutive."},
 {"property": "C161", "status": "partial", "theorems": ["C161_number_of_outputs_partial", "C161_sizes_refuted", "C161_selector_refuted"], "note": "With a number of layers, and a selector as long as n_out or none, there are n_out outputs. With a list of layer sizes n_out has no effect; with n_out=1 a selector of any length sets the number of outputs."},
 {"property": "C162", "status": "proved", "theorems": ["C162_heads_independent"], "note": "With split_heads an output does not depend on the parameters of the heads of the others. LayerNorm is an arbitrary function."},
 {"property": "C163", "status": "partial", "theorems": ["C163_selector_partial", "C163_skip_refuted", "C163_from_the_end_partial"], "note": "The forecast is the network's plus the selected inputs. A skip connection asked for together with a selector is dropped silently. Negative positions count from the end."},
 {"property": "C164", "status": "partial", "theorems": ["C164_centred_partial", "C164_default_refuted"], "note": "With centred inputs an untrained last layer forecasts the selected inputs. By default the inputs are scaled but not centred while the targets are centred, so the forecast is shifted by the mean of the target."},
 {"property": "C165", "status": "partial", "theorems": ["C165_frames_partial", "C165_recurrent_refuted", "C165_unnormalised_refuted", "C165_arrays_partial"], "note": "With normalisation every network but the recurrent one returns for a frame. The recurrent one always raises with normalisation; without it the others raise for a frame. Without normalisation the arrays each probabilistic network accepts are listed."},
 {"property": "C166", "status": "partial", "theorems": ["C166_end_to_end_partial", "C166_default_loss_refuted", "C166_default_forecast_refuted", "C166_default_loss_partial"], "note": "With end_to_end='full' the loss of a batch is zero exactly when every row decodes to its target. With the default the loss ignores the targets, and the forecast raises unless there are as many targets as inputs. The default loss is zero exactly when the embeddings have mean zero and unit variance."},
 {"property": "C167", "status": "partial", "theorems": ["C167_several_targets_partial", "C167_single_target_refuted", "C167_target_partial"], "note": "The loss of end_to_end='quasi' is a number when some row of embedded targets varies; for a single target it is a division by zero for any data. The target is the embedding of the window advanced by the targets."},
 {"property": "C168", "status": "partial", "theorems": ["C168_default_partial", "C168_width_refuted", "C168_accepted_partial"], "note": "n_hidden_y is stored under another name by the constructor and ignored by set_params: the width is 200 whatever is asked. The constructor accepts exactly as many inputs as targets and exogenous inputs together, or more."},
 {"property": "C169", "status": "partial", "theorems": ["C169_options_partial", "C169_truth_partial", "C169_classes_partial", "C169_network_refuted", "C169_unknown_refuted", "C169_dictionary_refuted", "C169_lstm_refuted", "C169_lstm_options_refuted"], "note": "The options the generator, its copula and its tree builder name reach them from the constructor of a forecaster, except logger. Any other name is accepted and ignored; the scengen_dict of FFNN and LSTMNN is such a name; LSTM_Forecaster drops n_scen_fit, additional_node, formatter, conditional_to_hour and logger.  The learning rate of a differentiable tree cannot be set on a network forecaster, whose own learning rate has the same name."},
 {"property": "C17", "status": "proved", "theorems": ["C17_split_partition", "C17_no_split"], "note": ""},
 {"property": "C170", "status": "partial", "theorems": ["C170_prefit_partial", "C170_online_refuted", "C170_failed_fit_refuted"], "note": "With trees asked for in the constructor, a fit on rows of every hour makes them available for every hour. Turning online_tree_reduction off later never does, and a fit that fails for a missing hour leaves trees of two fits."},
 {"property": "C171", "status": "partial", "theorems": ["C171_online_partial", "C171_prefitted_refuted"], "note": "Online the schedule passed is used. With pre-computed trees the generator refuses it but the forecaster drops it without a word."},
 {"property": "C172", "status": "partial", "theorems": ["C172_hourly_partial", "C172_conditional_refuted"], "note": "The hourly copula samples. With the conditional copula fitting works, but sampling scenarios always raises."},
 {"property": "C173", "status": "partial", "theorems": ["C173_forecasts_partial", "C173_structured_partial", "C173_quasi_partial", "C173_wide_refuted", "C173_quasi_refuted"], "note": "Holds for networks without deviations, for structured ones with scalar bounds, and for n_latent = 1 (the default). A probabilistic network raises when n_out and n_latent differ and neither is one; a probabilistic PIQCNN returns n_out numbers in all, half of them deviations."},
 {"property": "C174", "status": "partial", "theorems": ["C174_within_partial", "C174_units_refuted", "C174_min_alone_refuted", "C174_max_alone_refuted", "C174_structured_refuted", "C174_min_alone_raises_refuted"], "note": "The bounds hold for the network's own outputs. By default the target is normalised, and the bounds are applied in normalised units, so that all forecasts can lie above z_max. z_min alone raises, z_max alone is ignored, and one bound per target gives a structured network one deviation per target instead of one. "},
 {"property": "C175", "status": "partial", "theorems": ["C173_forecasts_partial", "C175_stable_refuted", "C175_set_params_refuted", "C175_layer_norm_refuted"], "note": "augment_ctrl_inputs works when given to the constructor of a network other than RecStablePICNN; there, and in set_params, it makes every forecast raise when there are two or more controls. layer_normalization never reaches the module."},
 {"property": "C176", "status": "partial", "theorems": ["C176_lengths_partial", "C176_probabilistic_refuted", "C176_bounds_refuted", "C176_default_widths_partial", "C176_given_widths_partial"], "note": "Holds for networks without deviations and with scalar or no bounds. A probabilistic network with two or more embeddings raises, since the embedding has twice the expected length; so does one bound per target. Without n_latent each part is as wide as its own output."},
 {"property": "C177", "status": "partial", "theorems": ["C177_boosters_partial", "C177_forests_partial", "C177_tuned_refuted", "C177_depth_refuted"], "note": "Boosters read their attributes at every fit, forests use the arguments of the constructor for ever. Refuted for the forest: parameters set on it, also by a trial accepted by the tuner, change what get_params reports and not the forest its next fit trains; max_depth never reaches it. (Full cross-validation trains copies built with the sampled values: C189.)"},
 {"property": "C178", "status": "partial", "theorems": ["C178_weights_partial", "C178_validation_rows_partial", "C178_held_out_refuted", "C178_default_refuted", "C178_reduction_refuted"], "note": "Without a validation part every single-step forest is trained with the weights given. Refuted otherwise: with a validation part the weights of all rows meet fewer rows and training fails; the global forest (the only one by default) never sees the weights, and red_frac_multistep does not reduce its rows."},
 {"property": "C179", "status": "partial", "theorems": ["C179_options_partial", "C179_quantiles_partial", "C179_columns_partial", "C179_options_refuted", "C179_period_refuted"], "note": "Which options predict accepts is characterised exactly; predict_quantiles always answers. Refuted: quantiles='mean', which the code compares with, and a period with parallel execution or single-step models raise; a period other than 24h makes the booster see other columns than in training."},
 {"property": "C18", "status": "proved", "theorems": ["C18_quantile_definition", "C18_quantile_monotone", "C18_quantile_bounds", "C18_quantile_coverage", "C18_error_distribution"], "note": ""},
 {"property": "C180", "status": "partial", "theorems": ["C180_size_partial", "C180_full_partial", "C180_rows_partial", "C180_draws_partial", "C180_monotone_partial", "C180_left_out_refuted", "C180_empty_refuted"], "note": "Sizes of the training set of the global booster, for all fractions up to one. Refuted: with a fraction of one observations can be left out, since rows are drawn with repetition, and with fewer rows than steps and a small fraction the set is empty."},
 {"property": "C181", "status": "partial", "theorems": ["C181_recursion_partial", "C181_no_control_partial", "C181_causal_partial", "C181_frame_refuted"], "note": "The feature of a step is the sum of the differences between the forecasts without and with control of the previous steps. Refuted: with fewer single-step models than targets every forecast raises."},
 {"property": "C182", "status": "partial", "theorems": ["C182_value_partial", "C182_descends_partial", "C182_total_partial", "C182_frame_partial", "C182_written_partial", "C182_gap_refuted", "C182_penalty_refuted"], "note": "With networks that invert each other the optimised value is that of the returned controls and no worse than the initial ones; the loop answers exactly when n_iter is at least ten. Refuted in general: the weight of the consistency penalty is zero throughout, so the reported value can be zero while the returned controls are worse than the ones given."},
 {"property": "C183", "status": "partial", "theorems": ["C183_history_partial", "C183_short_refuted"], "note": "The recorded embeddings are those of consecutive updates, ten for each round, from the embedding of the initial controls. Refuted: the round that stops the loop is not recorded, so the history ends before the solution."},
 {"property": "C184", "status": "partial", "theorems": ["C184_trained_partial", "C184_refused_partial", "C184_swapped_refuted", "C184_stale_refuted"], "note": "Frames with the training columns are accepted and scaled as declared; with all columns normalised any other order is refused. Refuted: two unnormalised columns in exchanged order are accepted and give other inputs; a network refitted without columns to normalise keeps its old scaler and cannot forecast."},
 {"property": "C185", "status": "partial", "theorems": ["C185_controls_partial", "C185_unscaled_refuted"], "note": "Unnormalised controls are found by name wherever they stand. Refuted: with all inputs declared unnormalised a convex network cannot be used at all."},
 {"property": "C186", "status": "partial", "theorems": ["C186_exogenous_partial", "C186_unscaled_partial", "C186_order_refuted", "C186_index_refuted"], "note": "Exogenous columns are found by name, and no scaler is ever fitted. Refuted: another order of the remaining columns is accepted and gives other inputs; the inverted frame has lost its index."},
 {"property": "C187", "status": "proved", "theorems": ["C187_dense", "C187_heads"], "note": "Exact arithmetic; LayerNorm is an arbitrary function per layer; for outputs without shortcuts (the shortcuts are C163)."},
 {"property": "C188", "status": "partial", "theorems": ["C188_same_labels_partial", "C188_distinct_partial", "C188_multi_smoothing_refuted", "C188_multi_adaptive_refuted", "C188_wrapped_refuted", "C188_networks_refuted"], "note": "Holds for the linear, boosted and random-feature models, the persistence benchmarks, HoltWinters, Fourier_es and FK. HoltWintersMulti raises, FK_multi and the statsmodels wrappers use other labels, networks return an array and DiscreteDistr returns None."},
 {"property": "C189", "status": "partial", "theorems": ["C189_full_partial", "C189_random_fold_partial", "C189_frozen_refuted", "C189_kept_partial", "C189_lost_refuted", "C189_networks_refuted"], "note": "Proved for full cross-validation and every parameter of the signature, and for random folds of the classes that read their attributes. LGBForecaster and QRF ignore sampled values with random folds and after the search. Attributes passed through the keyword dictionary, such as the layers of FFNN and LSTMNN, are reset to their defaults in the copies that are scored."},
 {"property": "C19", "status": "partial", "theorems": ["C19_quantiles_partial", "C19_unconditional_refuted", "C19_unconditional_raises_refuted"], "note": "Proved for conditional_to_hour=True; with False the code indexes steps by the hour (refuted)."},
 {"property": "C190", "status": "partial", "theorems": ["C190_registered_partial", "C190_unregistered_refuted"], "note": "The five registered classes have usable spaces; the default space names model__n_estimators and model__learning_rate, which no forecaster has, so the search raises."},
 {"property": "C191", "status": "partial", "theorems": ["C191_constructed_partial", "C191_stale_refuted"], "note": "Right after construction; set_params leaves the width of the control layers and the optimiser of the controls as they were."},
 {"property": "C192", "status": "partial", "theorems": ["C192_hour_partial", "C192_turns_partial", "C192_unseen", "C192_conditional_refuted"], "note": "method='conditional', which the error message names as available, returns the number 0"},
 {"property": "C193", "status": "partial", "theorems": ["C193_points_partial", "C193_quantiles_partial", "C193_paired_refuted", "C193_order_refuted"], "note": "quantile scores pair the columns of forecasts, sorted by name, with the columns of targets, in the order of the hierarchy, by position"},
 {"property": "C194", "status": "partial", "theorems": ["C194_last_fit_partial", "C194_custom_fit_refuted"], "note": "proved for the classes whose fit ends with the shared calibration, with error distributions by hour: whatever was fitted before, the scenarios have one value per row, step and scenario, obtained from the quantile curve of the last calibration errors of the hour around the forecast; DiscreteDistr, the Holt-Winters, Fourier and exponential smoothing classes and LSTM_Forecaster never fit the generator, so that predict_scenarios always fails"},
 {"property": "C195", "status": "partial", "theorems": ["C195_used_partial", "C195_refused_partial", "C195_invalid", "C195_ignored_refuted"], "note": "the classes with the shared calibration use a valid cap exactly and the Holt-Winters and Fourier classes refuse the options; invalid values are refused by all; ExponentialSmoothing accepts the cap and uses all rows"},
 {"property": "C196", "status": "partial", "theorems": ["C196_number_partial", "C196_sizes_refuted"], "note": "When n_layers is a number the recurrent network has n_out outputs. When it is a list, n_out is ignored and the last size decides."},
 {"property": "C197", "status": "proved", "theorems": ["C197_recurrence", "C197_bounded"], "note": "The unit equations of the layers, started empty for each row, and a bound that depends on the last layer and the target scaler only. Exact arithmetic."},
 {"property": "C198", "status": "partial", "theorems": ["C198_network_partial", "C198_no_interaction_refuted", "C198_history_bounded_partial"], "note": "The layer that merges the two inputs is not connected to the output: the forecast is a sum of a function of the history and one of the other columns, for every trained network. The effect of the history is bounded."},
 {"property": "C199", "status": "partial", "theorems": ["C199_forecasts_partial", "C199_state_refuted", "C199_forecasts_refuted"], "note": "reinit runs the recursion over the given values from the present state, 20 times: states that differ by an amount moved between level and season stay different for ever, which does not affect forecasts; with other differences (a trend and no smoothing) the forecasts after reinit still depend on the past."},
 {"property": "C20", "status": "partial", "theorems": ["C20_round_trip_partial", "C20_duplicate_levels_refuted"], "note": "Proved for pairwise different levels; refuted for repeated levels."},
 {"property": "C200", "status": "partial", "theorems": ["C200_score", "C200_least_partial", "C200_wrong_refuted", "C200_missing_refuted", "C200_first_missing_refuted"], "note": "The chosen parameters have the least root mean squared error among the trials, each measured from its own start: trial i runs after i+2 re-initialisations, so a trial that is better from every start can lose. The forecasts returned come from yet another start and another trend smoothing. With one missing value in the series every error is NaN and the first trial is kept, whatever it is; in general the first trial that leaves a missing forecast wins over all others."},
 {"property": "C201", "status": "proved", "theorems": ["C201_forecasts", "C201_covariates", "C201_fit"], "note": "for a factor >= 0, constraints and covariate effects in the same unit"},
 {"property": "C202", "status": "partial", "theorems": ["C202_offset_partial", "C202_fresh_refuted", "C202_constant_refuted"], "note": "holds from a state with numbers; a new forecaster starts from level 0 and both seasons at the last value, so it adds the offset twice"},
 {"property": "C203", "status": "proved", "theorems": ["C203_factor", "C203_offset", "C203_sign", "C203_persistence", "C203_seasonal"], "note": ""},
 {"property": "C204", "status": "partial", "theorems": ["C204_rmse_partial", "C204_rmse_offset_partial", "C204_scores_partial", "C204_scores_offset_partial", "C204_crps_partial", "C204_crps_offset_partial", "C204_reliability_partial", "C204_mape_refuted", "C204_nmae_refuted"], "note": "mape and nmae add a constant with a unit to their denominator"},
 {"property": "C205", "status": "proved", "theorems": ["C205_fourier_rows", "C205_fourier_causal", "C205_fk_rows", "C205_fk_causal", "C205_fk_row"], "note": ""},
 {"property": "C206", "status": "proved", "theorems": ["C206_fourier", "C206_fourier_fresh", "C206_fk", "C206_filter"], "note": "the products with the basis, the filter and the correlations of FK are operations with the contract named follows; C206_filter proves its first part for the filter itself"},
 {"property": "C207", "status": "partial", "theorems": ["C207_offset_partial", "C206_fk", "C207_filter_partial", "C207_fresh_refuted", "C207_constant_refuted"], "note": "holds from a state that has the offset, with fewer harmonics than half the window; a new forecaster takes its last forecast to be 0 and counts the whole first value as an error"},
 {"property": "C208", "status": "proved", "theorems": ["C208_exact", "C208_mean"], "note": "Exact arithmetic; constant forecasts for the minimum."},
 {"property": "C209", "status": "proved", "theorems": ["C209_value", "C209_unique"], "note": "One row, exact arithmetic, without layer normalisation; the part of the network with bounds on the outputs is squeezed between them. The standard deviations of a probabilistic network are C97."},
 {"property": "C21", "status": "proved", "theorems": ["C21_probability_mass", "C21_always_defined"], "note": ""},
 {"property": "C210", "status": "partial", "theorems": ["C210_common_partial", "C210_adaptive_partial", "C210_network_partial", "C210_seed_refuted", "C210_copies_refuted"], "note": "Quantile levels, validation share and tree nodes are named by all 28 constructors. The seed and the row limit of the scenario generator are accepted by every constructor through its keyword dictionary but named by four: elsewhere a search over them is refused and a copy made during cross-validation falls back to the defaults."},
 {"property": "C211", "status": "partial", "theorems": ["C211_tree", "C211_origin", "C211_unit_partial", "C211_unit_refuted"], "note": "Every set of scenarios of moderate size is reduced to a tree with the code's own distance. Offsets per variable and step leave number, probabilities and shape, and move the values. Refuted for units: for every factor other than one some scenarios are reduced to another number, because 1e-6 is added to the standard deviation; proved for mirrored values, and for any factor if all variables spread alike at all steps."},
 {"property": "C212", "status": "proved", "theorems": ["C212_weights", "C212_offset", "C212_linear"], "note": "Weights of minT are unchanged by any factor and any constant bias per series of the errors. Reconciled forecasts scale with the unit and follow an offset exactly if the offset itself is coherent; they are linear in the base forecasts. Stated for dummy and minT (bayes raises, C83)."},
 {"property": "C213", "status": "partial", "theorems": ["C213_copula", "C213_shrunk_refuted", "C213_offset", "C213_unit_partial", "C213_unit_refuted"], "note": "Sample correlations do not see units or offsets of the steps, and moving the data moves the scenarios. The diagonal of the shrunk matrices is unchanged only if all steps have the same factor, and the noise of the scenarios is absolute: with a factor other than 1, scenarios follow only where the noise is zero."},
 {"property": "C214", "status": "partial", "theorems": ["C214_cells", "C214_covered", "C214_order", "C214_once_partial", "C214_once_refuted"], "note": "Every scenario stays in some node of every step, the values of siblings are ordered, and which scenarios a child gets is characterised. They are not shared out exactly: scenarios within 1e-6 below an inner boundary, in particular one lying on a quantile, go to both neighbours; this is the only overlap, except for children whose cell is empty, which get all of the parent."},
 {"property": "C215", "status": "partial", "theorems": ["C215_zero", "C215_unit", "C215_gradient", "C215_descends_partial", "C215_default_partial", "C215_default_refuted"], "note": "The loss vanishes exactly for trees containing all scenarios, scales with the square of the unit, and its gradient (where no scenario has two nearest paths) is the one used. Fitting never ends above the loss it starts from if rate times scenarios is at most the number of steps, so with the default rate for up to ten scenarios per step; beyond this, for every unbranched tree away from the mean, the default rate makes the loss larger than at the start."},
 {"property": "C216", "status": "partial", "theorems": ["C216_between", "C216_zero_partial", "C216_zero_refuted"], "note": "The smooth loss lies between the loss of the nearest paths and that of the average over all paths. It vanishes only if every path equals every scenario: a tree that contains every scenario and has two different paths has a positive smooth loss."},
 {"property": "C217", "status": "proved", "theorems": ["C217_counts", "C217_round_trip"], "note": "For rooted trees the list has one entry per step that occurs, each entry counts the nodes of its step, and the entries sum to the number of nodes; for quantile trees it is the specification the tree was built from."},
 {"property": "C218", "status": "partial", "theorems": ["C218_columns_partial", "C218_once", "C218_leaves_refuted", "C218_strangers_refuted"], "note": "The check accepts a frame iff the columns of the base forecasts are the series of the frame, and each has one column. It does not compare them with the hierarchy: a frame with the aggregates only is accepted although the leaves are missing, and so is every accepted frame with a further series that belongs to no aggregate."},
 {"property": "C219", "status": "partial", "theorems": ["C219_scale", "C219_convex_partial", "C219_monotone_partial"], "note": "For all random draws a network with its initial weights is convex in the control inputs, and monotone if the recurrent activation is non-negative (then both kernels start from positive numbers). Missing, as in C53: bounded outputs for convexity and augmented inputs for monotonicity; layer normalisation is not modelled."},
 {"property": "C22", "status": "proved", "theorems": ["C22_encoding_history", "C22_encoding_never_changes", "C22_code_unique", "C22_code_order", "C22_code_range"], "note": ""},
 {"property": "C23", "status": "proved", "theorems": ["C23_params_round_trip"], "note": ""},
 {"property": "C24", "status": "proved", "theorems": ["C24_interpolation", "C24_all_steps", "C24_monotone", "C24_within_range", "C24_level_order", "C24_scenarios", "C24_wrong_init", "C24_tails_refuted"], "note": "The last theorem says exactly when a draw below the lowest level falls below any given bound: the curve is extrapolated, so scenarios of nonnegative quantiles can be negative."},
 {"property": "C25", "status": "proved", "theorems": ["C25_probability"], "note": "Exact arithmetic; any distance below the 10^12 the code uses as infinity; argsort tie-breaking arbitrary."},
 {"property": "C26", "status": "proved", "theorems": ["C26_tree", "C26_counts", "C26_exact_counts", "C26_one_root", "C26_tolerance"], "note": "The record reduced (Spec/ScenredSpec.v) says which original scenario each kept one stands for at every step."},
 {"property": "C27", "status": "partial", "theorems": ["C27_network", "C27_any_tree", "C27_needs_root", "C27_same_start_refuted", "C27_equal_values_refuted", "C27_one_step_refuted"], "note": "Proved when scenarios differ at every step; with a common first value the reduction keeps several roots and raises, nodes with equal values at a step are merged into one, and one-step scenarios give an empty graph."},
 {"property": "C28", "status": "proved", "theorems": ["C28_superimpose", "C28_predicted_trees", "C28_probabilities", "C28_unseen_hour"], "note": "Heap of tree objects: everything stored before the call is unchanged, results are new objects. Serial path."},
 {"property": "C29", "status": "proved", "theorems": ["C29_quantile_tree", "C29_domain"], "note": ""},
 {"property": "C30", "status": "partial", "theorems": ["C30_quantile_scores", "C30_crps", "C30_constant_optimal", "C30_layout_refuted"], "note": "Proved for unambiguous layouts; the second documented layout is misread when the numbers of levels and targets agree."},
 {"property": "C31", "status": "partial", "theorems": ["C31_reliability_partial", "C31_monotone", "C31_missing_refuted"], "note": "Proved for complete observations; a missing observation counts as non-exceedance."},
 {"property": "C32", "status": "partial", "theorems": ["C32_rmse", "C32_mape", "C32_nmae", "C32_rmse_overall", "C32_mape_overall", "C32_nmae_overall", "C32_scorer_partial", "C32_scorer_square_refuted", "C32_axis_refuted"], "note": "Proved when the number of labels identifies the axis, and without labels (a single row labelled 1); refuted for square frames."},
 {"property": "C33", "status": "partial", "theorems": ["C33_coherent_partial", "C33_labels_refuted", "C33_positions"], "note": "Coherent for every projection when the forecast columns come in the order used for fitting; otherwise the result is labelled by position and can be incoherent."},
 {"property": "C34", "status": "proved", "theorems": ["C34_unchanged", "C34_twice", "C34_projection"], "note": ""},
 {"property": "C35", "status": "proved", "theorems": ["C35_leaves", "C35_cycle"], "note": "Recursion over the hierarchy; a cyclic hierarchy never unrolls."},
 {"property": "C36", "status": "proved", "theorems": ["C36_partition", "C36_any_cut_points"], "note": "Split points with exact division (sizes differ by at most one); for any non-decreasing cut points (e.g. rounded ones) nothing is lost."},
 {"property": "C37", "status": "partial", "theorems": ["C37_pieces_in_order", "C37_pairs_in_order", "C37_slicewise_partial", "C37_missing_task_no_result", "C37_arrays_lose_data_refuted"], "note": "Proved for the ray path, for every order of execution; the path for plain arrays (use_ray=False) applies f to the first piece only and loses the rest."},
 {"property": "C38", "status": "proved", "theorems": ["C38_integers_unchanged"], "note": "Signed integer columns of any width; unsigned ones are not touched by the code."},
 {"property": "C39", "status": "partial", "theorems": ["C39_chunks_partial", "C39_causal_partial", "C39_after_missing_refuted"], "note": "Proved for every state made of numbers (as a fit on a complete series leaves it); after a missing value the memory restarts from the last value of the next call, so forecasts depend on later rows."},
 {"property": "C40", "status": "partial", "theorems": ["C40_complete_series_partial", "C40_missing_poisons_refuted"], "note": "Without missing values all forecasts are numbers; after one missing value every forecast of the call is NaN."},
 {"property": "C41", "status": "partial", "theorems": ["C41_first_reaching_partial", "C41_errors_single_model_partial", "C41_errors_unfilled_refuted", "C41_any_order", "C41_unsorted_refuted"], "note": "Point forecasts: proved for increasing horizons; in any other order the last model that crosses a step fills it. Error quantiles: the next model starts at the number of quantiles, leaving rows at zero."},
 {"property": "C42", "status": "proved", "theorems": ["C42_seasonal_values_within", "C42_within_after_a_period", "C42_unchanged_inside", "C42_windows", "C42_residuals_aligned"], "note": "Clipping of the seasonal values, Hankel windows and the alignment of residuals."},
 {"property": "C43", "status": "proved", "theorems": ["C43_window_is_last_values", "C43_window_across_calls"], "note": "windows over any value type"},
 {"property": "C44", "status": "partial", "theorems": ["C44_predict_leaves_no_trace_fourier", "C44_predict_leaves_no_trace_fk", "C44_chunked_fit_partial", "C44_chunked_fit_refuted", "C44_record_grows_refuted"], "note": "predictions never influence later outputs; fitting in chunks agrees only when the first chunk is a whole number of windows (the phase restarts at each call); FK's record of coefficients grows with every predict"},
 {"property": "C45", "status": "proved", "theorems": ["C45_experts_hull", "C45_weights_probability", "C45_scores_probability"], "note": "Kalman step abstract; rows that are not NaN"},
 {"property": "C46", "status": "partial", "theorems": ["C46_covariance_valid", "C46_gain_optimal", "C46_reported_not_larger_partial", "C46_reported_covariance_refuted"], "note": "the covariance is corrected twice, so it is a valid covariance but smaller than the error covariance of the estimate"},
 {"property": "C47", "status": "partial", "theorems": ["C47_persistent_repeats", "C47_seasonal_values_partial", "C47_seasonal_causal", "C47_seasonal_long_horizon_refuted", "C47_seasonal_one_step_late_refuted"], "note": "The persistent forecaster repeats the last value and the seasonal one is causal, but the seasonal values are one step late (row i, step h is value i+h of state++x), and horizons beyond the season plus one raise."},
 {"property": "C48", "status": "partial", "theorems": ["C48_probabilities", "C48_probability_sum", "C48_expected_is_mean", "C48_missing_times_zero_refuted"], "note": "Holds for times of day with at least one present value; times with only missing values get an all-zero distribution."},
 {"property": "C49", "status": "partial", "theorems": ["C49_parallel_refit_partial", "C49_serial_refit_refuted", "C49_lgb_refit_refuted", "C49_brutal_refit_refuted"], "note": "Holds for hybrids fitted in parallel; serial hybrids and the brutal regressor keep using the first data, and LGBForecaster raises on a second fit."},
 {"property": "C50", "status": "proved", "theorems": ["C50_steps_covered", "C50_single_beyond_horizon", "C50_multi_step_training_rows", "C50_lgb_steps"], "note": "Learners are parameters of the model."},
 {"property": "C51", "status": "partial", "theorems": ["C51_boosting_decomposition", "C51_brutal_decomposition", "C51_bins_valid", "C51_full_samples_numbers_partial", "C51_empty_bin_refuted"], "note": "Decomposition and bin validity hold for every sequence of learners; a bin with no sampled row has no mean (NaN)."},
 {"property": "C52", "status": "proved", "theorems": ["C52_only_constrained_weights_change", "C52_nonnegative", "C52_names", "C52_succeeds", "C52_idempotent", "C52_invariant_of_training"], "note": "Exactly the constrained kernels are replaced by their positive part; invariant along every training history, for every optimiser."},
 {"property": "C53", "status": "partial", "theorems": ["C53_convex_partial", "C53_monotone_partial", "C53_fitted_convex_partial", "C53_fitted_monotone_partial", "C53_relu_convex", "C53_relu_nondecreasing", "C53_bounded_output_refuted", "C53_augmented_refuted"], "note": "Convexity and monotonicity for every depth and width without layer normalisation, also for whatever NN.fit returns. False with z_min/z_max (the sigmoid is not convex) and, for monotonicity, with augmented controls: refuted."},
 {"property": "C54", "status": "partial", "theorems": ["C54_linloglin_undone_partial", "C54_linloglin_nearly_undone", "C54_linloglin_increasing_partial", "C54_linloglin_nondecreasing", "C54_linloglin_flat_refuted", "C54_invcondiff_undone_partial", "C54_invcondiff_increasing", "C54_invcondiff_clipped_refuted", "C54_leaky_undone", "C54_softplus_undone"], "note": "Exact real arithmetic. linloglin is undone except within 1e-12 of zero, where it is constant on each side (refuted); invcondiff is undone up to exp 12, beyond which the inverse is clipped (refuted)."},
 {"property": "C55", "status": "partial", "theorems": ["C55_undone_partial", "C55_leaky_undone_partial", "C55_default_undone_partial", "C55_causal", "C55_weights_layout", "C55_identity_refuted"], "note": "Causality is proved for all networks. Inversion needs every activation to be undone where it is used: always for leaky relu with the layer's own slope, away from zero for the default; false for the identity activation (refuted)."},
 {"property": "C56", "status": "proved", "theorems": ["C56_epoch_batches", "C56_each_row_once", "C56_rows_left_out_refuted", "C56_small_sample_refuted", "C56_oversized_batch_refuted"], "note": "Batches are disjoint, of the batch size and from a permutation. Also proved: rows left out when the size does not divide, the ZeroDivisionError below ten rows, and an untrained result for batches larger than the sample."},
 {"property": "C57", "status": "partial", "theorems": ["C57_early_stop_best_partial", "C57_patience_ignored_refuted", "C57_out_of_epochs_refuted"], "note": "Proved when training stops early and rel_tol >= 0. When the epochs run out the last parameters are kept, evaluated or not (refuted). stopping_rounds never has an effect for rel_tol >= 0."},
 {"property": "C58", "status": "partial", "theorems": ["C58_samples_aligned", "C58_predictions_aligned", "C58_exact_network_exact_forecast", "C58_only_past_rows", "C58_split_overlap_refuted"], "note": "Windows, exogenous rows and targets are aligned for every length and history; the validation targets overlap the training targets as soon as the horizon is at least two."},
 {"property": "C59", "status": "partial", "theorems": ["C59_copula_partial", "C59_single_scenario_refuted", "C59_unseen_hour"], "note": "Proved for every number of scenarios except one; a single scenario always raises."},
 {"property": "C60", "status": "partial", "theorems": ["C60_score_is_mean", "C60_named_score_is_mean", "C60_search_best_partial", "C60_unknown_name_refused", "C60_random_fold_single", "C60_random_fold_masks", "C60_random_fold_range_index_partial", "C60_random_fold_names_refuted", "C60_random_fold_datetime_refuted", "C60_random_fold_labels_refuted"], "note": "Scores are means over the folds and the best trial is returned given the study's contract. With cv_type 'random fold', a dictionary of scorers raises KeyError and positional folds are read as labels. The random search of the Holt-Winters models is C87."},
 {"property": "C61", "status": "partial", "theorems": ["C61_round_trip", "C61_full_product_partial", "C61_after_selection_refuted"], "note": "Proved for frames whose columns are all pairs of level labels in order; after a selection of columns the level sizes are stale and rows are mixed silently."},
 {"property": "C62", "status": "partial", "theorems": ["C62_point_forecasts", "C62_latent_partial", "C62_gaussian_quantiles_partial", "C62_own_hour_partial", "C62_empirical_quantiles_refuted", "C62_latent_depth_refuted"], "note": "Point forecasts survive saving and loading for every class but LatentStructuredPICNN, which needs its encoder and decoder depths passed again. The error distribution is not saved: quantiles of a loaded non-probabilistic network raise KeyError."},
 {"property": "C63", "status": "partial", "theorems": ["C63_refinement", "C63_positions", "C63_returned_values_refuted"], "note": "Refinement never fails and stays in range; the returned value list is one iteration old (refuted)."},
 {"property": "C64", "status": "proved", "theorems": ["C64_paths"], "note": ""},
 {"property": "C65", "status": "partial", "theorems": ["C65_simulation_partial", "C65_chained_refuted"], "note": "Simulation fails on transformers that read columns of earlier transformers."},
 {"property": "C66", "status": "partial", "theorems": ["C66_threads_partial", "C66_chained_refuted"], "note": "Equal when every transformer reads original columns only; refuted for chained transformers."},
 {"property": "C67", "status": "proved", "theorems": ["C67_time_limits"], "note": ""},
 {"property": "C68", "status": "partial", "theorems": ["C68_two_folds_refuted", "C68_short_history_partial", "C68_five_folds_partial"], "note": "Refuted for n_k = 2, which the code accepts: every training set is empty. Every fold has training rows if the features look back less than half of the time outside of a test window; with five folds or more this is always so."},
 {"property": "C69", "status": "partial", "theorems": ["C69_starved_hour_refuted", "C69_kept_partial"], "note": "The code violates the property: an hour may receive no row. An hour is kept if it has more rows than are left out, or if the draw over the hours gives it a row."},
 {"property": "C70", "status": "partial", "theorems": ["C70_caller_frame_refuted", "C70_numeric_partial"], "note": "The code violates the property: categorical columns are overwritten in the caller's frame. A successful call changes the frame exactly if it has a categorical column; numeric columns are kept and a second call changes nothing."},
 {"property": "C71", "status": "partial", "theorems": ["C71_training_frozen_refuted", "C71_training_stale_refuted", "C71_levels_stale_refuted", "C71_constructed_partial", "C71_levels_partial"], "note": "The code violates the property: LightGBM parameters and scenario levels are frozen in the constructor. Right as long as set_params is not called."},
 {"property": "C72", "status": "partial", "theorems": ["C72_copy_partial", "C72_copy_refuted", "C72_kept_partial", "C72_reset_refuted"], "note": "Stored constructor arguments survive; nodes_at_step and everything passed through scengen_kwgs are lost."},
 {"property": "C73", "status": "partial", "theorems": ["C73_documented_layout", "C73_own_frame_refuted"], "note": "The documented layout works; the frame that predict_quantiles itself returns is refused or silently transposed."},
 {"property": "C74", "status": "partial", "theorems": ["C74_without_node_partial", "C74_additional_node_refuted"], "note": "predict_scenarios with additional_node raises for every horizon longer than one step."},
 {"property": "C75", "status": "partial", "theorems": ["C75_initial_values_partial", "C75_own_step_refuted"], "note": "Values lie in the range of the previous step's scenarios, not of their own step."},
 {"property": "C76", "status": "partial", "theorems": ["C76_kept_partial", "C76_length_refuted"], "note": "The schedule length is compared with the number of scenarios, not of steps: a schedule of that length gets an extra step; the caller's array is modified."},
 {"property": "C77", "status": "partial", "theorems": ["C77_nearest_refuted", "C77_tolerance_refuted", "C77_pull_partial", "C77_nearest_partial", "C77_two_leaves_partial"], "note": "The code violates the property: argsort output is used as ranks, and the stopping tolerance has no effect. A pull never moves beyond the drawn scenario; the order is right where the sorting permutation is its own inverse, in particular for two leaves."},
 {"property": "C78", "status": "partial", "theorems": ["C78_descent_refuted", "C78_descent_partial"], "note": "The code violates the property for every loss: the rate never changes and the returned scenarios are those before optimisation. The tree values are those of gradient descent with the initial rate and their loss does not grow if no step grows it."},
 {"property": "C79", "status": "proved", "theorems": ["C79_nearest", "C79_weights_exist"], "note": "Over any ordered field; the precision matrix estimated by scikit-learn is assumed positive definite."},
 {"property": "C80", "status": "partial", "theorems": ["C80_levels_partial", "C80_from_top_partial", "C80_top_refuted"], "note": "Levels are distances from the chosen root, which is the first aggregate with most leaves; it is the top whenever the top has two members, otherwise it need not be."},
 {"property": "C81", "status": "partial", "theorems": ["C81_last_step_refuted", "C81_own_step_refuted", "C81_proportional_partial"], "note": "The code violates the property: every step is reconciled with the weights of the last one. Right for the steps whose weights are proportional to those of the last step."},
 {"property": "C82", "status": "partial", "theorems": ["C82_training_hours_partial", "C82_other_length_refuted", "C82_no_scenarios_refuted"], "note": "Errors are chosen by the hour of the training row at the same position; any prediction frame of another length raises."},
 {"property": "C83", "status": "partial", "theorems": ["C83_bayes_refuted", "C79_weights_exist", "C79_nearest"], "note": "The code violates the property: label alignment makes every Bayesian reconciliation raise. The methods dummy and minT work for positive definite weights."},
 {"property": "C84", "status": "partial", "theorems": ["C84_never_larger_partial", "C84_width", "C84_extreme_values_grow_refuted", "C84_callers_frame_refuted"], "note": "The width is the smallest whose interior holds the values; away from extreme values the type never grows; a narrow column holding its extreme value gets twice the width; the serial path changes the caller's frame."},
 {"property": "C85", "status": "partial", "theorems": ["C85_floats_close_partial", "C85_large_columns_unchanged", "C85_kept_exactly", "C85_again", "C85_distinct_values_collapse_refuted"], "note": "Order, NaN positions, integers up to 2^24 and relative precision 2^-24 are kept; a value is kept exactly if single precision represents it, and reducing again changes nothing; distinct values can become equal."},
 {"property": "C86", "status": "proved", "theorems": ["C86_seasonal_series_exact"], "note": "Any smoothing parameters, any start phase."},
 {"property": "C87", "status": "partial", "theorems": ["C87_parallel_best_partial", "C87_serial_fails_refuted", "C87_serial_one_partial"], "note": "The parallel search returns the first best trial; the serial one fails from the second trial on since the first overwrites the shared arguments."},
 {"property": "C88", "status": "partial", "theorems": ["C88_no_trend_partial", "C88_trend_dropped_refuted", "C88_trend_held_refuted", "C88_refit_keeps_state_refuted"], "note": "With beta=0 predict runs the fitted recursion; otherwise predict holds the trend, and the first forecast differs exactly if alpha and beta are not 0 and the observation is not the one expected. A second fit starts from the state of the first."},
 {"property": "C89", "status": "partial", "theorems": ["C89_basis_orthonormal_partial", "C89_basis_periodic", "C89_half_window_refuted"], "note": "orthonormal when 2 n_harmonics < m; the code also allows n_harmonics = m/2, whose sine column is zero"},
 {"property": "C90", "status": "proved", "theorems": ["C90_coefficients_converge", "C90_forecasts_exact"], "note": "real arithmetic; full window in memory"},
 {"property": "C91", "status": "partial", "theorems": ["C91_late_expert_preferred_refuted", "C91_ranking_partial", "C91_flat_partial"], "note": "errors compare the forecast of row i+1 with the observation of row i The ranking follows the distance between the forecasts of the next value and the present one, which is the right order if the value does not change."},
 {"property": "C92", "status": "partial", "theorems": ["C92_no_error_gives_nan_refuted", "C92_numbers_partial"], "note": "0/0 when every expert is exact; contract of the filter: a NaN observation gives a NaN state The weights are undefined exactly if all forecasts of the next value equal the present one."},
 {"property": "C93", "status": "partial", "theorems": ["C93_unseen_time_zero_refuted", "C48_expected_is_mean"], "note": "The code predicts 0 for a time of day never seen in training. For times seen the forecast is the regularised mean."},
 {"property": "C94", "status": "partial", "theorems": ["C94_energy_models_partial", "C94_energy_models_replaced_refuted"], "note": "With parallel fitting (the default) the energy-aware models are replaced by plain ones trained on the validation part."},
 {"property": "C95", "status": "partial", "theorems": ["C95_mean_shape_partial", "C95_quantile_shape_refuted"], "note": "Exact characterisation: horizon 1 with several rows (mean), and a single multi-step column (quantiles), raise."},
 {"property": "C96", "status": "partial", "theorems": ["C96_quantiles_scrambled_refuted", "C96_quantiles_wrong_refuted", "C96_one_target_partial"], "note": "The conversion mixes steps and levels. Right for one target."},
 {"property": "C97", "status": "partial", "theorems": ["C97_sigma_positive", "C97_bounded_output", "C97_derivative_net_refuted", "C97_sigmoid_net_refuted"], "note": "Standard deviations and bounded outputs are proved; the two quasi-convex variants are not quasi-convex (refuted by explicit networks)."},
 {"property": "C98", "status": "partial", "theorems": ["C98_identity_refuted", "C98_inverse_refuted", "C98_softplus_collapse_refuted", "C98_softplus_large_partial", "C98_leaky_other_slope_refuted"], "note": "The layer's inverse is wrong for the identity and invcondiff_inverse activations, loses small softplus values, and ignores the slope the activation was built with."},
 {"property": "C99", "status": "partial", "theorems": ["C99_zero_full_loss_exact", "C99_zero_quasi_loss_refuted"], "note": "Proved for the 'full' loss; with the 'quasi' loss a zero error does not give the target (refuted)."}
]}
