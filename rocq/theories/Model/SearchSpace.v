(** Model of the default search spaces of the tuner and of what one trial trains: trainer.py:12-15, 41-69, 93-98, 125-129,
    dictionaries.py:5-36, forecaster.py:90-94, and the copy that sklearn's cross_validate makes of the estimator. *)
From Coq Require Import String List Arith Bool.
From Verif Require Import Model.FkConfig Model.ScenConfig Model.Forest.
Import ListNotations.
Local Open Scope string_scope.
Local Open Scope list_scope.

(** ** Parameters of the constructors, the keyword dictionary included *)
(** ScenarioGenerator, forecaster.py:57-62. *)
Definition sig_scenariogenerator : list string :=
  ["q_vect"; "nodes_at_step"; "val_ratio"; "logger"; "n_scen_fit"; "additional_node"; "formatter"; "conditional_to_hour";
   "max_scengen_rows"; "scengen_random_state"; "scengen_kwgs"].
(** LinearForecaster, forecaster.py:326-331. *)
Definition sig_linearforecaster : list string :=
  ["q_vect"; "val_ratio"; "nodes_at_step"; "kind"; "max_scengen_rows"; "scengen_random_state"; "scengen_kwgs"].
(** LGBForecaster, forecaster.py:359-364. *)
Definition sig_lgbforecaster : list string :=
  ["device_type"; "max_depth"; "n_estimators"; "num_leaves"; "learning_rate"; "min_child_samples"; "n_jobs"; "n_jobs_predict";
   "objective"; "verbose"; "metric"; "colsample_bytree"; "colsample_bynode"; "q_vect"; "val_ratio"; "nodes_at_step";
   "max_scengen_rows"; "scengen_random_state"; "scengen_kwgs"].
(** Persistent, benchmarks.py:7-12. *)
Definition sig_persistent : list string :=
  ["target_col"; "n_sa"; "q_vect"; "val_ratio"; "nodes_at_step"; "conditional_to_hour"; "scengen_kwgs"].
(** SeasonalPersistent, benchmarks.py:36-41. *)
Definition sig_seasonalpersistent : list string :=
  ["target_col"; "seasonality"; "n_sa"; "q_vect"; "val_ratio"; "nodes_at_step"; "conditional_to_hour"; "scengen_kwgs"].
(** DiscreteDistr, benchmarks.py:69-74. *)
Definition sig_discretedistr : list string :=
  ["period"; "q_vect"; "val_ratio"; "nodes_at_step"; "conditional_to_hour"; "scengen_kwgs"].
(** Fourier_es, fast_adaptive_models.py:157-162. *)
Definition sig_fourier_es : list string :=
  ["target_name"; "targets_names"; "n_sa"; "m"; "val_ratio"; "optimize_hyperpars"; "optimization_budget"; "verbose";
   "nodes_at_step"; "q_vect"; "alpha"; "omega"; "n_harmonics"; "periodicity"; "scengen_kwgs"].
(** FK, fast_adaptive_models.py:306-311. *)
Definition sig_fk : list string :=
  ["target_name"; "targets_names"; "n_sa"; "alpha"; "m"; "omega"; "n_harmonics"; "val_ratio"; "nodes_at_step"; "q_vect";
   "periodicity"; "optimize_hyperpars"; "optimization_budget"; "r"; "q"; "verbose"; "scengen_kwgs"].
(** FK_multi, fast_adaptive_models.py:427-432. *)
Definition sig_fk_multi : list string :=
  ["target_name"; "targets_names"; "n_sa"; "n_predictors"; "alphas"; "m"; "omegas"; "ns_harmonics"; "val_ratio";
   "nodes_at_step"; "q_vect"; "periodicity"; "base_predictor"; "optimize_hyperpars"; "optimize_submodels_hyperpars";
   "optimization_budget"; "r"; "q"; "verbose"; "submodels_pars"; "scengen_kwgs"].
(** LGBMHybrid, gradientboosters.py:13-18. *)
Definition sig_lgbmhybrid : list string :=
  ["device_type"; "max_depth"; "n_estimators"; "num_leaves"; "learning_rate"; "min_child_samples"; "n_jobs"; "objective";
   "tol_period"; "colsample_bytree"; "colsample_bynode"; "verbose"; "metric"; "n_single"; "red_frac_multistep"; "q_vect";
   "val_ratio"; "nodes_at_step"; "formatter"; "metadata_features"; "keep_last_n_lags"; "keep_last_seconds"; "parallel";
   "scengen_kwgs"].
(** LGBEnergyAware inherits the constructor, gradientboosters.py:175. *)
Definition sig_lgbenergyaware : list string := sig_lgbmhybrid.
(** HoltWinters, holtwinters.py:135-140. *)
Definition sig_holtwinters : list string :=
  ["periods"; "target_name"; "targets_names"; "q_vect"; "val_ratio"; "nodes_at_step"; "optimization_budget"; "n_sa";
   "constraints"; "optimize_hyperpars"; "alpha"; "beta"; "gamma_1"; "gamma_2"; "verbose"; "scengen_kwgs"].
(** HoltWintersMulti, holtwinters.py:386-391. *)
Definition sig_holtwintersmulti : list string :=
  ["periods"; "target_name"; "targets_names"; "q_vect"; "val_ratio"; "nodes_at_step"; "optimization_budget";
   "optimize_hyperpars"; "optimize_submodels_hyperpars"; "n_sa"; "constraints"; "models_periods"; "verbose"; "alphas";
   "gammas_1"; "gammas_2"; "scengen_kwgs"].
(** RFFRegression, random_fourier_features.py:334-339. *)
Definition sig_rffregression : list string :=
  ["dim_kernel"; "std_kernel"; "W"; "b"; "q_vect"; "nodes_at_step"; "val_ratio"; "logger"; "n_scen_fit"; "additional_node";
   "base_model"; "scengen_kwgs"].
(** AdditiveRFFRegression, random_fourier_features.py:365-370. *)
Definition sig_additiverffregression : list string :=
  ["n_models"; "dim_kernel"; "std_kernel"; "W"; "b"; "q_vect"; "nodes_at_step"; "val_ratio"; "logger"; "n_scen_fit";
   "additional_node"; "base_model"; "scengen_kwgs"].
(** QRF, randomforests.py:12-17. *)
Definition sig_qrf : list string :=
  ["n_estimators"; "q_vect"; "val_ratio"; "nodes_at_step"; "metadata_features"; "n_single"; "red_frac_multistep"; "tol_period";
   "keep_last_n_lags"; "keep_last_seconds"; "criterion"; "max_depth"; "min_samples_split"; "min_samples_leaf";
   "max_samples_leaf"; "min_weight_fraction_leaf"; "max_features"; "max_leaf_nodes"; "min_impurity_decrease"; "bootstrap";
   "oob_score"; "n_jobs"; "random_state"; "verbose"; "warm_start"; "ccp_alpha"; "max_samples"; "parallel";
   "max_parallel_workers"; "max_scengen_rows"; "scengen_random_state"; "scengen_kwgs"].
(** ExponentialSmoothing, statsmodels_wrapper.py:52-57. *)
Definition sig_exponentialsmoothing : list string :=
  ["target_name"; "q_vect"; "nodes_at_step"; "val_ratio"; "n_sa"; "trend"; "seasonal"; "scengen_kwgs"].
(** PICNN, ICNN.py:288-293. *)
Definition sig_picnn : list string :=
  ["learning_rate"; "batch_size"; "load_path"; "n_hidden_x"; "n_out"; "n_latent"; "n_layers"; "pars"; "q_vect"; "val_ratio";
   "nodes_at_step"; "n_epochs"; "savepath_tr_plots"; "stats_step"; "rel_tol"; "unnormalized_inputs"; "normalize_target";
   "stopping_rounds"; "subtract_mean_when_normalizing"; "causal_df"; "probabilistic"; "probabilistic_loss_kind";
   "distribution"; "inverter_learning_rate"; "optimization_vars"; "target_columns"; "init_type"; "augment_ctrl_inputs";
   "layer_normalization"; "z_min"; "z_max"; "inverter_class"; "scengen_kwgs"].
(** PIQCNN, ICNN.py:441-446. *)
Definition sig_piqcnn : list string :=
  ["learning_rate"; "batch_size"; "load_path"; "n_hidden_x"; "n_out"; "n_latent"; "n_layers"; "pars"; "q_vect"; "val_ratio";
   "nodes_at_step"; "n_epochs"; "savepath_tr_plots"; "stats_step"; "rel_tol"; "unnormalized_inputs"; "normalize_target";
   "stopping_rounds"; "subtract_mean_when_normalizing"; "causal_df"; "probabilistic"; "probabilistic_loss_kind";
   "distribution"; "inverter_learning_rate"; "optimization_vars"; "target_columns"; "init_type"; "augment_ctrl_inputs";
   "layer_normalization"; "z_min"; "z_max"; "scengen_kwgs"].
(** PIQCNNSigmoid, ICNN.py:478-483. *)
Definition sig_piqcnnsigmoid : list string :=
  ["learning_rate"; "batch_size"; "load_path"; "n_hidden_x"; "n_out"; "n_latent"; "n_layers"; "pars"; "q_vect"; "val_ratio";
   "nodes_at_step"; "n_epochs"; "savepath_tr_plots"; "stats_step"; "rel_tol"; "unnormalized_inputs"; "normalize_target";
   "stopping_rounds"; "subtract_mean_when_normalizing"; "causal_df"; "probabilistic"; "probabilistic_loss_kind";
   "distribution"; "inverter_learning_rate"; "optimization_vars"; "target_columns"; "init_type"; "augment_ctrl_inputs";
   "layer_normalization"; "z_min"; "z_max"; "scengen_kwgs"].
(** RecStablePICNN, ICNN.py:512-517. *)
Definition sig_recstablepicnn : list string :=
  ["learning_rate"; "batch_size"; "load_path"; "n_hidden_x"; "n_out"; "n_latent"; "n_layers"; "pars"; "q_vect"; "val_ratio";
   "nodes_at_step"; "n_epochs"; "savepath_tr_plots"; "stats_step"; "rel_tol"; "unnormalized_inputs"; "normalize_target";
   "stopping_rounds"; "subtract_mean_when_normalizing"; "causal_df"; "probabilistic"; "probabilistic_loss_kind";
   "distribution"; "inverter_learning_rate"; "optimization_vars"; "target_columns"; "init_type"; "augment_ctrl_inputs";
   "layer_normalization"; "z_min"; "z_max"; "scengen_kwgs"].
(** StructuredPICNN, ICNN.py:547-552. *)
Definition sig_structuredpicnn : list string :=
  ["learning_rate"; "batch_size"; "load_path"; "n_hidden_x"; "n_out"; "n_latent"; "n_layers"; "pars"; "q_vect"; "val_ratio";
   "nodes_at_step"; "n_epochs"; "savepath_tr_plots"; "stats_step"; "rel_tol"; "unnormalized_inputs"; "normalize_target";
   "stopping_rounds"; "subtract_mean_when_normalizing"; "causal_df"; "probabilistic"; "probabilistic_loss_kind";
   "distribution"; "inverter_learning_rate"; "optimization_vars"; "target_columns"; "init_type"; "augment_ctrl_inputs";
   "layer_normalization"; "objective_fun"; "z_min"; "z_max"; "scengen_kwgs"].
(** LatentStructuredPICNN, ICNN.py:657-662. *)
Definition sig_latentstructuredpicnn : list string :=
  ["learning_rate"; "batch_size"; "load_path"; "n_hidden_x"; "n_out"; "n_latent"; "n_layers"; "pars"; "q_vect"; "val_ratio";
   "nodes_at_step"; "n_epochs"; "savepath_tr_plots"; "stats_step"; "rel_tol"; "unnormalized_inputs"; "normalize_target";
   "stopping_rounds"; "subtract_mean_when_normalizing"; "causal_df"; "probabilistic"; "probabilistic_loss_kind";
   "distribution"; "inverter_learning_rate"; "optimization_vars"; "target_columns"; "init_type"; "augment_ctrl_inputs";
   "layer_normalization"; "objective_fun"; "z_min"; "z_max"; "n_encoder_layers"; "n_embeddings"; "n_decoder_layers";
   "scengen_kwgs"].
(** CausalInvertibleNN, INN.py:121-126. *)
Definition sig_causalinvertiblenn : list string :=
  ["learning_rate"; "batch_size"; "load_path"; "n_in"; "n_out"; "n_layers"; "pars"; "q_vect"; "val_ratio"; "nodes_at_step";
   "n_epochs"; "savepath_tr_plots"; "stats_step"; "rel_tol"; "unnormalized_inputs"; "normalize_target"; "stopping_rounds";
   "subtract_mean_when_normalizing"; "causal_df"; "probabilistic"; "probabilistic_loss_kind"; "end_to_end";
   "n_prediction_layers"; "n_hidden_y"; "names_exogenous"; "scaling_factor"; "scengen_kwgs"].
(** LSTM_Forecaster, LSTM_bidir.py:13-18. *)
Definition sig_lstm_forecaster : list string :=
  ["target_name"; "lstm_history"; "pred_horizon"; "q_vect"; "nodes_at_step"; "val_ratio"; "logger"; "n_scen_fit";
   "additional_node"; "formatter"; "conditional_to_hour"; "scengen_kwgs"].
(** NN, base_nn.py:222-227. *)
Definition sig_nn : list string :=
  ["learning_rate"; "batch_size"; "load_path"; "n_hidden_x"; "n_out"; "n_layers"; "pars"; "q_vect"; "val_ratio";
   "nodes_at_step"; "n_epochs"; "savepath_tr_plots"; "stats_step"; "rel_tol"; "unnormalized_inputs"; "normalize_target";
   "stopping_rounds"; "subtract_mean_when_normalizing"; "causal_df"; "probabilistic"; "probabilistic_loss_kind";
   "scengen_kwgs"].
(** FFNN, base_nn.py:529-534. *)
Definition sig_ffnn : list string :=
  ["n_out"; "q_vect"; "n_epochs"; "val_ratio"; "nodes_at_step"; "learning_rate"; "scengen_dict"; "batch_size"; "split_heads";
   "selector"; "skip_connection"; "model_kwargs"].
(** LSTMNN, base_nn.py:548-553. *)
Definition sig_lstmnn : list string :=
  ["n_out"; "q_vect"; "n_epochs"; "val_ratio"; "nodes_at_step"; "learning_rate"; "scengen_dict"; "batch_size"; "model_kwargs"].
(** All forecasters of the package by the name of their class, [model.__class__.__name__] and
    [signature(model.__class__).parameters.keys()]. trainer.py:95, 125. *)
Definition signatures : list (string * list string) :=
  [("ScenarioGenerator", sig_scenariogenerator);
   ("LinearForecaster", sig_linearforecaster);
   ("LGBForecaster", sig_lgbforecaster);
   ("Persistent", sig_persistent);
   ("SeasonalPersistent", sig_seasonalpersistent);
   ("DiscreteDistr", sig_discretedistr);
   ("Fourier_es", sig_fourier_es);
   ("FK", sig_fk);
   ("FK_multi", sig_fk_multi);
   ("LGBMHybrid", sig_lgbmhybrid);
   ("LGBEnergyAware", sig_lgbenergyaware);
   ("HoltWinters", sig_holtwinters);
   ("HoltWintersMulti", sig_holtwintersmulti);
   ("RFFRegression", sig_rffregression);
   ("AdditiveRFFRegression", sig_additiverffregression);
   ("QRF", sig_qrf);
   ("ExponentialSmoothing", sig_exponentialsmoothing);
   ("PICNN", sig_picnn);
   ("PIQCNN", sig_piqcnn);
   ("PIQCNNSigmoid", sig_piqcnnsigmoid);
   ("RecStablePICNN", sig_recstablepicnn);
   ("StructuredPICNN", sig_structuredpicnn);
   ("LatentStructuredPICNN", sig_latentstructuredpicnn);
   ("CausalInvertibleNN", sig_causalinvertiblenn);
   ("LSTM_Forecaster", sig_lstm_forecaster);
   ("NN", sig_nn);
   ("FFNN", sig_ffnn);
   ("LSTMNN", sig_lstmnn)].
(** ** Default search spaces *)
(** dictionaries.py:5-22, 32-36 and trainer.py:12-15: the names of the parameters sampled for a class. *)
Definition default_space (class : string) : list string :=
  if mem class ["LGBForecaster"; "LGBMHybrid"] then ["n_estimators"; "learning_rate"]
  else if String.eqb class "LinearForecaster" then ["kind"]
  else if mem class ["PICNN"; "StructuredPICNN"] then ["n_layers"; "n_hidden_x"; "learning_rate"]
  else ["model__n_estimators"; "model__learning_rate"].
(** trainer.py:94-97: a trial is refused unless all names are parameters; the names get_params reports are among those of
    the signature (forecaster.py:93-94). *)
Definition names_accepted (sig names : list string) : bool := forallb (fun k => mem k sig) names.
(** trainer.py:125-129, 94-97: does a search without param_space_fun get past the first check? *)
Definition default_search (class : string) (sig : list string) : bool := names_accepted sig (default_space class).

(** ** One trial *)
(** What a trial depends on: the signature, the attributes in which the constructor keeps its arguments, the names of the
    parameters of the learners, and whether these are read from a dictionary made by the constructor (forecaster.py:378-389,
    randomforests.py:69-87) or from the attributes (forecaster.py:336, gradientboosters.py:61-76, base_nn.py:309-311). *)
Record tclass := TClass { t_signature : list string; t_stored : list string; t_learner : list string; t_frozen : bool }.
(** forecaster.py:66-80: attributes of every forecaster. *)
Definition base_stored : list string :=
  ["max_scengen_rows"; "scengen_random_state"; "q_vect"; "val_ratio"; "n_scen_fit"; "additional_node"; "formatter"; "conditional_to_hour"].
(** forecaster.py:326-343. *)
Definition linear_class : tclass := TClass sig_linearforecaster (base_stored ++ ["kind"]) ["kind"] false.
(** forecaster.py:359-397. *)
Definition lgb_class : tclass := TClass sig_lgbforecaster (base_stored ++ "n_jobs_predict" :: lgb_names) lgb_names true.
(** gradientboosters.py:13-76. *)
Definition hybrid_class : tclass :=
  TClass sig_lgbmhybrid
    (base_stored ++ ["n_single"; "red_frac_multistep"; "tol_period"; "metadata_features"; "keep_last_n_lags"; "keep_last_seconds"; "parallel"] ++ lgb_names)
    lgb_names false.
(** randomforests.py:12-94. *)
Definition qrf_class : tclass := TClass sig_qrf (base_stored ++ "metadata_features" :: qrf_attributes) qrf_names true.
(** base_nn.py:231-251. *)
Definition nn_stored : list string :=
  base_stored ++
  ["learning_rate"; "batch_size"; "load_path"; "n_hidden_x"; "n_out"; "n_layers"; "pars"; "n_epochs"; "savepath_tr_plots"; "stats_step";
   "rel_tol"; "unnormalized_inputs"; "normalize_target"; "stopping_rounds"; "subtract_mean_when_normalizing"; "causal_df"; "probabilistic";
   "probabilistic_loss_kind"; "nodes_at_step"].
(** base_nn.py:529-546. *)
Definition dense_class : tclass :=
  TClass sig_ffnn (nn_stored ++ ["split_heads"; "selector"; "skip_connection"])
    ["n_layers"; "n_hidden_x"; "n_out"; "learning_rate"; "split_heads"; "selector"; "skip_connection"] false.
(** base_nn.py:548-561. *)
Definition lstm_class : tclass := TClass sig_lstmnn nn_stored ["n_layers"; "n_hidden_x"; "n_out"; "learning_rate"] false.
(** ICNN.py:300-312: attributes of the convex networks beside those of all networks. *)
Definition picnn_stored : list string :=
  nn_stored ++
  ["inverter_learning_rate"; "optimization_vars"; "target_columns"; "init_type"; "augment_ctrl_inputs"; "layer_normalization"; "distribution";
   "z_min"; "z_max"; "n_latent"; "inverter_class"].
(** ICNN.py:288-345. *)
Definition picnn_class : tclass :=
  TClass sig_picnn picnn_stored ["n_layers"; "n_hidden_x"; "n_out"; "n_latent"; "learning_rate"; "init_type"; "augment_ctrl_inputs"; "z_min"; "z_max"; "causal_df"] false.
(** ICNN.py:547-580. *)
Definition structured_class : tclass :=
  TClass sig_structuredpicnn (picnn_stored ++ ["objective_fun"])
    ["n_layers"; "n_hidden_x"; "n_out"; "n_latent"; "learning_rate"; "init_type"; "augment_ctrl_inputs"; "z_min"; "z_max"] false.

(** A forecaster: its attributes, and those it was constructed with. forecaster.py:378-389, randomforests.py:69-87. *)
Record tuned := Tuned { u_attrs : dict; u_built : dict }.
(** The constructor; [defaults] are the default values. Values that a constructor replaces, such as None for q_vect, count as
    the values they are replaced with. forecaster.py:326-331. *)
Definition create (c : tclass) (defaults : string -> val) (kw : dict) : tuned :=
  let a := map (fun k => (k, match get k kw with Some v => v | None => defaults k end)) (t_stored c) in Tuned a a.
(** [get_params], forecaster.py:93-94. *)
Definition reported (c : tclass) (m : tuned) : dict := entries (t_signature c) (u_attrs m).
(** [set_params], forecaster.py:90-91. *)
Definition assign (m : tuned) (params : dict) : tuned := Tuned (set_params (u_attrs m) params) (u_built m).
(** sklearn.base.clone as used by cross_validate, trainer.py:44: the constructor applied to what get_params reports. *)
Definition copy (c : tclass) (defaults : string -> val) (m : tuned) : tuned := create c defaults (reported c m).
(** The value of a parameter the learners of the next fit are created with; [None]: not a parameter of the learners.
    forecaster.py:336, 395, gradientboosters.py:61-76, randomforests.py:94, base_nn.py:539-546. *)
Definition learner_value (c : tclass) (m : tuned) (k : string) : option val :=
  if mem k (t_learner c) then get k (if t_frozen c then u_built m else u_attrs m) else None.
(** [cv_type], trainer.py:41, 56. *)
Inductive cv_type := Full | RandomFold.
(** trainer.py:93-101 with 41-44 and 56-59: the model after a trial and the one that is trained in it, of which scores are
    taken. [None] = ValueError. *)
Definition trial (c : tclass) (defaults : string -> val) (cv : cv_type) (params : dict) (m : tuned) : option (tuned * tuned) :=
  if names_accepted (t_signature c) (map fst params)
  then let m' := assign m params in
       Some (m', match cv with Full => copy c defaults m' | RandomFold => m' end)
  else None.

(** ** Attributes of a convex network that the constructor derives *)
(** The declared controls, whether they are doubled, the learning rate of the optimiser of controls, and what the constructor
    derived from these. ICNN.py:300-315. *)
Record convex := Convex { v_controls : list string; v_augment : bool; v_rate : nat; v_width : nat; v_optimiser : nat }.
(** ICNN.py:314: the width of the layers of the controls. *)
Definition control_width (controls : list string) (augment : bool) : nat :=
  if augment then 2 * length controls else length controls.
(** ICNN.py:300-315. *)
Definition convex_create (controls : list string) (augment : bool) (rate : nat) : convex :=
  Convex controls augment rate (control_width controls augment) rate.
(** base_nn.py:309-311, ICNN.py:323-330: the network is built again from the attributes, [n_hidden_y] and
    [inverter_optimizer] are not computed again. [None]: not set. *)
Definition convex_set (controls : option (list string)) (augment : option bool) (rate : option nat) (v : convex) : convex :=
  Convex (match controls with Some c => c | None => v_controls v end)
         (match augment with Some a => a | None => v_augment v end)
         (match rate with Some r => r | None => v_rate v end)
         (v_width v) (v_optimiser v).
