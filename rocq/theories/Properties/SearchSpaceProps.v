(** C189: what a tuning trial trains. C190: default search spaces. C191: derived attributes of convex networks. C210: options every forecaster names. *)
From Coq Require Import String List Arith Bool Lia.
From Verif Require Import Model.FkConfig Model.ScenConfig Model.Forest Model.SearchSpace Spec.SearchSpaceSpec Proof.SearchSpaceProof Proof.SearchSpaceProof2.
Import ListNotations.
Local Open Scope string_scope.
Local Open Scope list_scope.

(** C189. With full cross-validation the copy that is trained has the sampled values and, for the other parameters of the
    signature, the values reported before; so do its learners. For every class. *)
Theorem C189_full_partial :
  forall (c : tclass) (defaults : string -> val) (params : dict) (m m' t : tuned),
  made c defaults m -> trial c defaults Full params m = Some (m', t) ->
  forall k, In k (t_signature c) -> In k (t_stored c) ->
    (forall v, get k params = Some v -> get k (u_attrs t) = Some v /\ get k (reported c m') = Some v) /\
    (get k params = None -> get k (u_attrs t) = get k (reported c m) /\ get k (reported c m') = get k (reported c m)) /\
    (In k (t_learner c) -> learner_value c t k = get k (u_attrs t)).
Proof. exact (@full_trial). Qed.
Print Assumptions C189_full_partial.
(** With a random fold: the model itself is trained, with the sampled values for the classes that read their attributes. *)
Theorem C189_random_fold_partial :
  forall (c : tclass) (defaults : string -> val) (params : dict) (m m' t : tuned),
  In c [linear_class; hybrid_class; dense_class; lstm_class; picnn_class; structured_class] ->
  made c defaults m -> trial c defaults RandomFold params m = Some (m', t) ->
  t = m' /\ forall k v, In k (t_learner c) -> get k params = Some v -> learner_value c t k = Some v.
Proof. exact (@fold_trial_live). Qed.
Print Assumptions C189_random_fold_partial.
(** Boosters and forests keep the values of the constructor: with a random fold every trial trains the same learners, and after
    any search the model itself still trains the original ones. *)
Theorem C189_frozen_refuted :
  forall (c : tclass) (defaults : string -> val) (cv : cv_type) (params : dict) (m m' t : tuned),
  In c [lgb_class; qrf_class] -> trial c defaults cv params m = Some (m', t) ->
  (forall k, learner_value c m' k = learner_value c m k) /\ (cv = RandomFold -> forall k, learner_value c t k = learner_value c m k).
Proof. exact (@fold_trial_frozen). Qed.
Print Assumptions C189_frozen_refuted.
(** Every argument of the constructor that is kept under its own name reaches the copy. *)
Theorem C189_kept_partial :
  forall (c : tclass) (defaults : string -> val) (params : dict) (m m' t : tuned) (k : string),
  In c [linear_class; lgb_class; hybrid_class; qrf_class; dense_class; lstm_class; picnn_class; structured_class] ->
  made c defaults m -> trial c defaults Full params m = Some (m', t) ->
  In k (t_signature c) -> ~ In k ["nodes_at_step"; "scengen_kwgs"; "scengen_dict"; "model_kwargs"] -> get k params = None ->
  exists v, get k (reported c m) = Some v /\ get k (u_attrs t) = Some v.
Proof. exact (@copies_keep). Qed.
Print Assumptions C189_kept_partial.
(** An attribute that the signature does not name has its default value in the copy. *)
Theorem C189_lost_refuted :
  forall (c : tclass) (defaults : string -> val) (params : dict) (m m' t : tuned) (k : string),
  In k (t_stored c) -> ~ In k (t_signature c) -> trial c defaults Full params m = Some (m', t) ->
  get k (u_attrs t) = Some (defaults k).
Proof. exact (@copies_lose). Qed.
Print Assumptions C189_lost_refuted.
(** So dense and recurrent networks are scored with default layers and widths whatever they were constructed with, and these
    cannot be tuned. *)
Theorem C189_networks_refuted :
  forall (c : tclass) (defaults : string -> val) (params : dict) (m m' t : tuned) (k : string),
  In c [dense_class; lstm_class] ->
  In k ["n_layers"; "n_hidden_x"; "stopping_rounds"; "normalize_target"; "unnormalized_inputs"; "probabilistic"; "probabilistic_loss_kind"; "rel_tol";
        "stats_step"; "subtract_mean_when_normalizing"; "n_scen_fit"; "formatter"; "conditional_to_hour"; "additional_node"] ->
  trial c defaults Full params m = Some (m', t) ->
  get k (u_attrs t) = Some (defaults k) /\ (In k ["n_layers"; "n_hidden_x"] -> learner_value c t k = Some (defaults k)) /\
  forall cv v, get k params = Some v -> trial c defaults cv params m = None.
Proof. exact (@network_copies). Qed.
Print Assumptions C189_networks_refuted.
Example C189_case :
  let d := fun k => if String.eqb k "n_layers" then VNat 3 else VNone in
  let m := create dense_class d [("n_layers", VNat 5); ("n_out", VNat 24)] in
  let g := create lgb_class d [("n_estimators", VNat 100); ("verbose", VNat 7)] in
  get "n_layers" (u_attrs m) = Some (VNat 5) /\
  (exists m' t, trial dense_class d Full [("learning_rate", VNat 1)] m = Some (m', t) /\
     learner_value dense_class t "n_layers" = Some (VNat 3) /\ learner_value dense_class t "n_out" = Some (VNat 24) /\
     learner_value dense_class t "learning_rate" = Some (VNat 1)) /\
  (exists g' t, trial lgb_class d Full [("n_estimators", VNat 10)] g = Some (g', t) /\
     learner_value lgb_class t "n_estimators" = Some (VNat 10) /\ learner_value lgb_class t "verbose" = Some (VNat 7) /\
     learner_value lgb_class g' "n_estimators" = Some (VNat 100) /\ get "n_estimators" (reported lgb_class g') = Some (VNat 10)) /\
  trial dense_class d Full [("n_layers", VNat 1)] m = None.
Proof.
  cbv zeta. split; [reflexivity|]. split; [|split; [|reflexivity]].
  - eexists _, _. split; [reflexivity|]. repeat split; reflexivity.
  - eexists _, _. split; [reflexivity|]. repeat split; reflexivity.
Qed.

(** C190. The registered spaces are accepted, and all sampled names are parameters of the learners. *)
Theorem C190_registered_partial :
  forall (class : string) (c : tclass),
  describes class c ->
  default_search class (t_signature c) = true /\ In (class, t_signature c) signatures /\
  forall k, In k (default_space class) -> In k (t_signature c) /\ In k (t_stored c) /\ In k (t_learner c).
Proof. exact (@default_spaces). Qed.
Print Assumptions C190_registered_partial.
(** Without param_space_fun a search fails at its first trial for every other forecaster of the package. *)
Theorem C190_unregistered_refuted :
  forall (class : string) (sig : list string),
  In (class, sig) signatures -> ~ In class registered -> default_search class sig = false.
Proof. exact (@no_default_space). Qed.
Print Assumptions C190_unregistered_refuted.
Example C190_case :
  default_search "LGBForecaster" sig_lgbforecaster = true /\ default_search "QRF" sig_qrf = false /\
  In ("QRF", sig_qrf) signatures /\ default_space "LGBForecaster" = ["n_estimators"; "learning_rate"] /\
  default_space "LinearForecaster" = ["kind"] /\ default_space "PICNN" = ["n_layers"; "n_hidden_x"; "learning_rate"] /\
  length signatures = 28.
Proof. repeat split; try reflexivity. cbn. tauto. Qed.

(** C191. *)
Theorem C191_constructed_partial :
  forall (controls : list string) (augment : bool) (rate : nat),
  let v := convex_create controls augment rate in
  v_width v = (if augment then length controls + length controls else length controls) /\ v_optimiser v = v_rate v /\ v_controls v = controls.
Proof. exact (@convex_fresh). Qed.
Print Assumptions C191_constructed_partial.
Theorem C191_stale_refuted :
  forall (controls : list string) (augment : bool) (rate : nat) (c : option (list string)) (a : option bool) (r : option nat),
  let v := convex_set c a r (convex_create controls augment rate) in
  v_width v = control_width controls augment /\ v_optimiser v = rate /\
  (forall c', c = Some c' -> v_controls v = c') /\ (forall r', r = Some r' -> v_rate v = r').
Proof. exact (@convex_stale). Qed.
Print Assumptions C191_stale_refuted.
Example C191_case :
  let v := convex_set (Some ["a"; "b"]) None (Some 5) (convex_create ["a"] true 1) in
  v_controls v = ["a"; "b"] /\ v_width v = 2 /\ v_rate v = 5 /\ v_optimiser v = 1.
Proof. repeat split. Qed.

(** C210. Every forecaster names the common options in its constructor; the seed and the row limit of the scenario generator
    are named by four classes only, and a copy of another forecaster goes back to their defaults. *)
Theorem C210_common_partial :
  forall (class : string) (sig names : list string),
  In (class, sig) signatures -> (forall k, In k names -> In k ["q_vect"; "val_ratio"; "nodes_at_step"]) -> names_accepted sig names = true.
Proof. exact (@common_options). Qed.
Print Assumptions C210_common_partial.
Theorem C210_adaptive_partial :
  forall (class : string) (sig names : list string),
  In (class, sig) signatures -> In class ["Fourier_es"; "FK"; "FK_multi"; "HoltWinters"; "HoltWintersMulti"] ->
  (forall k, In k names -> In k ["target_name"; "targets_names"; "n_sa"; "optimize_hyperpars"; "optimization_budget"; "verbose"]) ->
  names_accepted sig names = true.
Proof. exact (@adaptive_options). Qed.
Print Assumptions C210_adaptive_partial.
Theorem C210_network_partial :
  forall (class : string) (sig names : list string),
  In (class, sig) signatures -> In class ["NN"; "PICNN"; "PIQCNN"; "PIQCNNSigmoid"; "RecStablePICNN"; "StructuredPICNN"; "LatentStructuredPICNN"; "CausalInvertibleNN"] ->
  (forall k, In k names -> In k ["learning_rate"; "batch_size"; "load_path"; "n_out"; "n_layers"; "pars"; "n_epochs"; "savepath_tr_plots"; "stats_step"; "rel_tol";
     "unnormalized_inputs"; "normalize_target"; "stopping_rounds"; "subtract_mean_when_normalizing"; "causal_df"; "probabilistic"; "probabilistic_loss_kind"]) ->
  names_accepted sig names = true.
Proof. exact (@network_options). Qed.
Print Assumptions C210_network_partial.
Theorem C210_seed_refuted :
  forall (class : string) (sig : list string) (k : string),
  In (class, sig) signatures -> In k ["scengen_random_state"; "max_scengen_rows"] ->
  (names_accepted sig [k] = true <-> In class ["ScenarioGenerator"; "LinearForecaster"; "LGBForecaster"; "QRF"]).
Proof. exact (@seed_options). Qed.
Print Assumptions C210_seed_refuted.
Theorem C210_copies_refuted :
  forall (c : tclass) (defaults : string -> val) (m : tuned) (k : string),
  In k ["scengen_random_state"; "max_scengen_rows"] -> made c defaults m ->
  (In c [hybrid_class; dense_class; lstm_class; picnn_class; structured_class] -> get k (u_attrs (copy c defaults m)) = Some (defaults k)) /\
  (In c [linear_class; lgb_class; qrf_class] -> exists v, get k (u_attrs m) = Some v /\ get k (u_attrs (copy c defaults m)) = Some v).
Proof. exact (@copy_seed). Qed.
Print Assumptions C210_copies_refuted.
Example C210_case : exists m, made hybrid_class (fun _ => VNat 0) m /\ get "scengen_random_state" (u_attrs m) = Some (VNat 7) /\
  get "scengen_random_state" (u_attrs (copy hybrid_class (fun _ => VNat 0) m)) = Some (VNat 0) /\
  names_accepted sig_lgbmhybrid ["q_vect"; "val_ratio"] = true /\ names_accepted sig_lgbmhybrid ["scengen_random_state"] = false.
Proof.
  exists (create hybrid_class (fun _ => VNat 0) [("scengen_random_state", VNat 7)]). split; [constructor|]. vm_compute. repeat split; reflexivity.
Qed.
