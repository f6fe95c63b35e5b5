(** Options of scenario generation and life cycle of the pre-computed trees: C169 - C172. *)
From Coq Require Import String List Arith Bool Lia.
From Verif Require Import Model.FkConfig Model.ScenConfig Spec.ScenConfigSpec Proof.ScenConfigProof Proof.ScenConfigProof2.
Import ListNotations.
Local Open Scope string_scope.
Local Open Scope list_scope.

(** C169 *)
Theorem C169_options_partial :
  forall (d : keywords) (g : scengen), forecaster_create d = Some g ->
  (forall c, find "copula_type" d = Some (Text c) -> g_copula g = c) /\ (forall t, find "tree_type" d = Some (Text t) -> g_tree g = t) /\
  (forall tp k, tree_parameters (g_tree g) = Some tp -> In k tp -> k <> "nodes_at_step" -> find k (g_tree_options g) = find k d) /\
  (forall cp k, copula_parameters (g_copula g) = Some cp -> In k cp -> k <> "logger" -> find k (g_copula_options g) = find k d) /\
  g_nodes g = find "nodes_at_step" d /\ g_iterations g = find "max_iterations" d /\
  (forall b, find "online_tree_reduction" d = Some (Flag b) -> g_online g = b) /\ (forall b, find "parallel_preds" d = Some (Flag b) -> g_parallel g = b) /\
  (forall b, find "additional_node" d = Some (Flag b) -> g_additional g = b) /\ (find "prefit_trees" d = Some (Flag true) -> g_prefit g = true).
Proof. exact (@options_reach). Qed.
Print Assumptions C169_options_partial.
Theorem C169_truth_partial :
  forall (d : keywords) (g : scengen), forecaster_create d = Some g ->
  let off k := exists v, find k d = Some v /\ In v [Flag false; Text ""; Dict []; Other 0] in
  (g_online g = false <-> off "online_tree_reduction") /\
  (g_parallel g = false <-> off "parallel_preds" \/ find "parallel_preds" d = None) /\
  (g_additional g = false <-> off "additional_node" \/ find "additional_node" d = None) /\
  (g_prefit g = false <-> g_online g = true /\ (off "prefit_trees" \/ find "prefit_trees" d = None)).
Proof. exact (@options_truth). Qed.
Print Assumptions C169_truth_partial.
Theorem C169_classes_partial :
  forall (d : keywords) (g : scengen), forecaster_create d = Some g ->
  In (g_tree g) ["DiffTree"; "NeuralGas"; "ScenredTree"; "QuantileTree"] /\ In (g_copula g) ["HourlyGaussianCopula"; "ConditionalGaussianCopula"] /\
  (forall k, In k ["tree"; "savepath"] -> find k (g_tree_options g) = find k d) /\
  (forall k, In k ["init"; "base_tree"] -> find k (g_tree_options g) = if mem (g_tree g) ["DiffTree"; "NeuralGas"] then find k d else None) /\
  find "learning_rate" (g_tree_options g) = (if mem (g_tree g) ["DiffTree"] then find "learning_rate" d else None) /\
  find "cov_est_method" (g_copula_options g) = find "cov_est_method" d /\
  find "conditional_on" (g_copula_options g) = (if mem (g_copula g) ["ConditionalGaussianCopula"] then find "conditional_on" d else None).
Proof. exact (@options_by_class). Qed.
Print Assumptions C169_classes_partial.
Theorem C169_network_refuted :
  forall (d : keywords), (forall v, network_create (("learning_rate", v) :: d) = network_create d) /\
  forall g, network_create d = Some g -> find "learning_rate" (g_tree_options g) = None.
Proof. exact (@network_learning_rate). Qed.
Print Assumptions C169_network_refuted.
Theorem C169_unknown_refuted :
  forall (d : keywords) (k : string) (v : value), ~ In k known_names -> forecaster_create ((k, v) :: d) = forecaster_create d.
Proof. exact (@unknown_ignored). Qed.
Print Assumptions C169_unknown_refuted.
Theorem C169_dictionary_refuted :
  forall (scengen_dict : list (string * nat)) (d : keywords), dense_create scengen_dict d = dense_create [] d.
Proof. exact (@dictionary_ignored). Qed.
Print Assumptions C169_dictionary_refuted.
Theorem C169_lstm_refuted :
  forall (d : keywords), (forall k, In k ["logger"; "n_scen_fit"; "additional_node"; "formatter"; "conditional_to_hour"] -> lstm_kept k d = None) /\
  forall g, lstm_create d = Some g -> g_additional g = false.
Proof. exact (@lstm_ignores). Qed.
Print Assumptions C169_lstm_refuted.
Theorem C169_lstm_options_refuted :
  forall (d : keywords) (k : string) (v : value),
  In k ["logger"; "n_scen_fit"; "additional_node"; "formatter"; "conditional_to_hour"] -> lstm_create ((k, v) :: d) = lstm_create d.
Proof. exact (@lstm_drops). Qed.
Print Assumptions C169_lstm_options_refuted.
Example C169_case : exists g, forecaster_create [("tree_type", Text "NeuralGas"); ("init", Text "zero"); ("cov_est_method", Text "glasso"); ("online_tree_reduction", Flag false)] = Some g /\
  g_tree g = "NeuralGas" /\ g_tree_options g = [("init", Text "zero")] /\ g_copula_options g = [("cov_est_method", Text "glasso")] /\ g_prefit g = true /\
  ~ In "tree_typ" known_names.
Proof. eexists. split; [reflexivity|]. repeat split. cbn. intuition discriminate. Qed.
Example C169_lstm_case : exists g, lstm_create [("additional_node", Flag true); ("n_scen_fit", Other 500)] = Some g /\ g_additional g = false.
Proof. eexists. split; reflexivity. Qed.

(** C170 *)
Theorem C170_prefit_partial :
  forall (g : scengen) (after : list bool) (ops : list op) (present : nat -> bool) (fit h : nat),
  g_copula g = "HourlyGaussianCopula" -> g_prefit g = true -> every_hour present -> h < 24 ->
  offline_tree (run (new_state g) (ops ++ [Fit present fit] ++ map Online (after ++ [false]))) h = Some fit.
Proof. exact (@prefit_works). Qed.
Print Assumptions C170_prefit_partial.
Theorem C170_online_refuted :
  forall (g : scengen) (ops : list op) (h : nat), g_prefit g = false -> offline_tree (run (new_state g) ops) h = None.
Proof. exact (@online_never). Qed.
Print Assumptions C170_online_refuted.
Theorem C170_failed_fit_refuted :
  forall (g : scengen) (present present' : nat -> bool) (fit fit' m h : nat),
  g_copula g = "HourlyGaussianCopula" -> g_prefit g = true -> every_hour present -> first_missing present' m -> h < 24 ->
  let fitted := run (new_state g) [Fit present fit; Online false] in
  fst (fit_trees present' fit' fitted) = false /\
  offline_tree (run fitted [Fit present' fit']) h = if (h <? m)%nat then Some fit' else Some fit.
Proof. exact (@failed_fit_mixes). Qed.
Print Assumptions C170_failed_fit_refuted.
Definition all_hours (_ : nat) : bool := true.
Definition day_hours (h : nat) : bool := (h <? 20)%nat.
Example C170_case : exists g g', forecaster_create [("prefit_trees", Flag true)] = Some g /\ forecaster_create [] = Some g' /\
  g_prefit g = true /\ g_prefit g' = false /\ every_hour all_hours /\ first_missing day_hours 20 /\
  offline_tree (run (new_state g) [Fit all_hours 1; Online false; Fit day_hours 2]) 19 = Some 2 /\
  offline_tree (run (new_state g) [Fit all_hours 1; Online false; Fit day_hours 2]) 20 = Some 1.
Proof.
  do 2 eexists. split; [reflexivity|]. split; [reflexivity|]. split; [reflexivity|]. split; [reflexivity|]. split; [intros h _; reflexivity|].
  split; [|split; vm_compute; reflexivity]. split; [lia|]. split; [reflexivity|]. intros h L. apply Nat.ltb_lt. assumption.
Qed.

(** C171 *)
Theorem C171_online_partial :
  forall (T : Type) (generate : option (list nat) -> option T) (stored : nat -> option T) (additional : bool) (nodes : list nat) (hour : nat),
  forecaster_predict generate stored true additional (Some nodes) hour = generate (Some (if additional then 1 :: nodes else nodes)).
Proof. exact (@nodes_used). Qed.
Print Assumptions C171_online_partial.
Theorem C171_prefitted_refuted :
  forall (T : Type) (generate : option (list nat) -> option T) (stored : nat -> option T) (additional : bool) (nodes : list nat) (hour : nat) (t : T),
  stored hour = Some t -> generator_predict generate stored false additional (Some nodes) hour = None /\
  forecaster_predict generate stored false additional (Some nodes) hour = Some t.
Proof. exact (@nodes_dropped). Qed.
Print Assumptions C171_prefitted_refuted.
Example C171_case : forecaster_predict (fun n => n) (fun h => Some [h]) true true (Some [2; 4]) 3 = Some [1; 2; 4] /\
  forecaster_predict (fun n => n) (fun h => Some [h]) false true (Some [2; 4]) 3 = Some [3].
Proof. split; reflexivity. Qed.

(** C172 *)
Theorem C172_hourly_partial :
  forall (T : Type) (d : keywords) (g : scengen) (draws : T) (with_random_state : bool), forecaster_create d = Some g ->
  find "copula_type" d = None \/ find "copula_type" d = Some (Text "HourlyGaussianCopula") -> sample_scenarios g (Some draws) with_random_state = Some draws.
Proof. exact (@hourly_samples). Qed.
Print Assumptions C172_hourly_partial.
Theorem C172_conditional_refuted :
  forall (T : Type) (d : keywords) (g : scengen) (draw : option T) (with_random_state : bool), forecaster_create d = Some g ->
  find "copula_type" d = Some (Text "ConditionalGaussianCopula") ->
  sample_scenarios g draw with_random_state = None /\ (g_prefit g = true -> forall present fit, fst (fit_trees present fit (new_state g)) = false).
Proof. exact (@conditional_raises). Qed.
Print Assumptions C172_conditional_refuted.
Example C172_case : exists g, forecaster_create [("copula_type", Text "ConditionalGaussianCopula"); ("conditional_on", Text "hour")] = Some g /\
  g_copula_options g = [("conditional_on", Text "hour")] /\ sample_scenarios g (Some 7) false = None.
Proof. eexists. repeat split. Qed.
