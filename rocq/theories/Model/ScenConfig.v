(** Model of the options of scenario generation, from the constructors of the forecasters down to the copula and the tree
    builder (forecaster.py:57-88; scenarios_generator.py:17-38; copula.py:10-33, 104-121; tree_builders.py:16-23, 137-142,
    207-210, 251-252, 262-263; dictionaries.py:24-31; base_nn.py:529-536, 548-551; LSTM_bidir.py:13-15), and of the life cycle of the
    pre-computed trees (scenarios_generator.py:40-73, 112-156; forecaster.py:82-88, 282-311). *)
From Coq Require Import String List Arith Bool.
From Verif Require Import Model.FkConfig.
Import ListNotations.
Local Open Scope string_scope.
Local Open Scope list_scope.

(** ** Options *)
(** Keyword arguments: a flag, a text, a dictionary or anything else; python forbids repeated names. forecaster.py:57-60. *)
Inductive value := Flag (b : bool) | Text (s : string) | Dict (l : list (string * nat)) | Other (tag : nat).
(** Keyword arguments of a call. forecaster.py:57-60. *)
Definition keywords := list (string * value).
(** The value of a keyword, if given. scenarios_generator.py:25-26. *)
Fixpoint find (k : string) (d : keywords) : option value :=
  match d with [] => None | (k', v) :: d' => if String.eqb k k' then Some v else find k d' end.
(** Membership of a name in a list of names, scenarios_generator.py:25-26. *)
Definition mem (k : string) (l : list string) : bool := existsb (String.eqb k) l.
(** The keywords that are none of the named parameters, forecaster.py:57-60, scenarios_generator.py:18-20. *)
Definition rest (named : list string) (d : keywords) : keywords := filter (fun e => negb (mem (fst e) named)) d.
(** [{p: kwargs[p] for p in parameters if p in kwargs}], scenarios_generator.py:25-26. *)
Definition select (parameters : list string) (d : keywords) : keywords :=
  flat_map (fun p => match find p d with Some v => [(p, v)] | None => [] end) parameters.
(** Truth value of an option. scenarios_generator.py:30. *)
Definition truthy (v : value) : bool := match v with Flag b => b | Text s => negb (String.eqb s "") | Dict [] => false | Dict _ => true | Other t => negb (t =? 0)%nat end.
(** A flag with its default. scenarios_generator.py:19-20. *)
Definition flag (k : string) (default : bool) (d : keywords) : bool := match find k d with Some v => truthy v | None => default end.

(** dictionaries.py:24-25 with the parameters of the constructors, copula.py:33-34, 105-106. *)
Definition copula_parameters (name : string) : option (list string) :=
  if String.eqb name "HourlyGaussianCopula" then Some ["cov_est_method"; "logger"]
  else if String.eqb name "ConditionalGaussianCopula" then Some ["cov_est_method"; "conditional_on"; "logger"]
  else None.
(** dictionaries.py:27-30 with the parameters of the constructors, tree_builders.py:137, 207-208, 251, 262. *)
Definition tree_parameters (name : string) : option (list string) :=
  if String.eqb name "DiffTree" then Some ["tree"; "nodes_at_step"; "savepath"; "init"; "base_tree"; "learning_rate"]
  else if String.eqb name "NeuralGas" then Some ["tree"; "nodes_at_step"; "savepath"; "init"; "base_tree"]
  else if String.eqb name "ScenredTree" then Some ["tree"; "nodes_at_step"; "savepath"]
  else if String.eqb name "QuantileTree" then Some ["tree"; "nodes_at_step"; "savepath"]
  else None.
(** scenarios_generator.py:18-20: the named parameters. *)
Definition scengen_parameters : list string :=
  ["copula_type"; "tree_type"; "online_tree_reduction"; "q_vect"; "nodes_at_step"; "max_iterations"; "parallel_preds"; "additional_node"; "prefit_trees"].
(** A scenario generator: the names of its classes, what was passed to their constructors, and its own options.
    scenarios_generator.py:21-37. *)
Record scengen := ScenGen {
  g_copula : string; g_copula_options : keywords; g_tree : string; g_tree_options : keywords; g_nodes : option value;
  g_online : bool; g_prefit : bool; g_iterations : option value; g_parallel : bool; g_additional : bool }.
(** A class name with its default. scenarios_generator.py:18. *)
Definition class_name (k default : string) (d : keywords) : option string :=
  match find k d with None => Some default | Some (Text s) => Some s | Some _ => None end.
(** ScenGen.__init__, scenarios_generator.py:18-38; [None] = KeyError of an unknown class. *)
Definition scengen_create (d : keywords) : option scengen :=
  match class_name "copula_type" "HourlyGaussianCopula" d, class_name "tree_type" "ScenredTree" d with
  | Some c, Some t =>
      match copula_parameters c, tree_parameters t with
      | Some cp, Some tp =>
          let kwargs := rest scengen_parameters d in
          let online := flag "online_tree_reduction" true d in
          Some (ScenGen c (select cp kwargs) t (select tp kwargs) (find "nodes_at_step" d) online
            (negb online || flag "prefit_trees" false d) (find "max_iterations" d) (flag "parallel_preds" false d) (flag "additional_node" false d))
      | _, _ => None
      end
  | _, _ => None
  end.
(** forecaster.py:57-60: the named parameters of the forecasters. *)
Definition forecaster_parameters : list string :=
  ["q_vect"; "nodes_at_step"; "val_ratio"; "logger"; "n_scen_fit"; "additional_node"; "formatter"; "conditional_to_hour"; "max_scengen_rows"; "scengen_random_state"].
(** A named option that is passed on: it has a value in any case, its default if it is not given. forecaster.py:72. *)
Definition passed (k : string) (d : keywords) : keywords := match find k d with Some v => [(k, v)] | None => [] end.
(** forecaster.py:72: the scenario generator of a forecaster. *)
Definition forecaster_create (d : keywords) : option scengen :=
  scengen_create (passed "q_vect" d ++ passed "nodes_at_step" d ++ passed "additional_node" d ++ rest forecaster_parameters d).
(** The generic parameters of NN.__init__ (base_nn.py:221-228) that do not reach scenario generation. *)
Definition network_parameters : list string :=
  ["learning_rate"; "batch_size"; "load_path"; "n_hidden_x"; "n_out"; "n_layers"; "pars"; "n_epochs"; "savepath_tr_plots"; "stats_step"; "rel_tol";
   "unnormalized_inputs"; "normalize_target"; "stopping_rounds"; "subtract_mean_when_normalizing"; "causal_df"; "probabilistic"; "probabilistic_loss_kind"].
(** base_nn.py:221-230. *)
Definition network_create (d : keywords) : option scengen := forecaster_create (rest network_parameters d).
(** base_nn.py:529-536, 548-551: FFNN and LSTMNN pass [scengen_dict] on as one keyword; the remaining keywords are passed on. *)
Definition dense_create (scengen_dict : list (string * nat)) (d : keywords) : option scengen :=
  network_create (("nn_module", Other 1) :: ("scengen_dict", Dict scengen_dict) :: rest ["split_heads"; "selector"; "skip_connection"; "scengen_dict"; "nn_module"] d).
(** LSTM_bidir.py:13-15: LSTM_Forecaster; these named parameters are not passed on. *)
Definition lstm_create (d : keywords) : option scengen :=
  forecaster_create (rest ["target_name"; "lstm_history"; "pred_horizon"; "logger"; "n_scen_fit"; "additional_node"; "formatter"; "conditional_to_hour"] d).
(** forecaster.py:70-79: the options the forecaster itself keeps. *)
Definition kept (k : string) (d : keywords) : option value := find k d.
(** LSTM_bidir.py:13-15: the same for LSTM_Forecaster. *)
Definition lstm_kept (k : string) (d : keywords) : option value :=
  kept k (rest ["target_name"; "lstm_history"; "pred_horizon"; "logger"; "n_scen_fit"; "additional_node"; "formatter"; "conditional_to_hour"] d).

(** ** The pre-computed trees *)
(** The trees by hour; [fits] is the fit a tree comes from. scenarios_generator.py:31, 68. *)
Definition trees := nat -> option nat.
(** The state of a generator: options fixed by the constructor, and the trees. scenarios_generator.py:28-31. *)
Record state := State { s_online : bool; s_prefit : bool; s_hourly : bool; s_trees : trees }.
(** scenarios_generator.py:28-31. *)
Definition new_state (g : scengen) : state := State (g_online g) (g_prefit g) (String.eqb (g_copula g) "HourlyGaussianCopula") (fun _ => None).
(** scenarios_generator.py:59-68: the trees of the hours before the first that has no row. *)
Fixpoint fit_hours (present : nat -> bool) (fit : nat) (n : nat) (t : trees) : trees :=
  match n with
  | O => t
  | S h =>
      let t' := fit_hours present fit h t in
      if forallb present (seq 0 (S h)) then fun k => if (k =? h)%nat then Some fit else t' k else t'
  end.
(** scenarios_generator.py:40-73: the fit number [fit] on rows whose hours are [present]; whether it returns, and the state it
    leaves. *)
Definition fit_trees (present : nat -> bool) (fit : nat) (s : state) : bool * state :=
  if s_prefit s then
    if s_hourly s
    then (forallb present (seq 0 24), State (s_online s) (s_prefit s) (s_hourly s) (fit_hours present fit 24 (s_trees s)))
    else (false, s)
  else (true, s).
(** What a user does with a forecaster: fit it, or set online_tree_reduction (forecaster.py:82-88). *)
Inductive op := Fit (present : nat -> bool) (fit : nat) | Online (b : bool).
(** One of these, whether or not it raises. forecaster.py:82-88. *)
Definition step (s : state) (o : op) : state :=
  match o with
  | Fit present fit => snd (fit_trees present fit s)
  | Online b => State b (s_prefit s) (s_hourly s) (s_trees s)
  end.
(** Any number of them. forecaster.py:82-88. *)
Definition run (s : state) (ops : list op) : state := fold_left step ops s.
(** scenarios_generator.py:141-156, 186-189: the fit from which the tree of a row of that hour is returned when the trees are not
    generated online; [None] = AssertionError or KeyError. *)
Definition offline_tree (s : state) (hour : nat) : option nat := if s_online s then None else s_trees s hour.

(** ** nodes_at_step of predict_trees *)
Section Predict.
(** The tree generated from the scenarios of a row for a schedule, and the trees stored by hour with the forecast of the row
    superimposed. scenarios_generator.py:136-138, 186-191. *)
Context {T : Type} (generate : option (list nat) -> option T) (stored : nat -> option T).
(** ScenGen.predict_trees for one row, scenarios_generator.py:112-156; [None] = an exception. *)
Definition generator_predict (online additional : bool) (nodes : option (list nat)) (hour : nat) : option T :=
  if online then generate (match nodes with Some n => Some (if additional then 1%nat :: n else n) | None => None end)
  else match nodes with Some _ => None | None => stored hour end.
(** ScenarioGenerator.predict_trees for one row, forecaster.py:295-306. *)
Definition forecaster_predict (online additional : bool) (nodes : option (list nat)) (hour : nat) : option T :=
  if online then generator_predict true additional nodes hour else generator_predict false additional None hour.
End Predict.

(** ** Sampling *)
(** [copula.sample(x, n, **options)], copula.py:75, 113-121: an exception, nothing at all, or samples. *)
Inductive sampled (T : Type) := Raises | Nothing | Samples (t : T).
Arguments Raises {T}. Arguments Nothing {T}. Arguments Samples {T}.
(** copula.py:75-103, 113-121: the conditional copula has no parameter random_state and returns nothing. [draw] are the samples of
    the hourly copula; [None] = KeyError of an hour without parameters. *)
Definition sample {T} (copula : string) (draw : option T) (with_random_state : bool) : sampled T :=
  if String.eqb copula "HourlyGaussianCopula" then match draw with Some t => Samples t | None => Raises end
  else if with_random_state then Raises else Nothing.
(** scenarios_generator.py:158-180: [zip(range(len(samples)), ...)] raises for nothing. *)
Definition scenarios_of {T} (s : sampled T) : option T := match s with Samples t => Some t | _ => None end.
(** Scenarios of a generator, scenarios_generator.py:76-110; forecaster.py:268-280 always passes random_state. *)
Definition sample_scenarios {T} (g : scengen) (draw : option T) (with_random_state : bool) : option T :=
  scenarios_of (sample (g_copula g) draw with_random_state).
