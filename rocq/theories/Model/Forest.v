(** Model of the options of the tree-based forecasters: which parameters reach the learners (gradientboosters.py:12-76,
    randomforests.py:11-87, 99, 119; forecaster.py:90-94; trainer.py:93-98), the weights and the options of QRF.fit and
    QRF.predict (randomforests.py:89-164, 194-198), the size of the training set of the global model
    (gradientboosters.py:92-106) and the recursion of LGBEnergyAware.predict (gradientboosters.py:201-225). *)
From Coq Require Import String Reals List Arith Bool ZArith.
From Verif Require Import Model.Names Model.Transformer Model.Formatter Model.FkConfig Model.Quantiles Model.Series Model.Stats Model.Subsample.
Import ListNotations.
Local Open Scope string_scope.
Local Open Scope list_scope.

(** ** Parameters of the learners *)
(** gradientboosters.py:62-75: the names of the dictionary, which are also attributes. *)
Definition lgb_names : list string :=
  ["device_type"; "objective"; "max_depth"; "n_estimators"; "num_leaves"; "learning_rate"; "verbose"; "metric"; "min_child_samples";
   "n_jobs"; "colsample_bytree"; "colsample_bynode"].
(** randomforests.py:69-87: the names of the dictionary. *)
Definition qrf_names : list string :=
  ["n_estimators"; "bootstrap"; "oob_score"; "n_jobs"; "random_state"; "verbose"; "warm_start"; "max_samples"; "min_samples_split";
   "min_samples_leaf"; "max_samples_leaf"; "min_weight_fraction_leaf"; "max_features"; "max_leaf_nodes"; "min_impurity_decrease";
   "criterion"; "ccp_alpha"].
(** randomforests.py:38-67: arguments of the constructor that are stored under their own name. *)
Definition qrf_attributes : list string :=
  ["n_estimators"; "max_depth"; "verbose"; "n_jobs"; "n_single"; "red_frac_multistep"; "tol_period"; "keep_last_n_lags"; "keep_last_seconds";
   "bootstrap"; "oob_score"; "random_state"; "warm_start"; "max_samples"; "min_samples_split"; "min_samples_leaf"; "max_samples_leaf";
   "min_weight_fraction_leaf"; "max_features"; "max_leaf_nodes"; "min_impurity_decrease"; "criterion"; "ccp_alpha"; "parallel"; "max_parallel_workers"].
(** The entries of a dictionary with these names. gradientboosters.py:62-75. *)
Definition entries (names : list string) (d : dict) : dict :=
  flat_map (fun k => match get k d with Some v => [(k, v)] | None => [] end) names.
(** A booster: its attributes. [a] are all the arguments of the constructor with their values. gradientboosters.py:12-59. *)
Definition lgb_create (a : dict) : dict := a.
(** gradientboosters.py:61-76, 79: the parameters of the learners of the next fit. *)
Definition lgb_learner (attrs : dict) : dict := entries lgb_names attrs.
(** A forest: attributes, and the dictionary built by the constructor. randomforests.py:38-87. *)
Record forest := Forest { f_attrs : dict; f_pars : dict }.
(** randomforests.py:12-87; default_quantiles is left out (every call of the forest passes its own quantiles). *)
Definition qrf_create (a : dict) : forest := Forest (entries qrf_attributes a) (entries qrf_names a).
(** randomforests.py:94: the parameters of the single-step learners of the next fit. *)
Definition qrf_learner (f : forest) : dict := f_pars f.
(** randomforests.py:115-118: the parameters of the global learner; only a positive number of jobs is multiplied. *)
Definition qrf_global_learner (f : forest) : dict :=
  match get "n_jobs" (f_pars f), get "max_parallel_workers" (f_attrs f) with
  | Some (VNat n), Some (VNat w) => if (0 <? n)%nat then set "n_jobs" (VNat (n * w)) (f_pars f) else f_pars f
  | _, _ => f_pars f
  end.
(** forecaster.py:90-91 on a forest: qrf_pars is an attribute too, but not a parameter that one tunes. *)
Definition qrf_set_params (f : forest) (new : dict) : forest := Forest (set_params (f_attrs f) new) (f_pars f).
(** trainer.py:95-98: names outside the signature raise; otherwise the parameters are set on the model. *)
Definition trial_qrf (f : forest) (params : dict) : option forest :=
  if forallb (fun e => existsb (String.eqb (fst e)) qrf_attributes) params then Some (qrf_set_params f params) else None.

(** ** QRF.fit *)
Section Fit.
(** A learner trained on rows, the values of one target and weights, or on the rows and several targets; [None] = an exception. *)
Context {X Y M G : Type} (learn : list X -> list Y -> nat -> option (list R) -> option M) (learn_multi : list X -> list Y -> nat -> G).
(** randomforests.py:98-124: the rows are split first ([ratio] = val_ratio), the weights are not; [targets] is the number of columns of y.
    red_frac_multistep is not read. Returns the single-step models and the global one. *)
Definition qrf_fit (ratio : option R) (n_single targets : nat) (red_frac : R) (x : list X) (y : list Y) (weights : option (list R)) : option (list M * option G) :=
  let '(xt, yt, _) := train_val_split ratio x y in
  match all_some (map (fun i => learn xt yt i weights) (seq 0 n_single)) with
  | None => None
  | Some ms => Some (ms, if (n_single <? targets)%nat then Some (learn_multi xt yt n_single) else None)
  end.
End Fit.

(** ** QRF.predict *)
(** The argument [quantiles]: 'mean', a list of levels, or None. randomforests.py:136, 194-196. *)
Inductive quantiles_arg := Mean | Levels (l : list R) | NoLevels.
(** What the forest is asked for: [list('mean')] are letters. randomforests.py:136, 160. *)
Inductive request := AskMean | AskLevels (l : list R) | AskLetters.
(** [list(kwargs['quantiles']) if 'quantiles' in kwargs else 'mean'], randomforests.py:136, 160; list(None) raises. *)
Definition request_of (q : option quantiles_arg) : option request :=
  match q with None => Some AskMean | Some Mean => Some AskLetters | Some (Levels l) => Some (AskLevels l) | Some NoLevels => None end.
(** The forest refuses levels that are not numbers. randomforests.py:160. *)
Definition forest_answers (r : option request) : bool := match r with Some AskLetters | None => false | Some _ => true end.
(** randomforests.py:126-153: whether the single-step and the global models answer; a keyword [period] is passed twice to
    [_predict] (130, 134). At least one model. *)
Definition qrf_predicts (parallel : bool) (n_single n_multi : nat) (with_period : bool) (q : option quantiles_arg) : bool :=
  (if with_period && (parallel || (0 <? n_single)%nat) then false else true) &&
  (if (0 <? n_single + n_multi)%nat then forest_answers (request_of q) else false).
(** randomforests.py:194-198: the levels that are forecast, those asked for or those of the object; [None] = an exception. *)
Definition qrf_predict_quantiles (parallel : bool) (n_single n_multi : nat) (q_vect : list R) (q : option (list R)) : option (list R) :=
  let levels := match q with Some l => l | None => q_vect end in
  if qrf_predicts parallel n_single n_multi false (Some (Levels levels)) then Some levels else None.

(** ** The inputs of the single-step models of LGBMHybrid *)
(** gradientboosters.py:151-159: 24h in nanoseconds, the default period. *)
Definition day_ns : Z := (24 * 3600 * 1000000000)%Z.
(** gradientboosters.py:86-90, 127-134: the columns of step [i]; fit passes no period, predict the keyword's or the default. *)
Definition lgb_columns (tmetas fmetas : list (list meta)) (keep : list text) (tol lags ns : Z) (period : option Z) (i : nat) : option (list text) :=
  prune_columns tmetas fmetas i keep (Periodic (match period with Some p => p | None => day_ns end) tol) lags ns.

(** ** The training set of the global model of LGBMHybrid *)
Local Open Scope R_scope.
(** gradientboosters.py:97-98: rows drawn for every step. Real arithmetic. *)
Definition batch_rows (rows k : nat) (red_frac : R) : nat :=
  Z.to_nat (Int_part (INR rows * (Rmax 1 (red_frac * INR k) / INR k))).
(** gradientboosters.py:99. *)
Definition long_rows (rows k : nat) (red_frac : R) : nat := (batch_rows rows k red_frac * k)%nat.
(** gradientboosters.py:100: [draw] are the numbers of the random generator, below [rows], with repetitions. *)
Definition sampled_rows (draw : nat -> nat) (rows k : nat) (red_frac : R) (step : nat) : list nat :=
  let b := batch_rows rows k red_frac in map (fun i => draw (step * b + i)%nat) (seq 0 b).

(** ** LGBEnergyAware.predict *)
(** One row of inputs of a step: names and values. gradientboosters.py:205-208. *)
Definition inputs := list (string * R).
(** [sub in c], gradientboosters.py:217. *)
Fixpoint contains (sub c : string) : bool :=
  prefix sub c || match c with EmptyString => false | String _ c' => contains sub c' end.
(** gradientboosters.py:217. *)
Definition controlled (c : string) : bool := contains "force_off" c && contains "-" c.
Section Energy.
(** The model of each step: it sees the inputs and, after the first step, the feature. *)
Context (model : nat -> inputs -> option R -> R).
(** gradientboosters.py:217. *)
Definition without_control (x : inputs) : inputs := map (fun e => if controlled (fst e) then (fst e, 0) else e) x.
(** gradientboosters.py:209-213: the sum of the unbalances of the previous steps. *)
Definition feature (i : nat) (unbalance : list R) : option R := if (i =? 0)%nat then None else Some (fold_right Rplus 0 unbalance).
(** gradientboosters.py:204-221: forecasts and unbalances of the steps [i], [i]+1, ..; [xs] are the pruned inputs of the steps. *)
Fixpoint energy_steps (i : nat) (unbalance : list R) (xs : list inputs) : list R * list R :=
  match xs with
  | [] => ([], unbalance)
  | x :: xs' =>
      let f := feature i unbalance in
      let p := model i x f in
      let '(ps, us) := energy_steps (S i) (unbalance ++ [model i (without_control x) f - p]) xs' in (p :: ps, us)
  end.
(** gradientboosters.py:201-223. *)
Definition energy_predict (xs : list inputs) : list R := fst (energy_steps 0 [] xs).
(** gradientboosters.py:223: the number of columns must be that of the targets. *)
Definition energy_frame (targets : nat) (xs : list inputs) : option (list R) :=
  if (length (energy_predict xs) =? targets)%nat then Some (energy_predict xs) else None.
End Energy.
