(** Vocabulary for the construction and tuning of the smoothing models. *)
From Coq Require Import String Reals List Arith Bool.
From Verif Require Import Model.HoltWinters Model.FourierEs Model.FourierKalman Model.FkConfig.
Import ListNotations.
Local Open Scope string_scope.

(** Python passes a named argument to the parameter of that name, so the extra arguments hold none of these. *)
Definition parameters : list string :=
  ["target_name"; "targets_names"; "n_sa"; "n_predictors"; "alphas"; "m"; "omegas"; "ns_harmonics"; "val_ratio";
   "nodes_at_step"; "q_vect"; "periodicity"; "base_predictor"; "optimize_hyperpars"; "optimize_submodels_hyperpars";
   "optimization_budget"; "r"; "q"; "verbose"; "submodels_pars"].
Definition proper_kwargs (d : dict) : Prop := NoDup (map fst d) /\ forall k, In k parameters -> get k d = None.
(** The periodicity a user asks for. *)
Definition requested_period (a : multi_args) : nat := match a_periodicity a with Some p => p | None => a_n_sa a end.
(** The same arguments with other parameters for the predictors. *)
Definition with_parameters (a : multi_args) (alphas omegas ns_harmonics : val) : multi_args :=
  MultiArgs (a_target a) (a_targets a) (a_n_sa a) (a_n_predictors a) alphas (a_m a) omegas ns_harmonics (a_val_ratio a)
    (a_nodes a) (a_q_vect a) (a_periodicity a) (a_optimize a) (a_optimize_sub a) (a_budget a) (a_r a) (a_q a)
    (a_verbose a) (a_submodels_pars a) (a_kwargs a).
(** The same arguments with another choice of tuning for the predictors. *)
Definition with_tuning (a : multi_args) (b : bool) : multi_args :=
  MultiArgs (a_target a) (a_targets a) (a_n_sa a) (a_n_predictors a) (a_alphas a) (a_m a) (a_omegas a) (a_ns_harmonics a) (a_val_ratio a)
    (a_nodes a) (a_q_vect a) (a_periodicity a) (a_optimize a) b (a_budget a) (a_r a) (a_q a)
    (a_verbose a) (a_submodels_pars a) (a_kwargs a).
(** The stored state has the shapes of the model. *)
Definition shaped (p : fparams) (st : fstored) : Prop :=
  length (st_w st) = fm p /\ match st_x st with Some x => length x = dim p | None => True end.
(** Vectors keep the dimension 2h + 1. *)
Definition dimensioned {C} (o : nat -> ops (list R) C) : Prop :=
  forall h, length (zero_x (o h)) = 2 * h + 1 /\
    forall x P Q Rm c, length (fst (kalman_op (o h) x P Q Rm c)) = 2 * h + 1.
(** What the attribute [k] holds. *)
Definition attribute (k : string) (o : tunable) : option val := get k (t_attrs o).
(** The same parameters with another periodicity. *)
Definition with_period (q : nat) (p : fparams) : fparams := FParams (fm p) (fsa p) q (fharmonics p) (falpha p) (fomega p).
