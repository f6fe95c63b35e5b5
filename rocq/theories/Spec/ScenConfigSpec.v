(** Vocabulary of the options of scenario generation. *)
From Coq Require Import String List Arith Bool.
From Verif Require Import Model.ScenConfig.
Import ListNotations.
Local Open Scope string_scope.

(** Every name that some part of scenario generation knows. *)
Definition known_names : list string :=
  ["q_vect"; "nodes_at_step"; "val_ratio"; "logger"; "n_scen_fit"; "additional_node"; "formatter"; "conditional_to_hour"; "max_scengen_rows";
   "scengen_random_state"; "copula_type"; "tree_type"; "online_tree_reduction"; "max_iterations"; "parallel_preds"; "prefit_trees";
   "cov_est_method"; "conditional_on"; "tree"; "savepath"; "init"; "base_tree"; "learning_rate"].
(** Every hour of the day has a row. *)
Definition every_hour (present : nat -> bool) : Prop := forall h, h < 24 -> present h = true.
(** The first hour without a row. *)
Definition first_missing (present : nat -> bool) (m : nat) : Prop := m < 24 /\ present m = false /\ forall h, h < m -> present h = true.
(** Keywords without a given name. *)
Definition not_given (k : string) (d : keywords) : Prop := ~ In k (map fst d).
