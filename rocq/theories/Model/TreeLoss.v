(** Model of the loss of the scenario trees and of its gradient (tree_builders.py:119-133,
    206-247). Exact arithmetic. *)
From Coq Require Import List Bool Arith Reals.
From Verif Require Import Model.FourierEs Model.Scenred Model.TreeBuild.
Import ListNotations.
Local Open Scope R_scope.

Section Loss.
Context (T L N : nat) (idx : nat -> nat -> nat) (scens : nat -> nat -> R).   (* steps, leaves, scenarios, tree_idxs, scens *)
(** tree_builders.py:119-123: mean squared difference of a scenario [x] and the scenario of leaf [l]. *)
Definition compute_distances (tree_scens : nat -> nat -> R) (x : nat -> R) (l : nat) : R :=
  rsum (fun t => (x t - tree_scens t l) ^ 2) T / INR T.
(** [jnp.min]. Used by [metric_loss], tree_builders.py:125-133. *)
Fixpoint min_below (f : nat -> R) (n : nat) : R :=
  match n with O => 0 | S O => f O | S n' => Rmin (min_below f n') (f n') end.
(** tree_builders.py:125-133. *)
Definition metric_loss (vals : list R) : R :=
  rsum (fun n => min_below (compute_distances (fun t l => nth (idx t l) vals 0) (fun t => scens t n)) L) N.
(** tree_builders.py:242: [jax.grad] of [metric_loss]. The derivative of a minimum goes to the
    smallest entries; [shares] says in which parts (jax: equal parts). *)
Definition loss_gradient (shares : list R -> nat -> nat -> R) (vals : list R) : list R :=
  map (fun i => rsum (fun n => rsum (fun l => shares vals n l *
                  rsum (fun t => if (idx t l =? i)%nat then 2 * (nth i vals 0 - scens t n) / INR T else 0) T) L) N)
      (seq 0 (length vals)).
(** tree_builders.py:215-216: the learning rate if none is given. *)
Definition default_rate : R := Rmax (1 / INR N) (1 / 10).
End Loss.
(** tree_builders.py:273-282: the loss with a smooth weighting of the paths instead of the nearest one. *)
Definition soft_loss (T L N : nat) (idx : nat -> nat -> nat) (scens : nat -> nat -> R) (vals : list R) : R :=
  rsum (fun n => let dists := compute_distances T (fun t l => nth (idx t l) vals 0) (fun t => scens t n) in
                 let expdists l := exp (80 / (1 + dists l)) in
                 rsum (fun l => expdists l / rsum expdists L * dists l) L) N.
(** scenred.py:420-422: number of nodes at each of the times occurring in a graph; [np.unique] lists the
    times in increasing order. *)
Definition get_nodes_per_time_from_tree {V} (g : graph V) : list nat :=
  let times := map n_time (g_nodes g) in
  map (count_occ Nat.eq_dec times) (filter (fun t => if in_dec Nat.eq_dec t times then true else false) (seq 0 (S (list_max times)))).
