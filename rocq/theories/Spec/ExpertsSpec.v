(** Vocabulary for combinations of experts. *)
From Coq Require Import Reals List Arith.
From Verif Require Import Model.Experts.
Import ListNotations.
Local Open Scope R_scope.

Definition probability (w : list R) : Prop := Forall (fun v => 0 <= v) w /\ fold_right Rplus 0 w = 1.
(** Between the smallest and the largest entry. *)
Definition in_hull (l : list R) (v : R) : Prop := (exists a, In a l /\ a <= v) /\ (exists b, In b l /\ v <= b).
(** The expert forecasts the future exactly; the expert repeats what is already known. *)
Definition perfect (n_sa : nat) (preds : nat -> nat -> nat -> R) (y : nat -> R) (e : nat) : Prop := forall t h, (h < n_sa)%nat -> preds t h e = y (t + 1 + h)%nat.
Definition one_step_late (n_sa : nat) (preds : nat -> nat -> nat -> R) (y : nat -> R) (e : nat) : Prop := forall t h, (h < n_sa)%nat -> preds t h e = y (t + h)%nat.
(** Mean distance between the forecasts of time [t] made one to [n_sa] steps before and a value [v]. *)
Definition mean_distance (n_sa : nat) (preds : nat -> nat -> nat -> R) (t : nat) (v : R) (e : nat) : R :=
  fold_right Rplus 0 (map (fun h => Rabs (preds (t - 1 - h)%nat h e - v)) (seq 0 n_sa)) / INR n_sa.
