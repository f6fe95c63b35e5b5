(** Vocabulary of scaling and of random features. *)
From Coq Require Import List Reals.
From Verif Require Import Model.Subsample Model.Rff.
Import ListNotations.
Local Open Scope R_scope.

Definition total (l : list R) : R := fold_right Rplus 0 l.
Definition squares (l : list R) : list R := map (fun v => v * v) l.
(** Sum of squared errors of a linear model. *)
Definition squared_error (features : list (list R)) (targets : list R) (m : R * list R) : R :=
  total (squares (map2 Rminus targets (map (linear_apply m) features))).
(** A learner that never does worse on its training data than predicting zero, as least squares does. *)
Definition no_worse_than_zero (learn : list (list R) -> list R -> R * list R) : Prop :=
  forall features targets, length targets = length features ->
  squared_error features targets (learn features targets) <= total (squares targets).
(** One that fits the best constant. *)
Definition best_constant (features : list (list R)) (targets : list R) : R * list R := (total targets / INR (length targets), []).
(** An orthogonal matrix of size [n]. *)
Fixpoint ip (n : nat) (u v : nat -> R) : R := match n with O => 0 | S n' => ip n' u v + u n' * v n' end.
Definition orthogonal (n : nat) (q : nat -> nat -> R) : Prop :=
  (forall i j, (i < n)%nat -> (j < n)%nat -> ip n (fun k => q i k) (fun k => q j k) = if Nat.eq_dec i j then 1 else 0) /\
  (forall i j, (i < n)%nat -> (j < n)%nat -> ip n (fun k => q k i) (fun k => q k j) = if Nat.eq_dec i j then 1 else 0).
