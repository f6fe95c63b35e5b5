(** Vocabulary: distances of scenarios to the paths of a tree. *)
From Coq Require Import List Reals.
From Verif Require Import Spec.CopulaFitSpec.
Import ListNotations.
Local Open Scope R_scope.

(** Mean squared difference of scenario [n] and path [l]; node [idx t l] is on path [l] at step [t]. *)
Definition path_distance (T : nat) (idx : nat -> nat -> nat) (scens : nat -> nat -> R) (vals : list R) (n l : nat) : R :=
  mean_of (fun t => (scens t n - nth (idx t l) vals 0) ^ 2) T.
Definition nearest_path (T L : nat) (idx : nat -> nat -> nat) (scens : nat -> nat -> R) (vals : list R) (n l : nat) : Prop :=
  (l < L)%nat /\ forall l', (l' < L)%nat -> path_distance T idx scens vals n l <= path_distance T idx scens vals n l'.
(** The derivative of a minimum is shared among its smallest entries. *)
Definition tie_shares (T L N : nat) (idx : nat -> nat -> nat) (scens : nat -> nat -> R) (shares : list R -> nat -> nat -> R) : Prop :=
  forall vals n, (n < N)%nat -> (forall l, (l < L)%nat -> 0 <= shares vals n l) /\ total (shares vals n) L = 1 /\
    forall l, (l < L)%nat -> shares vals n l <> 0 -> nearest_path T L idx scens vals n l.
(** A path meets a node at most once. *)
Definition once (T L : nat) (idx : nat -> nat -> nat) : Prop :=
  forall t t' l, (t < T)%nat -> (t' < T)%nat -> (l < L)%nat -> idx t l = idx t' l -> t = t'.
(** The scenario is one of the paths of the tree. *)
Definition on_tree (T L : nat) (idx : nat -> nat -> nat) (scens : nat -> nat -> R) (vals : list R) (n : nat) : Prop :=
  exists l, (l < L)%nat /\ forall t, (t < T)%nat -> scens t n = nth (idx t l) vals 0.
(** One node value changed by [d]. *)
Definition bump (vals : list R) (i : nat) (d : R) : list R := map (fun j => nth j vals 0 + if Nat.eqb j i then d else 0) (seq 0 (length vals)).
(** No scenario has two nearest paths. *)
Definition no_ties (T L N : nat) (idx : nat -> nat -> nat) (scens : nat -> nat -> R) (vals : list R) : Prop :=
  forall n, (n < N)%nat -> exists l, (l < L)%nat /\ forall l', (l' < L)%nat -> l' <> l -> path_distance T idx scens vals n l < path_distance T idx scens vals n l'.
(** Sum over the scenarios of the mean distance to all paths. *)
Definition average_loss (T L N : nat) (idx : nat -> nat -> nat) (scens : nat -> nat -> R) (vals : list R) : R :=
  total (fun n => mean_of (path_distance T idx scens vals n) L) N.
