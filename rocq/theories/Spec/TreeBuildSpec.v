(** Vocabulary of the scenario tree builders. *)
From Coq Require Import List Arith Reals.
From Verif Require Import Model.Scenred Spec.ScenredSpec.
Import ListNotations.
Local Open Scope R_scope.

(** Usable node counts: one root, and every step has a positive multiple of the nodes of the
    step before. *)
Definition multiples (ns : list nat) : Prop :=
  nth 0 ns 0%nat = 1%nat /\
  forall t, (S t < length ns)%nat -> exists c, (0 < c)%nat /\ nth (S t) ns 0%nat = (c * nth t ns 0)%nat.
Definition nodes_at_time {V} (g : graph V) (t : nat) : list nat :=
  filter (fun k => time_of g k =? t)%nat (seq 0 (length (g_nodes g))).

(** Every node is on some scenario, always at the same step. *)
Definition node_positions (T L n : nat) (idx : nat -> nat -> nat) : Prop :=
  (forall t s, (t < T)%nat -> (s < L)%nat -> (idx t s < n)%nat) /\
  (forall i, (i < n)%nat -> exists t s, (t < T)%nat /\ (s < L)%nat /\ idx t s = i) /\
  forall t s t' s', (t < T)%nat -> (s < L)%nat -> (t' < T)%nat -> (s' < L)%nat -> idx t s = idx t' s' -> t = t'.
(** The scenarios [S] are those of a tree with node values [v]. *)
Definition read_off (T L : nat) (idx : nat -> nat -> nat) (S : nat -> nat -> R) (v : list R) : Prop :=
  forall t s, (t < T)%nat -> (s < L)%nat -> S t s = nth (idx t s) v 0.
(** Scenarios passing through the same node agree there. *)
Definition share_nodes (T L : nat) (idx : nat -> nat -> nat) (S : nat -> nat -> R) : Prop :=
  forall t s t' s', (t < T)%nat -> (s < L)%nat -> (t' < T)%nat -> (s' < L)%nat -> idx t s = idx t' s' -> S t s = S t' s'.
Definition between (lo hi x : R) : Prop := lo <= x <= hi.
(** [argsort f n] lists the positions of [f 0 .. f (n-1)] in increasing order of value. *)
Definition sorts (argsort : (nat -> R) -> nat -> nat -> nat) : Prop :=
  forall f n, (forall i, (i < n)%nat -> (argsort f n i < n)%nat) /\
    (forall i j, (i < n)%nat -> (j < n)%nat -> argsort f n i = argsort f n j -> i = j) /\
    forall i j, (i < j < n)%nat -> f (argsort f n i) <= f (argsort f n j).
(** [n] steps of gradient descent with one rate. *)
Fixpoint descend (gradient : list R -> list R) (rate : R) (n : nat) (vals : list R) : list R :=
  match n with O => vals | Datatypes.S n' => descend gradient rate n' (map (fun p => fst p - snd p * rate) (combine vals (gradient vals))) end.
