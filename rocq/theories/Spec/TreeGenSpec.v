(** Vocabulary of the generation of trees. *)
From Coq Require Import List Arith Reals.
From Verif Require Import Model.Scenred Spec.StatsSpec.
Import ListNotations.

Definition nondecreasing (l : list nat) : Prop := forall i j, i <= j -> j < length l -> nth i l 0 <= nth j l 0.
Definition power_of_two (x : nat) : Prop := exists e, x = 2 ^ e.
(** Same nodes at the same steps with the same probabilities, same edges: only values may differ. *)
Definition same_shape {V} (g g' : graph V) : Prop :=
  map fst (g_nodes g) = map fst (g_nodes g') /\ g_edges g = g_edges g'.

Local Open Scope R_scope.
(** [d] is the distance from [s] to the closest of [alphas]. *)
Definition closest {V} (metric : V -> V -> R) (s : V) (alphas : list V) (d : R) : Prop :=
  (exists a, In a alphas /\ d = metric s a) /\ forall a, In a alphas -> d <= metric s a.
(** [d] is the sum over [samples] of the distances to the closest of [alphas]. *)
Definition covering_distance {V} (metric : V -> V -> R) (samples alphas : list V) (d : R) : Prop :=
  exists ds, Forall2 (fun s x => closest metric s alphas x) samples ds /\ d = fold_right Rplus 0 ds.
