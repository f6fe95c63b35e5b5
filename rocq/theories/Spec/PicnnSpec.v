(** Vocabulary for input-convex networks. *)
From Coq Require Import Reals.
Local Open Scope R_scope.
Definition mix (t : R) (a b : nat -> R) : nat -> R := fun j => t * a j + (1 - t) * b j.
(** [f] is convex. *)
Definition convex (f : (nat -> R) -> R) : Prop := forall t a b, 0 <= t <= 1 -> f (mix t a b) <= t * f a + (1 - t) * f b.
Definition convex1 (f : R -> R) : Prop := forall t a b, 0 <= t <= 1 -> f (t * a + (1 - t) * b) <= t * f a + (1 - t) * f b.
(** [f] does not decrease when no input decreases. *)
Definition monotone (f : (nat -> R) -> R) : Prop := forall a b, (forall j, a j <= b j) -> f a <= f b.
Definition nonneg (W : nat -> nat -> R) : Prop := forall j k, 0 <= W j k.
(** [f] is quasi-convex: between two points it does not exceed the larger of the two values. *)
Definition quasiconvex (f : (nat -> R) -> R) : Prop := forall t a b, 0 <= t <= 1 -> f (mix t a b) <= Rmax (f a) (f b).
