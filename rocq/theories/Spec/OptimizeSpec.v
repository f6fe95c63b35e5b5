From Coq Require Import Reals.
Local Open Scope R_scope.
Definition convex (f : R -> R) : Prop := forall a b t, 0 <= t <= 1 -> f (t * a + (1 - t) * b) <= t * f a + (1 - t) * f b.
