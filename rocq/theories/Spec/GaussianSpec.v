From Coq Require Import Reals List.
Local Open Scope R_scope.
(** The inverse error function as used here: defined, increasing and odd on (-1, 1). *)
Definition error_inverse (erfinv : R -> R) : Prop :=
  (forall a b, -1 < a -> a < b -> b < 1 -> erfinv a < erfinv b) /\ (forall a, -1 < a < 1 -> erfinv (- a) = - erfinv a).
Definition levels_ok (levels : list R) : Prop := forall q, In q levels -> 0 < q < 1.
