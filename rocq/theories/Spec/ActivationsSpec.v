(** Vocabulary for activations. *)
From Coq Require Import Reals.
Local Open Scope R_scope.
(** [f] is strictly increasing on the numbers satisfying [P]. *)
Definition increasing_on (P : R -> Prop) (f : R -> R) : Prop := forall x y, P x -> P y -> x < y -> f x < f y.
Definition nondecreasing (f : R -> R) : Prop := forall x y, x <= y -> f x <= f y.
