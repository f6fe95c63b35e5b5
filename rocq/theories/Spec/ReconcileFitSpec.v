(** Vocabulary of the training of reconciled forecasts. *)
From mathcomp Require Import all_ssreflect all_algebra.
Set Implicit Arguments.
Unset Strict Implicit.
Unset Printing Implicit Defensive.
Import GRing.Theory.

(** [l] lists, in their order, the contents of the rows whose series satisfies [Q]. *)
Inductive rows_with {N : eqType} {X : Type} (Q : N -> Prop) : seq (N * X) -> seq X -> Prop :=
| rows_nil : rows_with Q [::] [::]
| rows_take c x rows l : Q c -> rows_with Q rows l -> rows_with Q ((c, x) :: rows) (x :: l)
| rows_skip c x rows l : ~ Q c -> rows_with Q rows l -> rows_with Q ((c, x) :: rows) l.

Local Open Scope ring_scope.
(** A pseudo-inverse: the inverse where there is one, zero for zero. *)
Definition pseudo_inverse {F : fieldType} m (pinv : 'M[F]_m -> 'M[F]_m) : Prop :=
  (forall C, C \in unitmx -> pinv C = invmx C) /\ pinv 0 = 0.
(** Every column is constant. *)
Definition constant_columns {F : fieldType} n p (E : 'M[F]_(n, p)) : Prop := forall i i' j, E i j = E i' j.
