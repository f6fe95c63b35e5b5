(** Vocabulary for the errors of the persistence benchmarks. *)
From Coq Require Import Reals List Arith.
From Verif Require Import Model.Subsample.
Import ListNotations.
Local Open Scope R_scope.

(** Value of a series at a position. *)
Definition value_at (y : list R) (t : nat) : R := nth t y 0.
(** Entry of a table. *)
Definition entry (t : list (list R)) (i h : nat) : R := nth h (nth i t []) 0.
(** Number of rows before the rows on which the errors are measured. *)
Definition offset (ratio : option R) (n : nat) : nat := match ratio with None => 0%nat | Some r => (n - n_val n r)%nat end.
(** A choice of rows among n. *)
Definition chooses (positions : nat -> list nat) : Prop := forall n i, In i (positions n) -> (i < n)%nat.
