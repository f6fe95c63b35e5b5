(** Sample statistics, correlation matrices. *)
From Coq Require Import List ZArith Reals.
Import ListNotations.
Local Open Scope R_scope.

Fixpoint total (f : nat -> R) (n : nat) : R := match n with O => 0 | S n' => total f n' + f n' end.
(** Population mean, covariance and variance of the columns of an [n]-row table. *)
Definition mean_of (f : nat -> R) (n : nat) : R := total f n / INR n.
Definition covariance (xs : nat -> nat -> R) (n i j : nat) : R :=
  mean_of (fun r => xs r i * xs r j) n - mean_of (fun r => xs r i) n * mean_of (fun r => xs r j) n.
Definition variance (xs : nat -> nat -> R) (n i : nat) : R := covariance xs n i i.

(** Pearson's correlation of two columns. *)
Definition correlation (xs : nat -> nat -> R) (n i j : nat) (r : R) : Prop :=
  r * (sqrt (variance xs n i) * sqrt (variance xs n j)) = covariance xs n i j.

(** A column takes the same value in every row. *)
Definition constant_column (xs : nat -> nat -> R) (n j : nat) : Prop :=
  exists c, forall r, (r < n)%nat -> xs r j = c.

(** The value of [v' M v]. *)
Definition quadratic (dim : nat) (M : nat -> nat -> R) (v : nat -> R) : R :=
  total (fun i => total (fun j => v i * M i j * v j) dim) dim.

(** The quadratic form of [M] is at least [e] times that of the identity. *)
Definition positive_definite (dim : nat) (M : nat -> nat -> R) (e : R) : Prop :=
  forall v, e * total (fun i => v i * v i) dim <= quadratic dim M v.

(** How often [h] occurs. *)
Definition occurrences (h : Z) (hours : list Z) : nat := count_occ Z.eq_dec hours h.
Definition most_frequent (hours : list Z) (h : Z) : Prop :=
  In h hours /\ forall h', (occurrences h' hours <= occurrences h hours)%nat.
