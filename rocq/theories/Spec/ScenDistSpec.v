(** Vocabulary: values of scenarios moved or in another unit. *)
From Coq Require Import List Arith Reals.
Import ListNotations.
Local Open Scope R_scope.

(** Every variable moved by its own offset; every variable multiplied by [k]. *)
Definition moved (d : nat -> R) (v : list R) : list R := map (fun j => nth j v 0 + d j) (seq 0 (length v)).
Definition multiplied (k : R) (v : list R) : list R := map (Rmult k) v.
(** Few enough values: the number of variables times that of steps times the root of twice the number of scenarios. *)
Definition moderate_size (T N m : nat) : Prop := INR m * INR T * sqrt (2 * INR N) < 10 ^ 12 - 1.
(** Value of every variable at every step in every scenario. *)
Definition complete (m : nat) (samples : nat -> nat -> list R) : Prop := forall u c, length (samples u c) = m.
