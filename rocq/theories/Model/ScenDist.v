(** Model of the distances between scenarios (scenred.py:13-15, 60-84, 112-121): the values of a scenario at
    a step are a list, one per variable; every variable is normalised at every step over the scenarios.
    The metric is the default one, 'cityblock'. Exact arithmetic. *)
From Coq Require Import List Arith Reals.
From Verif Require Import Model.Scenred.
Import ListNotations.
Local Open Scope R_scope.

(** Sum of [f 0 .. f (n-1)]. Used by [scen_mean], scenred.py:79. *)
Fixpoint sum_below (f : nat -> R) (n : nat) : R := match n with O => 0 | S k => sum_below f k + f k end.
(** scenred.py:79: [np.mean(V, 1)] at one step. *)
Definition scen_mean (N : nat) (v : nat -> R) : R := sum_below v N / INR N.
(** scenred.py:79: [np.std(V, 1)] at one step. *)
Definition scen_std (N : nat) (v : nat -> R) : R :=
  sqrt (sum_below (fun c => (v c - scen_mean N v) * (v c - scen_mean N v)) N / INR N).
(** scenred.py:79: [V_norm] at one step; 1e-6 is added to the standard deviation. *)
Definition normalised (N : nat) (v : nat -> R) (c : nat) : R := (v c - scen_mean N v) / (scen_std N v + 1 / 1000000).
(** scenred.py:77-78: variable [j] at step [u]. *)
Definition variable (samples : nat -> nat -> list R) (u j : nat) : nat -> R := fun c => nth j (samples u c) 0.
(** scenred.py:13-15, 80-84, 112-120: the distance between two scenarios over the first [i + 1] steps, over
    the [m] variables ([samples.shape[2]]). *)
Definition cityblock (N m : nat) (samples : nat -> nat -> list R) (i r c : nat) : R :=
  sum_below (fun j => sum_below (fun u => Rabs (normalised N (variable samples u j) r - normalised N (variable samples u j) c)) (S i)) m.
(** scenred.py:18-195 with that distance. Arrays of values are compared exactly. *)
Definition scenred_values (T N m : nat) (nearest : (nat -> R) -> nat -> nat) (t : R) (ns : option (nat -> nat)) (samples : nat -> nat -> list R) :=
  scenred (list_eq_dec Req_EM_T) T N (cityblock N m samples) nearest t ns samples.
