(** Vocabulary of the quantile forecasts. *)
From Coq Require Import List ZArith Reals.
Import ListNotations.
Local Open Scope R_scope.

Definition cell (t : list (list R)) (j k : nat) : R := nth k (nth j t []) 0.
Definition cell3 (t : list (list (list R))) (i j k : nat) : R := cell (nth i t []) j k.

(** Every hour of the day occurs. *)
Definition full_day (hours : list Z) : Prop := forall h, (0 <= h < 24)%Z -> In h hours.
Definition in_day (hours : list Z) : Prop := forall h, In h hours -> (0 <= h < 24)%Z.

(** Errors of step [j]: of all rows, and of the rows of hour [h]. *)
Definition step_errors (errs : list (list R)) (j : nat) : list R := map (fun r => nth j r 0) errs.
Definition hour_errors (hours : list Z) (errs : list (list R)) (h : Z) (j : nat) : list R :=
  flat_map (fun i => if Z.eq_dec (nth i hours 0%Z) h then [nth j (nth i errs []) 0] else []) (seq 0 (length errs)).

(** The errors a distribution for hour [h] and step [j] is built from. *)
Definition pool (hours : list Z) (errs : list (list R)) (h : Z) (j : nat) (l : list R) : Prop :=
  (full_day hours /\ l = hour_errors hours errs h j) \/ (~ full_day hours /\ l = step_errors errs j).

(** A table of [n] rows with [m] entries each. *)
Definition shaped {A} (n m : nat) (t : list (list A)) : Prop := length t = n /\ Forall (fun r => length r = m) t.
