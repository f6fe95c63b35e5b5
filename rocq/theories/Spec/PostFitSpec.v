(** Calibration of quantile forecasts. *)
From Coq Require Import List ZArith Reals.
From Verif Require Import Spec.QuantilesSpec.
Import ListNotations.
Local Open Scope R_scope.

(** The rows (positions) a quantile of hour [h] is calibrated on: those of that hour, or
    all rows when some hour of the day is missing. *)
Definition calibration_rows (hours : list Z) (h : Z) (g : list nat) : Prop :=
  (full_day hours /\ g = filter (fun i => Z.eqb (nth i hours 0%Z) h) (seq 0 (length hours))) \/
  (~ full_day hours /\ g = seq 0 (length hours)).

(** Observation minus forecast quantile, for the rows [g], step [j], level number [k]. *)
Definition residuals (y : list (list R)) (q : list (list (list R))) (g : list nat) (j k : nat) : list R :=
  map (fun i => cell y i j - cell3 q i j k) g.

(** A number and a list of hours that every row of a frame has. *)
Definition steps_of {X} (f : X -> list R) (steps : nat) (x : list X) : Prop :=
  forall r, In r x -> length (f r) = steps.
