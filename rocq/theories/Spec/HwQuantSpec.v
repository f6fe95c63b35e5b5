(** Vocabulary of quantile forecasts of smoothing models. *)
From Coq Require Import List Reals.
From Verif Require Import Model.Stats Model.HwQuant.
Import ListNotations.
Local Open Scope R_scope.

Definition at2 (t : list (list R)) (i j : nat) : R := nth j (nth i t []) 0.
(** The number of rows whose observation of step [j] is at most, or at least, its [i]-th quantile forecast. *)
Definition rows_below (err preds target : list (list R)) (j i : nat) : nat :=
  length (filter (fun t => Rleb (at2 target t j) (at2 (quantile_forecast err (nth t preds [])) j i)) (seq 0 (length target))).
Definition rows_above (err preds target : list (list R)) (j i : nat) : nat :=
  length (filter (fun t => Rleb (at2 (quantile_forecast err (nth t preds [])) j i) (at2 target t j)) (seq 0 (length target))).
(** A table of [n] rows and [steps] columns. *)
Definition of_shape (n steps : nat) (t : list (list R)) : Prop := length t = n /\ Forall (fun r => length r = steps) t.
