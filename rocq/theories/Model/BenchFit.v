(** Model of the fits of the persistence benchmarks (benchmarks.py:14-18, 45-50) up to the errors from which the quantiles and
    the scenarios are made (forecaster.py:211-217). The frame is the target column; no missing values. *)
From Coq Require Import Reals List Arith Bool.
From Verif Require Import Model.Subsample Model.HoltWinters Model.Benchmarks.
Import ListNotations.
Local Open Scope R_scope.

(** forecaster.py:313-321 for a frame that is its own target. *)
Definition training_part (ratio : option R) (y : list R) : list R := fst (fst (train_val_split ratio y y)).
(** forecaster.py:313-321. *)
Definition validation_part (ratio : option R) (y : list R) : list R := fst (snd (train_val_split ratio y y)).
(** benchmarks.py:17, 49: [iloc[:-n_sa]] for n_sa >= 1. *)
Definition without_last {V} (n : nat) (l : list V) : list V := firstn (length l - n) l.
(** The rows at given positions, in that order (forecaster.py:104-116, 171-178); a frame that is not capped keeps all of them. *)
Definition rows_at {V} (d : V) (positions : list nat) (l : list V) : list V := map (fun i => nth i l d) positions.
(** Row by row difference, forecaster.py:216. *)
Definition differences (y preds : list (list R)) : list (list R) := map2 (map2 Rminus) y preds.
(** benchmarks.py:14-18 with forecaster.py:211-216; [positions] are the rows kept for the errors. *)
Definition persistent_errors (ratio : option R) (n_sa : nat) (positions : nat -> list nat) (y : list R) : list (list R) :=
  let val := validation_part ratio y in
  let x := without_last n_sa val in
  let target := hankel (tl val) n_sa in
  let kept := positions (length x) in
  differences (rows_at [] kept target) (persistent_predict n_sa (rows_at 0 kept x)).
(** benchmarks.py:45-50: the stored season. *)
Definition fitted_state (ratio : option R) (seasonality : nat) (y : list R) : list R :=
  seasonal_state seasonality (training_part ratio y).
(** benchmarks.py:45-50 with forecaster.py:211-216; [None] = an exception. *)
Definition seasonal_errors (ratio : option R) (seasonality n_sa : nat) (positions : nat -> list nat) (y : list R)
  : option (list (list R)) :=
  let val := validation_part ratio y in
  let x := without_last n_sa val in
  let target := hankel (tl val) n_sa in
  let kept := positions (length x) in
  match seasonal_predict n_sa (fitted_state ratio seasonality y) (rows_at 0 kept x) with
  | Some preds => Some (differences (rows_at [] kept target) preds)
  | None => None
  end.
(** benchmarks.py:52-55 after the fit, on the rows [x]. *)
Definition seasonal_forecast (ratio : option R) (seasonality n_sa : nat) (y x : list R) : option (list (list R)) :=
  seasonal_predict n_sa (fitted_state ratio seasonality y) x.
(** forecaster.py:173-174: without a cap, or when there are few rows, every row is kept. *)
Definition every_row (n : nat) : list nat := seq 0 n.
