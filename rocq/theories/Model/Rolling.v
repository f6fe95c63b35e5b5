(** Model of forecasting_models/statsmodels_wrapper.py. The library's results object is an
    abstract state: what it forecasts, and how observations are added to it, is arbitrary. *)
From Coq Require Import List ZArith Bool Arith Reals.
From Verif Require Import Model.Stats Model.Subsample Model.HoltWinters.
Import ListNotations.

(** The methods of a fitted statsmodels results object used here: [forecast(n)], [append] (which
    may raise: [None]) and [apply]. An observation is its time and its value.
    Used by [update], statsmodels_wrapper.py:12-17. *)
Record library (M V : Type) := Library {
  lib_forecast : M -> nat -> list V;
  lib_append : M -> Z -> V -> option M;
  lib_apply : M -> Z -> V -> M }.
Arguments lib_forecast {M V}.
Arguments lib_append {M V}.
Arguments lib_apply {M V}.

(** statsmodels_wrapper.py:12-17: the model is updated with one row. Without exogenous inputs, as
    in its only caller (66). *)
Definition update {M V} (lib : library M V) (m : M) (o : Z * V) : M :=
  match lib_append lib m (fst o) (snd o) with
  | Some m' => m'
  | None => lib_apply lib m (fst o) (snd o)
  end.
(** statsmodels_wrapper.py:8-18: the forecast of a row is made, then the row is given to the model. *)
Fixpoint get_forecasts {M V} (lib : library M V) (m : M) (n : nat) (rows : list (Z * V)) : list (list V) :=
  match rows with
  | [] => []
  | o :: rows' => lib_forecast lib m n :: get_forecasts lib (update lib m o) n rows'
  end.

Local Open Scope R_scope.
(** statsmodels_wrapper.py:31-39: targets minus forecasts, for the rows but the last [n]. ExponentialSmoothing.fit (56-61)
    calls it with the model fitted on all the rows; the index is regular, so that [asfreq] changes
    nothing. *)
Definition residuals {M} (lib : library M R) (m : M) (n : nat) (rows : list (Z * R)) : list (list R) :=
  map2 (map2 Rminus) (hankel (tl (map snd rows)) n) (firstn (length rows - n) (get_forecasts lib m n rows)).
(** statsmodels_wrapper.py:40: the error quantiles of step [k]. *)
Definition error_quantile {M} (lib : library M R) (m : M) (n : nat) (rows : list (Z * R)) (k : nat) (q : R) : R :=
  quantile (map (fun r => nth k r 0) (residuals lib m n rows)) q.
(** statsmodels_wrapper.py:46-48: quantile [q] of step [k] in every row of a later call, with the object's model [m]. *)
Definition predict_quantile {M} (lib : library M R) (m : M) (n : nat) (rows : list (Z * R)) (k : nat) (q : R)
  (later : list (Z * R)) : list R :=
  map (fun r => nth k r 0 + error_quantile lib m n rows k q) (get_forecasts lib m n later).
