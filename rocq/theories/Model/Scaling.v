(** Model of scikit-learn's StandardScaler as the forecasters use it (random_fourier_features.py:342-344,
    348, 375-377, 392; neural_models/base_nn.py:342-353, 508-522), and of training with rows held out.
    Exact arithmetic, no missing values. *)
From Coq Require Import List ZArith Bool Arith Reals.
From Verif Require Import Model.Series Model.Subsample.
Import ListNotations.
Local Open Scope R_scope.

(** Mean, standard deviation and scale of a column; the scale of a constant column is one. (The
    library also treats a deviation of the size of the rounding errors as zero.).
    Used by [col_var], random_fourier_features.py:341-347. *)
Definition col_mean (l : list R) : R := fold_right Rplus 0 l / INR (length l).
(** Used by [col_scale], random_fourier_features.py:341-347. *)
Definition col_var (l : list R) : R := col_mean (map (fun v => (v - col_mean l) * (v - col_mean l)) l).
(** Used by [fit_column], random_fourier_features.py:341-347. *)
Definition col_scale (l : list R) : R := if Req_EM_T (col_var l) 0 then 1 else sqrt (col_var l).
(** [StandardScaler(with_mean).fit]: what is subtracted and the scale.
    Used by [fit_table], random_fourier_features.py:341-347. *)
Definition fit_column (with_mean : bool) (l : list R) : R * R := (if with_mean then col_mean l else 0, col_scale l).
(** Used by [transform_row], random_fourier_features.py:341-347. *)
Definition transform (p : R * R) (v : R) : R := (v - fst p) / snd p.
(** With [transform], random_fourier_features.py:341-347. *)
Definition inverse (p : R * R) (v : R) : R := v * snd p + fst p.

(** A table of [cols] columns, as rows. Used by [fit_table], random_fourier_features.py:341-347. *)
Definition column (j : nat) (rows : list (list R)) : list R := map (fun r => nth j r 0) rows.
(** Used by [fit_scaled], random_fourier_features.py:341-347. *)
Definition fit_table (with_mean : bool) (cols : nat) (rows : list (list R)) : list (R * R) :=
  map (fun j => fit_column with_mean (column j rows)) (seq 0 cols).
(** Used by [fit_scaled], random_fourier_features.py:341-347. *)
Definition transform_row (sc : list (R * R)) (row : list R) : list R := map2 transform sc row.
(** With [transform_row], random_fourier_features.py:341-347. *)
Definition inverse_row (sc : list (R * R)) (row : list R) : list R := map2 inverse sc row.

(** LinearForecaster.fit (forecaster.py:334-343), LGBForecaster.fit (391-399): the learner sees the
    training rows. *)
Definition fit_plain {X Y M} (learn : list X -> list Y -> M) (ratio : option R) (x : list X) (y : list Y) : M :=
  let '(xt, yt, _) := train_val_split ratio x y in learn xt yt.
(** RFFRegression.fit (random_fourier_features.py:341-347): the scaler is fitted before the split. *)
Definition fit_scaled {Y M} (learn : list (list R) -> list Y -> M) (ratio : option R) (cols : nat) (x : list (list R)) (y : list Y) : M :=
  let sc := fit_table true cols x in
  let '(xt, yt, _) := train_val_split ratio x y in learn (map (transform_row sc) xt) yt.
(** NN.fit (base_nn.py:341-363) when all the inputs and the targets are normalised: both scalers are
    fitted before the split; [centre] is subtract_mean_when_normalizing (default false) and [learn] the
    training loop (which may also look at the validation rows). *)
Definition fit_network {M} (centre : bool) (learn : list (list R) -> list (list R) -> M) (ratio : option R) (cols outs : nat) (x y : list (list R)) : M :=
  let sx := fit_table centre cols x in let sy := fit_table true outs y in
  let '(xt, yt, _) := train_val_split ratio x y in learn (map (transform_row sx) xt) (map (transform_row sy) yt).
