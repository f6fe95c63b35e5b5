(** Labels of the columns of point forecasts and of quantile forecasts. The
    frame of quantiles is labelled by [ScenarioGenerator.quantiles_to_df] from
    the attribute [target_cols], which each class fills in its own [fit], while
    [predict] of each class labels its own frame. Values are not modelled. *)
From Coq Require Import Ascii NArith List.
From Verif Require Import Model.Names.
Import ListNotations.

(** A column label: an integer (the default labels of a pandas frame) or a
    text. Used by [predict_columns], benchmarks.py:23. *)
Inductive label := Pos (n : nat) | Col (t : text).

(** ['{}_{}'.format(target_name, t)], holtwinters.py:209. *)
Definition counted (name : text) (t : nat) : label :=
  Col (name ++ "_"%char :: dec (N.of_nat t)).

(** [f'{target_name}_t+{i}'], fast_adaptive_models.py:146. *)
Definition ahead (name : text) (i : nat) : label :=
  Col (name ++ ("_" :: "t" :: "+" :: dec (N.of_nat i))%char).

(** The labels of [n_sa] steps counted from 0, holtwinters.py:209. *)
Definition counted_all (name : text) (n_sa : nat) : list label :=
  map (counted name) (seq 0 n_sa).

(** The labels of [n_sa] steps counted from t+1, fast_adaptive_models.py:146. *)
Definition ahead_all (name : text) (n_sa : nat) : list label :=
  map (ahead name) (seq 1 n_sa).

(** Default labels of a frame with [n] columns, benchmarks.py:23. *)
Definition positions (n : nat) : list label := map Pos (seq 0 n).

(** The fitted forecasters, with what their labels depend on. [Tabular]:
    LinearForecaster, LGBForecaster, LGBMHybrid, RFFRegression and
    AdditiveRFFRegression, fitted on targets with the given columns
    (forecaster.py:326-413). [Benchmark]: Persistent and SeasonalPersistent
    (benchmarks.py:6-66). [Smoothing], [SmoothingMulti]: HoltWinters and
    HoltWintersMulti. [Adaptive]: Fourier_es and FK; [AdaptiveMulti]: FK_multi.
    [Wrapped]: the statsmodels wrappers. [Distribution]: DiscreteDistr with its
    target names. [Network]: NN and its subclasses, fitted on targets with the
    given columns (base_nn.py:466-506). *)
Inductive fitted :=
| Tabular (y_columns : list label)
| Benchmark (n_sa : nat)
| Smoothing (name : text) (n_sa : nat)
| SmoothingMulti (name : text) (n_sa : nat)
| Adaptive (name : text) (n_sa : nat)
| AdaptiveMulti (name : text) (n_sa : nat)
| Wrapped (name : text) (n_sa : nat)
| Distribution (names : list text)
| Network (y_columns : list label).

(** The attribute [target_cols] after [fit]; [None] is Python's None, set by
    the constructor (forecaster.py:80). forecaster.py:213, benchmarks.py:18,
    108, holtwinters.py:209, 415-447 (HoltWintersMulti.fit never sets it),
    fast_adaptive_models.py:146, 516, statsmodels_wrapper.py:41,
    base_nn.py:300-385 (networks call ScenarioGenerator.fit). The targets of
    [Benchmark] are a frame of [n_sa] unnamed columns. DiscreteDistr repeats
    each target once per target. *)
Definition target_cols (m : fitted) : option (list label) :=
  match m with
  | Tabular cols => Some cols
  | Benchmark n => Some (positions n)
  | Smoothing name n => Some (counted_all name n)
  | SmoothingMulti _ _ => None
  | Adaptive name n => Some (ahead_all name n)
  | AdaptiveMulti name n => Some (counted_all name n)
  | Wrapped name n => Some (ahead_all name n)
  | Distribution names =>
      Some (flat_map (fun t => ahead_all t (length names)) names)
  | Network cols => Some cols
  end.

(** Columns of the frame [predict] returns. forecaster.py:347, 405,
    benchmarks.py:23, 56, 112, holtwinters.py:243, 457,
    fast_adaptive_models.py:205, 373, 522, statsmodels_wrapper.py:18,
    base_nn.py:485, gradientboosters.py:139, random_fourier_features.py:307,
    389. For DiscreteDistr the names are given in sorted order. *)
Definition predict_columns (m : fitted) : list label :=
  match m with
  | Tabular cols => cols
  | Benchmark n => positions n
  | Smoothing name n => counted_all name n
  | SmoothingMulti name n => counted_all name n
  | Adaptive name n => ahead_all name n
  | AdaptiveMulti name n => ahead_all name n
  | Wrapped _ n => positions n
  | Distribution names => map Col names
  | Network cols => cols
  end.

(** What a call of [predict_quantiles] yields. Used by [predict_quantiles],
    forecaster.py:248-256. *)
Inductive answer (Q : Type) :=
| Frame (columns : list (label * Q))
| Array
| NoneValue
| Raises.
Arguments Frame {Q}. Arguments Array {Q}. Arguments NoneValue {Q}. Arguments Raises {Q}.

(** [pd.MultiIndex.from_product([labels, levels])], forecaster.py:237: the
    levels vary fastest. *)
Definition from_product {Q} (labels : list label) (levels : list Q) : list (label * Q) :=
  flat_map (fun l => map (fun q => (l, q)) levels) labels.

(** [quantiles_to_df], forecaster.py:233-239. [from_product] raises on None;
    the number of columns of the data is the number of columns [predict]
    returns times the number of levels, and the constructor of the frame
    raises when it differs from the number of labels. *)
Definition quantiles_to_df {Q} (m : fitted) (levels : list Q) : answer Q :=
  match target_cols m with
  | None => Raises
  | Some labels =>
      if Nat.eqb (length labels * length levels)
                 (length (predict_columns m) * length levels)
      then Frame (from_product labels levels) else Raises
  end.

(** [predict_quantiles], forecaster.py:248-256, with the override of the
    networks (base_nn.py:487-506, INN.py:226-230, ICNN.py:615-645), which
    ignores [dataframe] and returns the array; DiscreteDistr has no
    [_predict_quantiles] of its own, the inherited one returns None
    (forecaster.py:229-231). *)
Definition predict_quantiles {Q} (m : fitted) (dataframe : bool) (levels : list Q) : answer Q :=
  match m with
  | Network _ => Array
  | Distribution _ => NoneValue
  | _ => if dataframe then quantiles_to_df m levels else Array
  end.
