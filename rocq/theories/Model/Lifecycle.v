(** Model of a forecaster over its life: what [fit] leaves behind for the generation of scenarios, and
    [predict_scenarios], which uses it. The learner is given by the forecasts of the rows and by the errors of the
    calibration rows of each fit. *)
From Coq Require Import List ZArith Bool Arith Reals.
From Verif Require Import Model.Stats Model.Subsample Model.Quantiles Model.Metrics Model.ScenGen Model.CopulaFit.
Import ListNotations.
Local Open Scope R_scope.

(** The classes of forecasters. forecasters_dictionaries.py:1-12 and the modules of forecasting_models; [Network] stands
    for NN and its subclasses (base_nn.py:193-573). *)
Inductive class :=
| Linear | Lgb | Hybrid | EnergyAware | Fourier_features | Additive_features | Forest | Persistence | SeasonalPersistence
| Network | Discrete | HoltWinters | HoltWintersMulti | FourierSmoothing | FourierKalman | FourierKalmanMulti
| ExponentialSmoothing | LstmForecaster.

(** Does the method [fit] of the class end with [ScenarioGenerator.fit]? Yes: forecaster.py:342, 398,
    gradientboosters.py:117, 198, random_fourier_features.py:346, 383, randomforests.py:123, benchmarks.py:17, 49,
    base_nn.py:439. No: benchmarks.py:79-109, holtwinters.py:182-212, 428-447, fast_adaptive_models.py:132-148,
    501-519, statsmodels_wrapper.py:31-41, 57-62, LSTM_bidir.py:49-99. *)
Definition post_fits (c : class) : bool :=
  match c with
  | Linear | Lgb | Hybrid | EnergyAware | Fourier_features | Additive_features | Forest | Persistence
  | SeasonalPersistence | Network => true
  | Discrete | HoltWinters | HoltWintersMulti | FourierSmoothing | FourierKalman | FourierKalmanMulti
  | ExponentialSmoothing | LstmForecaster => false
  end.

(** The calibration rows of one fit: their hours and errors. Used by [fit], forecaster.py:211-218. *)
Record calibration := Calibration { c_steps : nat; c_hours : list Z; c_errs : list (list R) }.

(** The attributes that [predict_scenarios] reads: those of the copula ([None]: never fitted, copula.py:11-17) and
    [err_distr] ([None]: as the constructor leaves it, forecaster.py:75). *)
Record memory := Memory { m_copula : option calibration; m_distr : option distr }.
(** forecaster.py:57-80. *)
Definition new : memory := Memory None None.

(** What fitting leaves. The classes that end with [ScenarioGenerator.fit] fit the generator and the distribution of the
    errors, by hour if [conditional] (forecaster.py:211-218). The smoothing classes keep one table of quantiles of their
    errors (holtwinters.py:210-211, 432-445, fast_adaptive_models.py:147, 518, statsmodels_wrapper.py:40); the others
    keep nothing. *)
Definition fit (c : class) (conditional : bool) (qs : list R) (m : memory) (d : calibration) : memory :=
  if post_fits c then Memory (Some d) (Some (estimate_err_distr conditional (c_steps d) qs (c_hours d) (c_errs d)))
  else match c with
       | Discrete | LstmForecaster => m
       | _ => Memory (m_copula m) (Some (Single (quantile_table (c_steps d) (c_errs d) qs)))
       end.

(** A sequence of fits on a new forecaster. forecaster.py:211-218. *)
Definition fits (c : class) (conditional : bool) (qs : list R) (ds : list calibration) : memory :=
  fold_left (fit c conditional qs) ds new.

(** [predict_quantiles(x, dataframe=False)], forecaster.py:248-256; [None]: an exception, or None, which [predict_scenarios]
    cannot use. The smoothing classes add their table to every row (holtwinters.py:245-247, 463-465,
    fast_adaptive_models.py:252-254, 411-413, 579-581, statsmodels_wrapper.py:46-48), the benchmarks unless their table is by
    hour (benchmarks.py:24-33, 57-66). QRF takes the quantiles of its trees
    (randomforests.py:194-198) and probabilistic networks those of a normal distribution (base_nn.py:490-501): they are
    given by [own]. *)
Definition quantile_array (c : class) (own : option (list (list (list R)))) (steps : nat) (qs : list R) (m : memory)
    (hours : list Z) (preds : list (list R)) : option (list (list (list R))) :=
  match c with
  | Discrete | LstmForecaster => None
  | Forest => own
  | HoltWinters | HoltWintersMulti | FourierSmoothing | FourierKalman | FourierKalmanMulti | ExponentialSmoothing =>
      match m_distr m with
      | Some (Single t) => Some (map (fun row => map (fun p => map (Rplus (fst p)) (snd p)) (combine row t)) preds)
      | _ => None
      end
  | Persistence | SeasonalPersistence =>
      match m_distr m with
      | Some (Single t) => Some (map (fun row => map (fun p => map (Rplus (fst p)) (snd p)) (combine row t)) preds)
      | Some d => predict_quantiles d steps (length qs) hours preds
      | None => None
      end
  | _ => match own with
         | Some q => Some q
         | None => match m_distr m with Some d => predict_quantiles d steps (length qs) hours preds | None => None end
         end
  end.

(** forecaster.py:272-280 and scenarios_generator.py:75-108, without an additional node. A copula that was never fitted has
    no dimension, and [np.zeros] raises (copula.py:82). *)
Definition scenarios (c : class) (own : option (list (list (list R)))) (cov : cov_method) (cdf : R -> R) (steps : nat)
    (qs : list R) (m : memory) (hours : list Z) (preds : list (list R)) (n_scen : nat) (draws : Z -> list nat -> R)
    (nz : noise) : option (nat * (nat -> nat -> nat -> option R)) :=
  match quantile_array c own steps qs m hours preds with
  | None => None
  | Some q =>
      match m_copula m with
      | None => None
      | Some d =>
          match copula_fit_sample cov cdf (c_hours d) (c_errs d) (c_steps d) n_scen hours draws with
          | None => None
          | Some samples =>
              predict_scenarios qs false None nz (length hours) steps n_scen (fun i j => nth j (nth i q []) []) samples
          end
      end
  end.

(** ** The cap on the rows used after the fit *)
(** A value given for the option [max_scengen_rows]: an integer (truth values are integers for Python), None, or
    something else. forecaster.py:18-24. *)
Inductive cap_value := Whole (z : Z) | Nothing | OtherType.
(** forecaster.py:18-24 and 71-72: the cap kept by the object; [None] = TypeError or ValueError. *)
Definition validated (v : cap_value) : option (option nat) :=
  match v with
  | Nothing => Some None
  | Whole z => if (z <=? 0)%Z then None else Some (Some (Z.to_nat z))
  | OtherType => None
  end.
(** Does the constructor refuse the options of the cap? holtwinters.py:12-16, 144, 396, fast_adaptive_models.py:10-14, 81 (also
    for the classes FK and FK_multi, which call it: 323, 445). *)
Definition refuses (c : class) : bool :=
  match c with HoltWinters | HoltWintersMulti | FourierSmoothing | FourierKalman | FourierKalmanMulti => true | _ => false end.
(** The cap after construction, with the options given as keywords ([None]: not given) the cap and the seed; the outer
    [None] = TypeError or ValueError. forecaster.py:57-80, holtwinters.py:144, 396, fast_adaptive_models.py:81. *)
Definition create (c : class) (cap : option cap_value) (seed : option Z) : option (option nat) :=
  if refuses c then match cap, seed with None, None => Some None | _, _ => None end
  else match cap with None => Some None | Some v => validated v end.
(** The rows whose errors are kept after the fit, of the given ones: forecaster.py:214, and all rows in the classes with a fit
    of their own (holtwinters.py:188-211, fast_adaptive_models.py:136-147, 506-518, statsmodels_wrapper.py:31-40); the
    classes that keep no errors use none. *)
Definition calibration_rows {X Y} (c : class) (g : rng) (cap : option nat) (times : list Z) (hours : option (list Z))
    (dx : X) (dy : Y) (x : list X) (y : list Y) : option (list X * list Y) :=
  if post_fits c then maybe_subsample g cap times times hours dx dy x y
  else match c with Discrete | LstmForecaster => Some ([], []) | _ => Some (x, y) end.
