(** A forecaster over its life: scenarios after fitting and the cap on the rows: C194, C195. *)
From Coq Require Import List ZArith Bool Arith Reals Sorted Lia Lra.
From Verif Require Import Model.Stats Model.Subsample Model.Quantiles Model.Metrics Model.ScenGen Model.CopulaFit Model.Lifecycle
  Spec.SubsampleSpec Spec.QuantilesSpec Spec.ScenGenSpec Spec.CopulaFitSpec Proof.LifecycleProof.
Import ListNotations.
Local Open Scope R_scope.

(** C194: after fitting, scenarios follow the errors of the last fit around the forecast. *)
Theorem C194_last_fit_partial :
  forall c qs ds d cov cdf hours preds n_scen draws nz,
  In c [Linear; Lgb; Hybrid; EnergyAware; Fourier_features; Additive_features; Persistence; SeasonalPersistence; Network] ->
  (1 <= c_steps d)%nat -> length (c_hours d) = length (c_errs d) -> in_day (c_hours d) -> c_errs d <> [] ->
  StronglySorted Rlt qs -> (2 <= length qs)%nat -> Forall (fun q => 0 <= q <= 1) qs ->
  length hours = length preds -> in_day hours -> shaped (length hours) (c_steps d) preds -> n_scen <> 1%nat -> incl hours (c_hours d) ->
  (forall h, In h hours -> (2 <= length (rows_at (c_hours d) h (c_errs d)))%nat /\
     forall j, (j < c_steps d)%nat -> ~ constant_column (hour_data (c_hours d) (c_errs d) h) (length (rows_at (c_hours d) h (c_errs d))) j) ->
  exists scen rank, scenarios c None cov cdf (c_steps d) qs (fits c true qs (ds ++ [d])) hours preds n_scen draws nz = Some (c_steps d, scen) /\
    numbers_rows hours rank /\
    forall i j s l, (i < length hours)%nat -> (j < c_steps d)%nat -> (s < n_scen)%nat ->
      pool (c_hours d) (c_errs d) (nth i hours 0%Z) j l ->
      exists Q, piecewise_linear qs (map (fun q => cell preds i j + quantile l q) qs) Q /\
        scen i j s = Some (Q (cdf (draws (nth i hours 0%Z) [rank i; s; j])) + n_normal nz i j s / 10 ^ 9).
Proof. exact (@scenarios_of_last_fit). Qed.
Print Assumptions C194_last_fit_partial.
(** Missing: the classes whose fit is their own. *)
Theorem C194_custom_fit_refuted :
  forall c conditional qs ds own cov cdf steps hours preds n_scen draws nz,
  In c [Discrete; HoltWinters; HoltWintersMulti; FourierSmoothing; FourierKalman; FourierKalmanMulti; ExponentialSmoothing; LstmForecaster] ->
  scenarios c own cov cdf steps qs (fits c conditional qs ds) hours preds n_scen draws nz = None.
Proof. exact (@no_scenarios). Qed.
Print Assumptions C194_custom_fit_refuted.
(** Two fits, the second on four rows of two hours. *)
Definition first_fit : calibration := Calibration 1 [5]%Z [[7]].
Definition second_fit : calibration := Calibration 1 [3; 3; 4; 4]%Z [[1]; [2]; [0]; [5]].
Example C194_case : forall cov cdf draws nz,
  exists scen rank, scenarios Linear None cov cdf 1 [1/4; 3/4] (fits Linear true [1/4; 3/4] ([first_fit] ++ [second_fit]))
    [4; 3]%Z [[10]; [20]] 5 draws nz = Some (1%nat, scen) /\ numbers_rows [4; 3]%Z rank.
Proof.
  intros cov cdf draws nz.
  destruct (C194_last_fit_partial Linear [1/4; 3/4] [first_fit] second_fit cov cdf [4; 3]%Z [[10]; [20]] 5 draws nz) as (scen & rank & H & Hr & _).
  - now left.
  - cbn; lia.
  - reflexivity.
  - intros h Hh. cbn in Hh. repeat destruct Hh as [<-|Hh]; try lia; contradiction.
  - discriminate.
  - repeat constructor; lra.
  - cbn; lia.
  - repeat constructor; lra.
  - reflexivity.
  - intros h Hh. cbn in Hh. repeat destruct Hh as [<-|Hh]; try lia; contradiction.
  - split; [reflexivity|repeat constructor].
  - discriminate.
  - intros h Hh. cbn in *. tauto.
  - intros h Hh. cbn in Hh.
    destruct Hh as [<-|[<-|[]]]; (split; [cbn; lia|]); intros j Hj (v & Hv); cbn in Hj; (assert (j = 0%nat) as -> by lia);
      assert (H0 := Hv 0%nat ltac:(cbn; lia)); assert (H1 := Hv 1%nat ltac:(cbn; lia)); cbn in H0, H1; lra.
  - eauto.
Qed.

(** C195: a cap on the rows is used or refused. *)
Theorem C195_used_partial :
  forall (X Y : Type),
  forall c (g : rng) z seed times hours (dx : X) (dy : Y) x y,
  In c [Linear; Lgb; Hybrid; EnergyAware; Fourier_features; Additive_features; Forest; Persistence; SeasonalPersistence; Network] ->
  honest g -> length x = length times -> length y = length times ->
  (forall hs, hours = Some hs -> length hs = length times) -> (0 < z)%Z ->
  exists m pos, create c (Some (Whole z)) seed = Some (Some m) /\ Z.of_nat m = z /\
    (if (length x <=? m)%nat then pos = seq 0 (length x) else ordered_sample times (length x) m pos) /\
    calibration_rows c g (Some m) times hours dx dy x y = Some (rows dx x pos, rows dy y pos).
Proof. exact (@cap_used). Qed.
Print Assumptions C195_used_partial.
Theorem C195_refused_partial :
  forall c cap seed, In c [HoltWinters; HoltWintersMulti; FourierSmoothing; FourierKalman; FourierKalmanMulti] ->
  (create c cap seed <> None <-> cap = None /\ seed = None).
Proof. exact (@cap_refused). Qed.
Print Assumptions C195_refused_partial.
Theorem C195_invalid :
  forall c seed v, (v = OtherType \/ exists z, v = Whole z /\ (z <= 0)%Z) -> create c (Some v) seed = None.
Proof. exact (@cap_invalid). Qed.
Print Assumptions C195_invalid.
(** Missing: the exponential smoothing accepts the cap and uses all rows. *)
Theorem C195_ignored_refuted :
  forall (X Y : Type),
  forall (g : rng) z seed times hours (dx : X) (dy : Y) x y, (0 < z)%Z ->
  exists m, create ExponentialSmoothing (Some (Whole z)) seed = Some (Some m) /\
    calibration_rows ExponentialSmoothing g (Some m) times hours dx dy x y = Some (x, y).
Proof. exact (@cap_ignored). Qed.
Print Assumptions C195_ignored_refuted.
Example C195_case :
  create Linear (Some (Whole 2)) None = Some (Some 2%nat) /\ create HoltWinters (Some Nothing) None = None /\
  create ExponentialSmoothing (Some (Whole 2)) None = Some (Some 2%nat).
Proof. repeat split. Qed.
