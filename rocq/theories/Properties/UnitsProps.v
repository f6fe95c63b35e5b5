(** Changes of units: C201 (Holt-Winters), C202 (offsets), C203 (quantiles and benchmarks), C204 (scores). *)
From Coq Require Import List ZArith Reals Arith Lia Lra Bool.
From Verif Require Import Model.Stats Model.Series Model.Subsample Model.Quantiles Model.HoltWinters Model.Benchmarks Model.BenchFit Model.Metrics
  Spec.BenchFitSpec Spec.UnitsSpec Proof.StatsProof Proof.QuantilesProof Proof.UnitsProof Proof.UnitsProof2 Proof.UnitsProof3.
Import ListNotations.
Local Open Scope R_scope.

(** C201 *)
Theorem C201_forecasts : forall c p st ys, 0 <= c ->
  predict (params_in c p) (option_map (state_in c) st) (map (in_units c) ys) None
  = (map (map (in_units c)) (fst (predict p st ys None)), option_map (state_in c) (snd (predict p st ys None))).
Proof. exact (@predict_units). Qed.
Print Assumptions C201_forecasts.
Theorem C201_covariates : forall c p st ys effect, 0 <= c ->
  predict (params_in c p) (option_map (state_in c) st) (map (in_units c) ys) (Some (map (map (in_units c)) effect))
  = (map (map (in_units c)) (fst (predict p st ys (Some effect))), option_map (state_in c) (snd (predict p st ys (Some effect)))).
Proof. exact (@predict_effect_units). Qed.
Print Assumptions C201_covariates.
Theorem C201_fit : forall c p st ys, 0 <= c ->
  fit_rows (params_in c p) (option_map (state_in c) st) (map (in_units c) ys)
  = (map (map (in_units c)) (fst (fst (fit_rows p st ys))), map (map (in_units c)) (snd (fst (fit_rows p st ys))),
     option_map (state_in c) (snd (fit_rows p st ys))).
Proof. exact (@fit_units). Qed.
Print Assumptions C201_fit.
(** A constraint that binds (without it the forecast would be 10), and a factor of 1000. *)
Example C201_case :
  let p := Params (1 / 2) (1 / 10) (1 / 2) 0 (Some (-1)) (Some 1) 1 1 1 in
  let s := State (Some 4) (Some 0) [Some 0] [Some 0] in
  fst (predict p (Some s) [Some 12] None) = [[Some 9]] /\
  fst (predict (params_in 1000 p) (option_map (state_in 1000) (Some s)) (map (in_units 1000) [Some 12]) None) = [[Some 9000]].
Proof.
  intros p s. assert (A : fst (predict p (Some s) [Some 12] None) = [[Some 9]]).
  { cbn -[Rmax Rmin]. rewrite (Rmax_right (-1)) by lra. rewrite (Rmin_left 1) by lra.
    rewrite (Rmax_right (-1)) by lra. rewrite (Rmin_right 1) by lra. do 3 f_equal. lra. }
  split; [exact A|]. rewrite predict_units by lra. cbn [fst]. rewrite A. cbn [map in_units]. do 3 f_equal. lra.
Qed.

(** C202 *)
Theorem C202_offset_partial : forall d p s ys, has_numbers s ->
  predict p (Some (level_moved d s)) (map (moved_by d) ys) None
  = (map (map (moved_by d)) (fst (predict p (Some s) ys None)), option_map (level_moved d) (snd (predict p (Some s) ys None))).
Proof. exact (@predict_moved). Qed.
Print Assumptions C202_offset_partial.
Theorem C202_fresh_refuted : forall d p y rest, (1 < period1 p)%nat -> (1 < period2 p)%nat -> (0 < steps p)%nat -> lower p = None -> upper p = None ->
  last (Some y :: rest) None = Some y -> alpha p <> 1 -> d <> 0 ->
  nth 0 (nth 0 (fst (predict p None (map (moved_by d) (Some y :: rest)) None)) []) None
  <> moved_by d (nth 0 (nth 0 (fst (predict p None (Some y :: rest) None)) []) None).
Proof. exact (@fresh_offset). Qed.
Print Assumptions C202_fresh_refuted.
Theorem C202_constant_refuted : forall p y rest, (1 < period1 p)%nat -> (1 < period2 p)%nat -> (0 < steps p)%nat -> lower p = None -> upper p = None ->
  last (Some y :: rest) None = Some y ->
  nth 0 (nth 0 (fst (predict p None (Some y :: rest) None)) []) None = Some ((2 - alpha p) * y).
Proof. exact (@fresh_double). Qed.
Print Assumptions C202_constant_refuted.
(** A state with numbers, and a new forecaster with the default smoothing of the level on a constant series of 20. *)
Example C202_case :
  has_numbers (State (Some 4) (Some 0) [None; Some 1] [Some 0]) /\
  (let p := Params (1 / 5) 0 0 (9 / 10) None None 24 168 24 in
   nth 0 (nth 0 (fst (predict p None [Some 20; Some 20] None)) []) None = Some 36).
Proof.
  split.
  - repeat split; cbn; try discriminate; intros H; inversion H as [|? ? E H2]; subst; [inversion H2; discriminate|discriminate].
  - intros p. unfold p. rewrite fresh_double; cbn [alpha period1 period2 steps lower upper]; try lia; try reflexivity. f_equal. lra.
Qed.

(** C203 *)
Theorem C203_factor :
  forall c cond steps qs fit_hours y fitted hours new, 0 < c ->
  predict_quantiles (estimate_err_distr cond steps qs fit_hours (errors (map (map (Rmult c)) y) (map (map (Rmult c)) fitted)))
    steps (length qs) hours (map (map (Rmult c)) new)
  = option_map (map (map (map (Rmult c)))) (predict_quantiles (estimate_err_distr cond steps qs fit_hours (errors y fitted)) steps (length qs) hours new).
Proof. exact (@quantiles_scaled). Qed.
Print Assumptions C203_factor.
Theorem C203_offset :
  forall d cond steps qs fit_hours y fitted hours new,
  predict_quantiles (estimate_err_distr cond steps qs fit_hours (errors (map (map (fun v => v + d)) y) (map (map (fun v => v + d)) fitted)))
    steps (length qs) hours (map (map (fun v => v + d)) new)
  = option_map (map (map (map (fun v => v + d)))) (predict_quantiles (estimate_err_distr cond steps qs fit_hours (errors y fitted)) steps (length qs) hours new).
Proof. exact (@quantiles_moved). Qed.
Print Assumptions C203_offset.
Theorem C203_sign :
  forall cond steps qs fit_hours y fitted hours new, Forall (fun q => 0 <= q <= 1) qs ->
  predict_quantiles (estimate_err_distr cond steps qs fit_hours (errors (map (map Ropp) y) (map (map Ropp) fitted)))
    steps (length qs) hours (map (map Ropp) new)
  = option_map (map (map (map Ropp)))
      (predict_quantiles (estimate_err_distr cond steps (map (fun q => 1 - q) qs) fit_hours (errors y fitted)) steps (length qs) hours new).
Proof. exact (@quantiles_opposite). Qed.
Print Assumptions C203_sign.
Theorem C203_persistence : forall c d ratio n_sa positions y x, (1 <= n_sa)%nat -> chooses positions ->
  persistent_predict n_sa (map (fun v => c * v + d) x) = map (map (fun v => c * v + d)) (persistent_predict n_sa x) /\
  persistent_errors ratio n_sa positions (map (fun v => c * v + d) y) = map (map (Rmult c)) (persistent_errors ratio n_sa positions y).
Proof. exact (@persistence_units). Qed.
Print Assumptions C203_persistence.
Theorem C203_seasonal : forall c d ratio s n_sa positions y x, (1 <= n_sa)%nat -> chooses positions ->
  seasonal_forecast ratio s n_sa (map (fun v => c * v + d) y) (map (fun v => c * v + d) x)
  = option_map (map (map (fun v => c * v + d))) (seasonal_forecast ratio s n_sa y x) /\
  seasonal_errors ratio s n_sa positions (map (fun v => c * v + d) y) = option_map (map (map (Rmult c))) (seasonal_errors ratio s n_sa positions y).
Proof. exact (@seasonal_units). Qed.
Print Assumptions C203_seasonal.
(** Errors -1 and 3, level 1/4: 0 is added to the forecast 5; for the opposite data, level 1/4 is minus level 3/4. *)
Example C203_case :
  predict_quantiles (estimate_err_distr false 1 [1 / 4] [0; 0]%Z (errors [[1]; [6]] [[2]; [3]])) 1 1 [0%Z] [[5]] = Some [[[5]]] /\
  predict_quantiles (estimate_err_distr false 1 [1 / 4] [0; 0]%Z (errors (map (map Ropp) [[1]; [6]]) (map (map Ropp) [[2]; [3]]))) 1 (length [1 / 4]) [0%Z]
    (map (map Ropp) [[5]]) = Some [[[- 7]]].
Proof.
  assert (P : forall q, 0 <= q < 1 -> quantile [1 - 2; 6 - 3] q = -1 + 4 * q).
  { intros q Hq. rewrite quantile_at_index. unfold rsort. cbn [fold_right rinsert]. destruct (Rle_dec (1 - 2) (6 - 3)); [|lra].
    replace (q * INR (length [1 - 2; 6 - 3] - 1)) with (INR 0 + q) by (cbn; ring). rewrite at_index_cell by (cbn; lia || lra). cbn [nth]. lra. }
  split; [|rewrite quantiles_opposite by (repeat constructor; lra)];
  unfold predict_quantiles, estimate_err_distr, quantile_table, errors, map2, column; cbn -[quantile]; rewrite P by lra;
  cbn; do 4 f_equal; lra.
Qed.

(** C204 *)
Theorem C204_rmse_partial : forall c x t agg, rmse (frame_in c x) (frame_in c t) agg = option_map (scores_in (Rabs c)) (rmse x t agg).
Proof. exact (@rmse_units). Qed.
Print Assumptions C204_rmse_partial.
Theorem C204_rmse_offset_partial : forall d x t agg, rmse (frame_moved d x) (frame_moved d t) agg = rmse x t agg.
Proof. exact (@rmse_moved). Qed.
Print Assumptions C204_rmse_offset_partial.
Theorem C204_scores_partial : forall c q t alphas agg, 0 < c ->
  quantile_scores (array_in c q) (frame_in c t) alphas agg
  = option_map (map (fun l => (fst l, (scores_in c (fst (snd l)), snd (snd l))))) (quantile_scores q t alphas agg).
Proof. exact (@scores_units). Qed.
Print Assumptions C204_scores_partial.
Theorem C204_scores_offset_partial : forall d q t alphas agg, quantile_scores (array_moved d q) (frame_moved d t) alphas agg = quantile_scores q t alphas agg.
Proof. exact (@scores_moved). Qed.
Print Assumptions C204_scores_offset_partial.
Theorem C204_crps_partial : forall c q t alphas agg, 0 < c -> crps (array_in c q) (frame_in c t) alphas agg = option_map (scores_in c) (crps q t alphas agg).
Proof. exact (@crps_scaled_frames). Qed.
Print Assumptions C204_crps_partial.
Theorem C204_crps_offset_partial : forall d q t alphas agg, crps (array_moved d q) (frame_moved d t) alphas agg = crps q t alphas agg.
Proof. exact (@crps_moved). Qed.
Print Assumptions C204_crps_offset_partial.
Theorem C204_reliability_partial : forall c d q t alphas agg get_score, 0 < c ->
  reliability (array_in c q) (frame_in c t) alphas agg get_score = reliability q t alphas agg get_score /\
  reliability (array_moved d q) (frame_moved d t) alphas agg get_score = reliability q t alphas agg get_score.
Proof. exact (@reliability_units). Qed.
Print Assumptions C204_reliability_partial.
Theorem C204_mape_refuted : forall c v w, 0 < c -> c <> 1 -> v <> w ->
  mape (frame_in c (Frame 1 1 (fun _ _ => Some v))) (frame_in c (Frame 1 1 (fun _ _ => Some w))) None
  <> mape (Frame 1 1 (fun _ _ => Some v)) (Frame 1 1 (fun _ _ => Some w)) None.
Proof. exact (@mape_depends). Qed.
Print Assumptions C204_mape_refuted.
Theorem C204_nmae_refuted : forall c v w, 0 < c -> c <> 1 -> v <> w ->
  nmae (frame_in c (Frame 1 1 (fun _ _ => Some v))) (frame_in c (Frame 1 1 (fun _ _ => Some w))) None false
  <> nmae (Frame 1 1 (fun _ _ => Some v)) (Frame 1 1 (fun _ _ => Some w)) None false.
Proof. exact (@nmae_depends). Qed.
Print Assumptions C204_nmae_refuted.
(** An error of 3 units is one of 3000 thousandths; the relative error of a forecast of 2 for 1 depends on the unit. *)
Example C204_case :
  rmse (Frame 1 1 (fun _ _ => Some 5)) (Frame 1 1 (fun _ _ => Some 2)) None = Some [(1%Z, [Some 3])] /\
  rmse (frame_in (-1000) (Frame 1 1 (fun _ _ => Some 5))) (frame_in (-1000) (Frame 1 1 (fun _ _ => Some 2))) None = Some [(1%Z, [Some 3000])] /\
  mape (frame_in (/ 100000) (Frame 1 1 (fun _ _ => Some 2))) (frame_in (/ 100000) (Frame 1 1 (fun _ _ => Some 1))) None = Some [(1%Z, [Some (1 / 2)])].
Proof.
  assert (A : rmse (Frame 1 1 (fun _ _ => Some 5)) (Frame 1 1 (fun _ _ => Some 2)) None = Some [(1%Z, [Some 3])]).
  { unfold rmse. cbn [f_rows]. rewrite (one_group _ (3 * 3)); [|reflexivity|reflexivity|cbn; f_equal; lra]. cbn. rewrite sqrt_square by lra. reflexivity. }
  split; [exact A|]. split.
  - rewrite rmse_units, A. cbn. rewrite Rabs_left by lra. do 5 f_equal. lra.
  - unfold frame_in. cbn [f_rows f_cols f_at in_units]. rewrite mape_one, !Rabs_right by lra. do 5 f_equal. lra.
Qed.
