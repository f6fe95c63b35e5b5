(** Saving, copying, optimising and probabilistic heads of the neural and stateful forecasters: C62, C100 - C104. *)
From Coq Require Import Reals String List Arith Bool Lia Lra.
From Verif Require Import Model.Names Model.Encoder Model.SaveLoad Model.Optimize Model.Gaussian Spec.OptimizeSpec Spec.GaussianSpec
  Proof.SaveLoadProof Proof.SaveLoadProof2 Proof.OptimizeProof Proof.GaussianProof.
Import ListNotations.

(** C62 *)
Theorem C62_point_forecasts :
  forall (V D O : Type) (picklable : value V D -> bool) (k : kind) (network : list (option (value V D)) -> O) (o args : object V D),
  k <> Latent ->
  (forall n, In n (read_by_predict k) -> exists v, lookup n o = Some v /\ picklable v = true) ->
  predict k network (restore args (save picklable k o)) = predict k network o.
Proof. exact (@reload_predicts). Qed.
Print Assumptions C62_point_forecasts.
Theorem C62_latent_partial :
  forall (V D O : Type) (picklable : value V D -> bool) (network : list (option (value V D)) -> O) (o args : object V D),
  (forall n, In n (read_by_predict Latent) -> exists v, lookup n o = Some v /\ picklable v = true) ->
  (forall n, n = txt "n_encoder_layers" \/ n = txt "n_decoder_layers" -> lookup n args = lookup n o) ->
  predict Latent network (restore args (save picklable Latent o)) = predict Latent network o.
Proof. exact (@reload_latent). Qed.
Print Assumptions C62_latent_partial.
Theorem C62_gaussian_quantiles_partial :
  forall (V D O Q : Type) (picklable : value V D -> bool) k (network : list (option (value V D)) -> O) gauss (add : O -> D -> Q) (o args : object V D) hours,
  k <> Latent ->
  (forall n, In n (read_by_predict k) -> exists v, lookup n o = Some v /\ picklable v = true) ->
  lookup (txt "probabilistic") o = Some (Flag true) ->
  lookup (txt "q_vect") args = lookup (txt "q_vect") o ->
  quantiles k network gauss add hours (restore args (save picklable k o)) = quantiles k network gauss add hours o.
Proof. exact (@reload_quantiles). Qed.
Print Assumptions C62_gaussian_quantiles_partial.
Theorem C62_own_hour_partial :
  forall (V D O Q : Type) (k : kind) (network : list (option (value V D)) -> O) gauss (add : O -> D -> Q) (o : object V D) (hours : list nat) t,
  lookup (txt "probabilistic") o <> Some (Flag true) -> lookup (txt "err_distr") o = Some (ByHour t) ->
  (forall qs, quantiles k network gauss add hours o = Some qs ->
     length qs = length hours /\
     forall i h, nth_error hours i = Some h -> exists d, In (h, d) t /\ nth_error qs i = Some (add (predict k network o) d)) /\
  (quantiles k network gauss add hours o = None <-> exists h, In h hours /\ forall d, ~ In (h, d) t).
Proof. exact (@quantiles_own_hour). Qed.
Print Assumptions C62_own_hour_partial.
Theorem C62_empirical_quantiles_refuted :
  forall (V D O Q : Type) (picklable : value V D -> bool) k (network : list (option (value V D)) -> O) gauss (add : O -> D -> Q) (o args : object V D) hours,
  (exists b, lookup (txt "probabilistic") o = Some (Flag b) /\ b = false /\ picklable (Flag b) = true) -> hours <> [] ->
  quantiles k network gauss add hours (restore args (save picklable k o)) = None.
Proof. exact (@reload_no_quantiles). Qed.
Print Assumptions C62_empirical_quantiles_refuted.
Theorem C62_latent_depth_refuted :
  forall (V D : Type) (picklable : value V D -> bool) (o args : object V D) n,
  n = txt "n_encoder_layers" \/ n = txt "n_decoder_layers" ->
  lookup n (restore args (save picklable Latent o)) = lookup n args.
Proof. exact (@latent_depth_lost). Qed.
Print Assumptions C62_latent_depth_refuted.
(** A fitted network: every attribute [predict] reads is set. *)
Definition fitted : object nat nat := map (fun n => (n, Val 7)) (map txt ["pars"; "input_scaler"; "target_scaler"; "unnormalized_inputs"; "target_columns"; "normalize_target"; "n_layers"; "n_hidden_x"; "n_out"]%string)
  ++ [(txt "probabilistic", Flag false); (txt "err_distr", ByHour [(0, 1); (5, 2)])].
Example C62_case : (forall n, In n (read_by_predict Dense_) -> exists v, lookup n fitted = Some v /\ (fun _ : value nat nat => true) v = true) /\
  quantiles Dense_ (fun l => length l) (fun p _ => p) (fun p d => p + d) [0; 5] fitted = Some [11; 12] /\
  quantiles Dense_ (fun l => length l) (fun p _ => p) (fun p d => p + d) [0; 5] (restore [] (save (fun _ => true) Dense_ fitted)) = None.
Proof.
  split; [|split; reflexivity]. intros n H. assert (exists v, lookup n fitted = Some v) as [v E]; [|exists v; auto].
  repeat (destruct H as [<-|H]; [vm_compute; eauto|]). destruct H.
Qed.

(** C100 *)
Theorem C100_copy_refuted :
  forall (S : Type) (o : instance S), copied o = None.
Proof. exact (@stateful_copy_fails). Qed.
Print Assumptions C100_copy_refuted.
Theorem C100_update_in_place :
  forall (S : Type) (o o' : instance S) new n,
  setstate o new = Some o' -> exists s s', getstate o = Some s /\ getstate o' = Some s' /\
    lookup n s' = match lookup n (rev new) with Some v => Some v | None => lookup n s end.
Proof. exact (@setstate_updates). Qed.
Print Assumptions C100_update_in_place.
Example C100_case : let o := [(txt "states", States [(txt "x", 1); (txt "w", 2)])] in
  getstate o = Some [(txt "x", 1); (txt "w", 2)] /\ exists o', setstate o [(txt "x", 5)] = Some o' /\ getstate o' = Some [(txt "x", 5); (txt "x", 1); (txt "w", 2)].
Proof. split; [reflexivity|]. eexists; split; reflexivity. Qed.

Local Open Scope R_scope.
(** C101 *)
Theorem C101_other_columns_kept :
  forall (N : Type) normalized vars mu sd (solve : list R -> list R -> option (list R * R * N)) r y_opt r' v,
  (forall n, In n normalized -> sd n <> 0) ->
  optimize normalized vars mu sd solve r = Some (y_opt, r', v) ->
  map fst r' = map fst r /\ forall n, ~ In n vars -> lookup n r' = lookup n r.
Proof. exact (@optimize_keeps). Qed.
Print Assumptions C101_other_columns_kept.
Theorem C101_frame_is_the_solution :
  forall (N : Type) normalized vars mu sd (solve : list R -> list R -> option (list R * R * N)) r y_opt r' v,
  (forall n, In n normalized -> sd n <> 0) -> NoDup vars ->
  (forall x y y' w k, solve x y = Some (y', w, k) -> length y' = length y) ->
  optimize normalized vars mu sd solve r = Some (y_opt, r', v) ->
  pick vars r' = Some y_opt /\
  exists x y y' k,
    pick (others vars r) (scaled normalized mu sd r) = Some x /\ pick vars (scaled normalized mu sd r) = Some y /\
    solve x y = Some (y', v, k) /\
    pick (others vars r) (scaled normalized mu sd r') = Some x /\ pick vars (scaled normalized mu sd r') = Some y'.
Proof. exact (@optimize_consistent). Qed.
Print Assumptions C101_frame_is_the_solution.
Definition one_row : row := [(txt "load", 3); (txt "price", 5); (txt "hour", 12)].
Example C101_case : exists y r', optimize [txt "load"; txt "price"] [txt "price"] (fun _ => 1) (fun _ => 2) (fun x y => Some (map (Rplus 1) y, 0, tt)) one_row = Some (y, r', 0)
  /\ y = [7] /\ map snd r' = [3; 7; 12].
Proof. eexists _, _. split; [reflexivity|]. cbn. split; repeat f_equal; lra. Qed.

(** C102 *)
Theorem C102_value_one_update_late :
  forall (S Y : Type) (step : S -> Y -> S * Y) obj init n_iter tol y0 y v k,
  minimise step obj init n_iter tol y0 = Some (y, v, k) ->
  exists s before, y = snd (step s before) /\ v = obj before.
Proof. exact (@optimize_value). Qed.
Print Assumptions C102_value_one_update_late.
Theorem C102_stale_value_refuted :
  forall (S Y : Type) (step : S -> Y -> S * Y) obj init n_iter tol y0 y v k,
  (forall s z, obj (snd (step s z)) <> obj z) ->
  minimise step obj init n_iter tol y0 = Some (y, v, k) -> obj y <> v.
Proof. exact (@optimize_stale). Qed.
Print Assumptions C102_stale_value_refuted.
Theorem C102_few_iterations_refuted :
  forall (S Y : Type) (step : S -> Y -> S * Y) obj init n_iter tol y0,
  (n_iter < 10)%nat -> minimise step obj init n_iter tol y0 = None.
Proof. exact (@optimize_few). Qed.
Print Assumptions C102_few_iterations_refuted.
Theorem C102_result :
  forall (S Y : Type) (step : S -> Y -> S * Y) obj init n_iter tol y0,
  (10 <= n_iter)%nat -> exists r, minimise step obj init n_iter tol y0 = Some r.
Proof. exact (@optimize_total). Qed.
Print Assumptions C102_result.
Theorem C102_rounds :
  forall (S Y : Type) (step : S -> Y -> S * Y) (obj : Y -> R) init n_iter tol y0 y v k,
  minimise step obj init n_iter tol y0 = Some (y, v, k) -> (1 <= k <= n_iter / 10)%nat.
Proof. exact (@optimize_rounds). Qed.
Print Assumptions C102_rounds.
Theorem C102_no_worse_partial :
  forall (S Y : Type) (step : S -> Y -> S * Y) (obj : Y -> R) init n_iter tol y0 y v k,
  (forall s z, obj (snd (step s z)) <= obj z) ->
  minimise step obj init n_iter tol y0 = Some (y, v, k) -> obj y <= v <= obj y0.
Proof. exact (@optimize_descends). Qed.
Print Assumptions C102_no_worse_partial.
Theorem C102_worse_than_start_refuted : exists (obj grad : R -> R), convex obj /\ (forall y, derivable_pt_lim obj y (grad y)) /\
  forall n_iter tol y0 y v k, y0 <> 0 -> 0 < tol ->
    minimise (vanilla grad) obj (fun _ => tt) n_iter tol y0 = Some (y, v, k) -> obj y0 < v /\ v < obj y.
Proof. exact (@vanilla_diverges). Qed.
Print Assumptions C102_worse_than_start_refuted.
(** Gradient descent on the square: no update is worse, and the value is never that of the returned controls. *)
Example C102_case : (forall (s : unit) z, (snd (vanilla (fun y => 2 * y) s z)) ^ 2 <= z ^ 2) /\
  exists y v k, minimise (vanilla (fun y => 2 * y)) (fun y => y ^ 2) (fun _ => tt) 10 0 1 = Some (y, v, k) /\ y ^ 2 <> v.
Proof.
  assert (D : forall (s : unit) z, (snd (vanilla (fun y => 2 * y) s z)) ^ 2 <= z ^ 2) by (intros s z; unfold vanilla; cbn; nra).
  split; [exact D|].
  destruct (C102_result unit R (vanilla (fun y => 2 * y)) (fun y => y ^ 2) (fun _ => tt) 10 0 1 ltac:(lia)) as [[[y v] k] E].
  exists y, v, k. split; [exact E|].
  unfold minimise, iterate in E. cbn [Nat.div Nat.divmod fst rounds] in E. unfold iterate in E.
  rewrite !updates_unit in E. cbn [fst snd vanilla] in E. unfold vanilla in E. cbn [snd] in E.
  destruct (Stats.Rltb _ 0); injection E as E1 E2 E3; subst y v; apply Rlt_not_eq; cbn; lra.
Qed.

(** C103 *)
Theorem C103_order_by_sign_partial :
  forall erfinv scaler levels out i j k,
  error_inverse erfinv -> levels_ok levels -> (i < length (predict_quantiles erfinv scaler levels out))%nat ->
  (j < length levels)%nat -> (k < length levels)%nat -> nth j levels 0 < nth k levels 0 ->
  let q := fun l => nth l (nth i (predict_quantiles erfinv scaler levels out) []) 0 in
  let sigma := nth i (snd (predict_sigma scaler out)) 0 in
  (0 < sigma -> q j < q k) /\ (sigma = 0 -> q j = q k) /\ (sigma < 0 -> q k < q j).
Proof. exact (@quantiles_order). Qed.
Print Assumptions C103_order_by_sign_partial.
Theorem C103_reported_deviation :
  forall scaler out i,
  (2 * length scaler = length out)%nat -> (i < length scaler)%nat ->
  let m := fst (nth i scaler (0, 0)) in let sd := snd (nth i scaler (0, 0)) in
  nth i (fst (predict_sigma (Some scaler) out)) 0 = sd * nth i out 0 + m /\
  nth i (snd (predict_sigma (Some scaler) out)) 0 = sd * sqrt (nth (length scaler + i) out 0) + m.
Proof. exact (@sigma_scaled). Qed.
Print Assumptions C103_reported_deviation.
Theorem C103_reported_deviation_unscaled :
  forall out n i, (2 * n = length out)%nat -> (i < n)%nat ->
  nth i (fst (predict_sigma None out)) 0 = nth i out 0 /\ nth i (snd (predict_sigma None out)) 0 = nth (n + i) out 0.
Proof. exact (@sigma_unscaled). Qed.
Print Assumptions C103_reported_deviation_unscaled.
Theorem C103_deviation_refuted :
  forall scaler out i,
  (2 * length scaler = length out)%nat -> (i < length scaler)%nat ->
  (nth i (snd (predict_sigma (Some scaler) out)) 0 = snd (nth i scaler (0, 0)) * sqrt (nth (length scaler + i) out 0) <->
   fst (nth i scaler (0, 0)) = 0).
Proof. exact (@sigma_right). Qed.
Print Assumptions C103_deviation_refuted.
Theorem C103_deviation_unscaled_refuted :
  forall out n i, (2 * n = length out)%nat -> (i < n)%nat -> 0 <= nth (n + i) out 0 ->
  (nth i (snd (predict_sigma None out)) 0 = sqrt (nth (n + i) out 0) <-> nth (n + i) out 0 = 0 \/ nth (n + i) out 0 = 1).
Proof. exact (@sigma_right_unscaled). Qed.
Print Assumptions C103_deviation_unscaled_refuted.
Theorem C103_reversed_refuted :
  forall erfinv scaler levels out i j k,
  error_inverse erfinv -> levels_ok levels -> (2 * length scaler = length out)%nat -> (i < length scaler)%nat ->
  (j < length levels)%nat -> (k < length levels)%nat -> nth j levels 0 < nth k levels 0 ->
  fst (nth i scaler (0, 0)) < - (snd (nth i scaler (0, 0)) * sqrt (nth (length scaler + i) out 0)) ->
  nth k (nth i (predict_quantiles erfinv (Some scaler) levels out) []) 0 < nth j (nth i (predict_quantiles erfinv (Some scaler) levels out) []) 0.
Proof. exact (@quantiles_reversed). Qed.
Print Assumptions C103_reversed_refuted.
Theorem C103_raw_order :
  forall erfinv levels out i j k,
  error_inverse erfinv -> levels_ok levels -> (i < length (raw_quantiles erfinv levels out))%nat ->
  (j < length levels)%nat -> (k < length levels)%nat -> nth j levels 0 <= nth k levels 0 ->
  nth j (nth i (raw_quantiles erfinv levels out) []) 0 <= nth k (nth i (raw_quantiles erfinv levels out) []) 0.
Proof. exact (@raw_order). Qed.
Print Assumptions C103_raw_order.
Theorem C103_raw_values :
  forall erfinv levels mu var, length mu = length var ->
  length (raw_quantiles erfinv levels (mu ++ var)) = length mu /\
  forall i, (i < length mu)%nat -> nth i (raw_quantiles erfinv levels (mu ++ var)) []
    = map (fun q => nth i mu 0 + sqrt (nth i var 0) * sqrt 2 * erfinv (2 * q - 1)) levels.
Proof. exact (@raw_values). Qed.
Print Assumptions C103_raw_values.
Example C103_case : error_inverse (fun x => x) /\ levels_ok [1 / 10; 9 / 10] /\
  (fst (nth 0 [(-10, 2)] (0, 0)) < - (snd (nth 0 [(-10, 2)] (0, 0)) * sqrt (nth (1 + 0) [0; 4] 0))).
Proof.
  repeat split; [intros; lra| | |].
  - destruct H as [<-|[<-|[]]]; lra.
  - destruct H as [<-|[<-|[]]]; lra.
  - cbn. replace 4 with (2 * 2) by lra. rewrite sqrt_square by lra. lra.
Qed.

(** C104 *)
Theorem C104_normal_order :
  forall erfinv obj out p q, error_inverse erfinv -> 0 < p -> p <= q -> q < 1 ->
  structured_normal erfinv obj out p <= structured_normal erfinv obj out q.
Proof. exact (@structured_normal_mono). Qed.
Print Assumptions C104_normal_order.
Theorem C104_lognormal_order :
  forall erfinv obj out p q, error_inverse erfinv -> 0 < p -> p <= q -> q < 1 ->
  structured_lognormal erfinv obj out p <= structured_lognormal erfinv obj out q.
Proof. exact (@lognormal_mono). Qed.
Print Assumptions C104_lognormal_order.
Theorem C104_median :
  forall erfinv obj out, error_inverse erfinv -> out <> 0 ->
  structured_lognormal erfinv obj out (1 / 2) = exp (log_mu obj (sqrt (Rabs out))).
Proof. exact (@lognormal_median). Qed.
Print Assumptions C104_median.
Theorem C104_positive_head :
  forall erfinv obj out q, 0 < out -> 0 < structured_lognormal erfinv obj out q.
Proof. exact (@lognormal_positive). Qed.
Print Assumptions C104_positive_head.
Theorem C104_mean_matched_partial :
  forall obj sigma, 0 < obj ->
  exp (log_mu obj sigma + (log_sigma obj sigma) ^ 2 / 2) = obj.
Proof. exact (@lognormal_mean). Qed.
Print Assumptions C104_mean_matched_partial.
Theorem C104_zero_deviation_refuted :
  forall erfinv obj q, structured_lognormal erfinv obj 0 q = 0.
Proof. exact (@lognormal_degenerate). Qed.
Print Assumptions C104_zero_deviation_refuted.
Example C104_case : structured_lognormal (fun x => x) 3 4 (1 / 2) = exp (log_mu 3 2) /\ 0 < log_sigma 3 2.
Proof.
  split.
  - rewrite C104_median; [|split; intros; lra|lra]. rewrite (Rabs_pos_eq 4) by lra. replace (sqrt 4) with 2; auto.
    replace 4 with (2 * 2) by lra. rewrite sqrt_square; lra.
  - unfold log_sigma. apply sqrt_lt_R0. rewrite <- ln_1. apply ln_increasing; lra.
Qed.
