(** Neural models: C52, C53, C54, C55, C56, C57, C97, C98, C99, C209, C219. *)
From Coq Require Import Reals String List Arith Bool Lia Lra Permutation.
From Verif Require Import Model.Names Model.Encoder Model.HoltWinters Model.Activations Model.Invertible Model.Reproject Model.Picnn Model.PicnnInit Model.PicnnFit Model.Training
  Spec.ActivationsSpec Spec.InvertibleSpec Spec.ReprojectSpec Spec.PicnnSpec Spec.PicnnInitSpec Spec.PicnnValueSpec Spec.TrainingSpec
  Proof.ActivationsProof Proof.ActivationsProof2 Proof.InvertibleProof Proof.ReprojectProof Proof.PicnnProof Proof.PicnnInitProof Proof.PicnnFitProof Proof.PicnnValueProof Proof.TrainingProof.
Import ListNotations.
Local Open Scope R_scope.

(** C52 *)
Theorem C52_only_constrained_weights_change :
  forall rs mono t t', reproject rs mono t = Some t' -> t' = fixed rs mono t.
Proof. exact (@reproject_fixed). Qed.
Print Assumptions C52_only_constrained_weights_change.
Theorem C52_nonnegative :
  forall rs mono t t' outer inner key d, reproject rs mono t = Some t' -> dense_at t' outer inner key d -> constrained rs mono outer inner key = true -> nonnegative d.
Proof. exact (@reproject_nonneg). Qed.
Print Assumptions C52_nonnegative.
Theorem C52_names :
  forall (s t : text), contains s t = true <-> exists u v, t = (u ++ s ++ v)%list.
Proof. exact (@name_contains_iff). Qed.
Print Assumptions C52_names.
Theorem C52_succeeds :
  forall rs mono t, well_formed t -> reproject rs mono t = Some (fixed rs mono t).
Proof. exact (@reproject_total). Qed.
Print Assumptions C52_succeeds.
Theorem C52_idempotent :
  forall rs mono t t', well_formed t -> reproject rs mono t = Some t' -> reproject rs mono t' = Some t'.
Proof. exact (@reproject_again). Qed.
Print Assumptions C52_idempotent.
Theorem C52_invariant_of_training :
  forall rs mono update p steps, (forall k q, well_formed q -> well_formed (update k q)) -> well_formed p ->
  exists q, training rs mono update p steps = Some q /\ well_formed q /\
    ((0 < steps)%nat -> forall outer inner key d, dense_at q outer inner key d -> constrained rs mono outer inner key = true -> nonnegative d).
Proof. exact (@training_nonneg). Qed.
Print Assumptions C52_invariant_of_training.
Definition sample_layer (w : R) : group := [(k_wz, Reproject.Dense [[w; - w]] []); (k_wy, Reproject.Dense [[- w]] []); (txt "wzu", Reproject.Dense [[- w]] [- w])].
Definition sample_tree (w : R) : tree := [(txt "PICNNLayer_0", Flat (sample_layer w)); (txt "Dense_0", Flat (sample_layer w)); (txt "PICNNLayer_decoder_monotone", Nested [(txt "PICNNLayer_0", sample_layer w)])].
Example C52_sample : well_formed (sample_tree 3).
Proof.
  intros name n H P. destruct H as [H|[H|[H|[]]]]; injection H as <- <-; cbn in P |- *; try discriminate.
  - split; cbn; auto.
  - split; [intros [C|[]]; discriminate|]. intros m g [H|[]]. injection H as <- <-. split; cbn; auto.
Qed.
Example C52_case : reproject false false (sample_tree 3) =
  Some [(txt "PICNNLayer_0", Flat [(k_wz, Reproject.Dense [[3; 0]] []); (k_wy, Reproject.Dense [[- (3)]] []); (txt "wzu", Reproject.Dense [[- (3)]] [- (3)])]);
        (txt "Dense_0", Flat (sample_layer 3));
        (txt "PICNNLayer_decoder_monotone", Nested [(txt "PICNNLayer_0", [(k_wz, Reproject.Dense [[3; 0]] []); (k_wy, Reproject.Dense [[0]] []); (txt "wzu", Reproject.Dense [[- (3)]] [- (3)])])])].
Proof.
  rewrite reproject_total by exact C52_sample. f_equal. unfold fixed, sample_tree, sample_layer. cbn. unfold positive_part. cbn. destruct (Rle_dec 0 3); [|lra]. destruct (Rle_dec 0 (- (3))); [lra|]. reflexivity.
Qed.

(** C53 *)
Theorem C53_convex_partial :
  forall o n hs last x k, bounds o = None -> nondecreasing (act_fun o) -> convex1 (act_fun o) -> Forall (fun w => nonneg (wz w)) (hs ++ [last]) ->
  convex (fun y => picnn o n hs last x y k).
Proof. exact (@picnn_convex). Qed.
Print Assumptions C53_convex_partial.
Theorem C53_monotone_partial :
  forall o n hs last x k, augment o = false -> (forall v, 0 <= rec_fun o v) -> nondecreasing (act_fun o) ->
  (forall lo hi, bounds o = Some (lo, hi) -> forall j, lo j <= hi j) ->
  Forall (fun w => nonneg (wz w) /\ nonneg (wy w)) (hs ++ [last]) -> monotone (fun y => picnn o n hs last x y k).
Proof. exact (@picnn_monotone). Qed.
Print Assumptions C53_monotone_partial.
Theorem C53_fitted_convex_partial :
  forall (O : Type) rs mono (update : tree -> O -> list nat -> tree * O) loss stats_step rounds tol given n perms before init o0 f s opts ny sizes x k,
  (forall p o b, well_formed p -> well_formed (fst (update p o b))) -> feasible rs mono init ->
  bounds opts = None -> nondecreasing (act_fun opts) -> convex1 (act_fun opts) ->
  fit (convex_step rs mono update) loss stats_step rounds tol given n perms before (init, o0) = Some (f, s) ->
  exists t, chosen s = Some t /\ convex (fun y => predict_net opts ny sizes t x y k).
Proof. exact (@fitted_convex). Qed.
Print Assumptions C53_fitted_convex_partial.
Theorem C53_fitted_monotone_partial :
  forall (O : Type) rs mono (update : tree -> O -> list nat -> tree * O) loss stats_step rounds tol given n perms before init o0 f s opts ny sizes x k,
  (forall p o b, well_formed p -> well_formed (fst (update p o b))) -> feasible rs mono init -> rs || mono = true ->
  augment opts = false -> (forall v, 0 <= rec_fun opts v) -> nondecreasing (act_fun opts) -> (forall lo hi, bounds opts = Some (lo, hi) -> forall j, lo j <= hi j) ->
  fit (convex_step rs mono update) loss stats_step rounds tol given n perms before (init, o0) = Some (f, s) ->
  exists t, chosen s = Some t /\ monotone (fun y => predict_net opts ny sizes t x y k).
Proof. exact (@fitted_monotone). Qed.
Print Assumptions C53_fitted_monotone_partial.
Theorem C53_relu_convex : convex1 relu.
Proof. exact (@relu_convex). Qed.
Print Assumptions C53_relu_convex.
Theorem C53_relu_nondecreasing : nondecreasing relu.
Proof. exact (@relu_nondecreasing). Qed.
Print Assumptions C53_relu_nondecreasing.
Theorem C53_bounded_output_refuted : exists o n hs last x k, nondecreasing (act_fun o) /\ convex1 (act_fun o) /\ Forall (fun w => nonneg (wz w)) (hs ++ [last]) /\ ~ convex (fun y => picnn o n hs last x y k).
Proof. exact (@squashed_not_convex). Qed.
Print Assumptions C53_bounded_output_refuted.
Theorem C53_augmented_refuted : exists o n hs last x k, (forall v, 0 <= rec_fun o v) /\ nondecreasing (act_fun o) /\ bounds o = None /\
  Forall (fun w => nonneg (wz w) /\ nonneg (wy w)) (hs ++ [last]) /\ ~ monotone (fun y => picnn o n hs last x y k).
Proof. exact (@augmented_not_monotone). Qed.
Print Assumptions C53_augmented_refuted.
(** The sample parameters are feasible after projection and stay so under an optimiser that subtracts 1 from every weight of a fresh sample. *)
Example C53_case : feasible false true (fixed false true (sample_tree 3)) /\ bounds (Options relu (fun v => v) false None) = None /\
  read_net (fixed false true (sample_tree 3)) (1, 1, 1)%nat <> [] /\ wz (read_layer 1 1 1 (fix_group (constrained false true (txt "PICNNLayer_0") (txt "PICNNLayer_0")) (sample_layer 3))) 0%nat 0%nat = 3.
Proof.
  split; [|split; [reflexivity|split]].
  - split; [apply fixed_well_formed, C52_sample|]. intros outer inner key d. apply fixed_nonneg.
  - cbn. discriminate.
  - cbn. destruct (Rle_dec 0 3); [reflexivity|lra].
Qed.

(** C97 *)
Theorem C97_sigma_positive :
  forall o n hs last x y k, / 10 ^ 10 < picnn_sigma o n hs last x y k.
Proof. exact (@sigma_positive). Qed.
Print Assumptions C97_sigma_positive.
Theorem C97_bounded_output :
  forall o n hs last x y k lo hi, bounds o = Some (lo, hi) -> lo k < hi k -> lo k < picnn o n hs last x y k < hi k.
Proof. exact (@bounded_output). Qed.
Print Assumptions C97_bounded_output.
Theorem C97_derivative_net_refuted : exists o n hs last x k, act_fun o = softplus /\ bounds o = None /\ Forall (fun w => nonneg (wz w)) (hs ++ [last]) /\
  forall c, (forall v, exists f, piqcnn o n hs last x c (fun _ => v) k f) /\ forall f, (forall v, piqcnn o n hs last x c (fun _ => v) k (f (fun _ => v))) -> ~ quasiconvex f.
Proof. exact (@piqcnn_not_quasiconvex). Qed.
Print Assumptions C97_derivative_net_refuted.
Theorem C97_sigmoid_net_refuted : exists n hs last x k, let o := Options sigmoid sigmoid false None in
  Forall (fun w => nonneg (wz w) /\ nonneg (wy w)) (hs ++ [last]) /\ monotone (fun y => picnn o n hs last x y k) /\ ~ quasiconvex (fun y => picnn o n hs last x y k).
Proof. exact (@sigmoid_net_not_quasiconvex). Qed.
Print Assumptions C97_sigmoid_net_refuted.
Example C97_case : bounds (Options relu (fun v => v) false (Some (fun _ => 0, fun _ => 1))) = Some (fun _ => 0, fun _ => 1) /\ (0 : R) < 1.
Proof. split; [reflexivity|lra]. Qed.

(** C54 *)
Theorem C54_linloglin_undone_partial :
  forall k x, 0 < k -> tiny <= Rabs x -> linloglin_inverse k (linloglin k x) = x.
Proof. exact (@linloglin_undone). Qed.
Print Assumptions C54_linloglin_undone_partial.
Theorem C54_linloglin_nearly_undone :
  forall k x, tiny < k -> Rabs (linloglin_inverse k (linloglin k x) - x) <= / 10 ^ 12.
Proof. exact (@linloglin_nearly_undone). Qed.
Print Assumptions C54_linloglin_nearly_undone.
Theorem C54_linloglin_increasing_partial :
  forall k, / 10 ^ 12 <= k -> increasing_on (fun x => / 10 ^ 12 <= Rabs x) (linloglin k).
Proof. exact (@linloglin_increasing). Qed.
Print Assumptions C54_linloglin_increasing_partial.
Theorem C54_linloglin_nondecreasing :
  forall k, tiny <= k -> nondecreasing (linloglin k).
Proof. exact (@linloglin_nondecreasing). Qed.
Print Assumptions C54_linloglin_nondecreasing.
Theorem C54_linloglin_flat_refuted :
  forall k x y, / 10 ^ 12 < k ->
  (linloglin k x = linloglin k y <-> x = y \/ (0 <= x <= / 10 ^ 12 /\ 0 <= y <= / 10 ^ 12) \/ (- / 10 ^ 12 <= x < 0 /\ - / 10 ^ 12 <= y < 0)).
Proof. exact (@linloglin_same). Qed.
Print Assumptions C54_linloglin_flat_refuted.
Theorem C54_invcondiff_undone_partial :
  forall a c x, exp (-12) <= a -> 0 < c -> Rabs x <= exp 12 -> invcondiff_inverse a c (invcondiff a c x) = x.
Proof. exact (@invcondiff_undone). Qed.
Print Assumptions C54_invcondiff_undone_partial.
Theorem C54_invcondiff_increasing :
  forall a c, exp (-12) <= a -> 0 < c -> increasing_on (fun _ => True) (invcondiff a c).
Proof. exact (@invcondiff_increasing). Qed.
Print Assumptions C54_invcondiff_increasing.
Theorem C54_invcondiff_clipped_refuted :
  forall x, exp 12 < x -> invcondiff_inverse 1 1 (invcondiff 1 1 x) <> x.
Proof. exact (@invcondiff_not_undone). Qed.
Print Assumptions C54_invcondiff_clipped_refuted.
Theorem C54_leaky_undone :
  forall s x, 0 < s -> leaky_relu_inverse s (leaky_relu s x) = x.
Proof. exact (@leaky_undone). Qed.
Print Assumptions C54_leaky_undone.
Theorem C54_softplus_undone :
  forall x, / 10 ^ 6 <= softplus x <= 20 -> softplus_inverse (softplus x) = x.
Proof. exact (@softplus_undone). Qed.
Print Assumptions C54_softplus_undone.
Example C54_case : 0 < 10 /\ tiny <= Rabs (-3) /\ exp (-12) <= 1 /\ Rabs 2 <= exp 12 /\ / 10 ^ 6 <= softplus 0 <= 20.
Proof.
  split; [lra|]. split; [unfold tiny; rewrite Rabs_left by lra; lra|]. split; [apply Rle_trans with (exp 0); [apply Rlt_le, exp_increasing; lra|rewrite exp_0; lra]|].
  split; [rewrite Rabs_right by lra; pose proof (exp_ineq1 12 ltac:(lra)); lra|]. unfold softplus. rewrite exp_0. replace (1 + 1) with 2 by lra.
  split.
  - apply Rle_trans with (1 / 2); [lra|]. pose proof (exp_le_3). apply Rle_trans with (ln (exp (1 / 2))); [rewrite ln_exp; lra|]. apply Rlt_le, ln_increasing; [apply exp_pos|].
    apply Rnot_le_lt. intros C. assert (exp 1 = exp (1 / 2) * exp (1 / 2)) by (rewrite <- exp_plus; f_equal; lra). nra.
  - apply Rle_trans with (ln (exp 20)); [|rewrite ln_exp; lra]. apply Rlt_le, ln_increasing; [lra|]. pose proof (exp_ineq1 20 ltac:(lra)). lra.
Qed.

(** C98 *)
Theorem C98_identity_refuted :
  forall s x, 1 < x <= 13 -> invert_activation s Identity (activate Identity x) <> Some x.
Proof. exact (@identity_not_undone). Qed.
Print Assumptions C98_identity_refuted.
Theorem C98_inverse_refuted :
  forall s x, 2 < x <= 13 -> invert_activation s InvcondiffInverse (activate InvcondiffInverse x) <> Some x.
Proof. exact (@inverse_not_undone). Qed.
Print Assumptions C98_inverse_refuted.
Theorem C98_softplus_collapse_refuted :
  forall x x', softplus x < / 10 ^ 6 -> softplus x' < / 10 ^ 6 -> softplus_inverse (softplus x) = softplus_inverse (softplus x').
Proof. exact (@softplus_small). Qed.
Print Assumptions C98_softplus_collapse_refuted.
Theorem C98_softplus_large_partial :
  forall x, 20 < softplus x -> softplus_inverse (softplus x) = softplus x /\ 0 < softplus x - x <= exp (- x).
Proof. exact (@softplus_large). Qed.
Print Assumptions C98_softplus_large_partial.
Theorem C98_leaky_other_slope_refuted :
  forall s t x, 0 < s -> 0 < t -> x < 0 ->
  leaky_relu_inverse s (leaky_relu t x) = t / s * x /\ (leaky_relu_inverse s (leaky_relu t x) = x <-> s = t).
Proof. exact (@leaky_two_slopes). Qed.
Print Assumptions C98_leaky_other_slope_refuted.
Example C98_case : (1 : R) < 2 <= 13 /\ softplus (-20) < / 10 ^ 6 /\ softplus (-21) < / 10 ^ 6 /\ 20 < softplus 21.
Proof.
  assert (B : exp (-20) < / 10 ^ 6).
  { replace (-20) with (- (20)) by lra. rewrite exp_Ropp. apply Rinv_lt_contravar; [apply Rmult_lt_0_compat; [lra|apply exp_pos]|].
    replace 20 with (1 + 1 + 1 + 1 + 1 + 1 + 1 + 1 + 1 + 1 + (1 + 1 + 1 + 1 + 1 + 1 + 1 + 1 + 1 + 1)) by lra. rewrite !exp_plus. assert (e1 : 2 < exp 1) by (pose proof (exp_ineq1 1 ltac:(lra)); lra).
    set (e := exp 1) in *. clearbody e. assert (1024 < e * e * e * e * e * e * e * e * e * e) by (assert (4 < e * e) by nra; assert (8 < e * e * e) by nra; assert (16 < e * e * e * e) by nra; assert (32 < e * e * e * e * e) by nra; assert (64 < e * e * e * e * e * e) by nra; assert (128 < e * e * e * e * e * e * e) by nra; assert (256 < e * e * e * e * e * e * e * e) by nra; assert (512 < e * e * e * e * e * e * e * e * e) by nra; nra).
    set (f := e * e * e * e * e * e * e * e * e * e) in *. clearbody f. nra. }
  assert (L : forall x, softplus x <= exp x). { intros x. unfold softplus. pose proof (exp_pos x). apply Rle_trans with (ln (exp (exp x))); [|rewrite ln_exp; lra]. apply Rlt_le, ln_increasing; [lra|]. pose proof (exp_ineq1 (exp x) ltac:(lra)). lra. }
  split; [lra|]. split; [pose proof (L (-20)); lra|]. split.
  - pose proof (L (-21)). assert (exp (-21) < exp (-20)) by (apply exp_increasing; lra). lra.
  - apply Rlt_trans with (ln (exp 21)); [rewrite ln_exp; lra|]. unfold softplus. apply ln_increasing; [apply exp_pos|]. lra.
Qed.

(** C55 *)
Theorem C55_undone_partial :
  forall n ls x, wide n ls -> length x = n -> regular_all ls x -> module_invert ls (module_predict ls x) = Some x.
Proof. exact (@module_undone). Qed.
Print Assumptions C55_undone_partial.
Theorem C55_leaky_undone_partial :
  forall n ls x, wide n ls -> length x = n ->
  Forall (fun l => prediction_layer l = true \/ exists s, 0 < s /\ negative_slope l = s /\ activation l = Leaky s) ls ->
  module_invert ls (module_predict ls x) = Some x.
Proof. exact (@leaky_module). Qed.
Print Assumptions C55_leaky_undone_partial.
Theorem C55_default_undone_partial :
  forall n ls x, wide n ls -> length x = n -> Forall (fun l => activation l = Linloglin) ls -> away_from_zero ls x ->
  module_invert ls (module_predict ls x) = Some x.
Proof. exact (@default_module). Qed.
Print Assumptions C55_default_undone_partial.
Theorem C55_causal :
  forall n ls x x' k, wide n ls -> (k <= n)%nat -> firstn k x = firstn k x' -> firstn k (module_predict ls x) = firstn k (module_predict ls x').
Proof. exact (@module_causal). Qed.
Print Assumptions C55_causal.
Theorem C55_weights_layout :
  forall n, (forall i j, (j < i < n)%nat -> (tril_position i j < n * (n - 1) / 2)%nat) /\
  (forall i j i' j', (j < i < n)%nat -> (j' < i' < n)%nat -> tril_position i j = tril_position i' j' -> i = i' /\ j = j') /\
  (forall p, (p < n * (n - 1) / 2)%nat -> exists i j, (j < i < n)%nat /\ tril_position i j = p).
Proof. exact (@weights_layout). Qed.
Print Assumptions C55_weights_layout.
Theorem C55_identity_refuted : exists l x, activation l = Identity /\ length x = features l /\ layer_invert l (layer_predict l x) <> Some x.
Proof. exact (@identity_layer). Qed.
Print Assumptions C55_identity_refuted.
Example C55_case : wide 2 [Layer 2 [5] [1; 0] (1 / 10) (1 / 100) (Leaky (1 / 100)) false; Layer 2 [-4] [1; 7] (1 / 10) (1 / 100) (Leaky (1 / 100)) true].
Proof. repeat constructor. Qed.

(** C99 *)
Theorem C99_zero_full_loss_exact :
  forall n ls predictor x target, wide n ls -> ls <> [] -> length x = n -> length (predictor x) = length target -> (length target <= n)%nat ->
  full_loss ls predictor x target = Some 0 -> decode_future ls x (predictor x) = Some target.
Proof. exact (@full_loss_exact). Qed.
Print Assumptions C99_zero_full_loss_exact.
Theorem C99_zero_quasi_loss_refuted : exists ls predictor x target, wide 2 ls /\ length x = 2%nat /\ length target = 1%nat /\
  quasi_error ls predictor x target = 0 /\ decode_future ls x (predictor x) <> Some target.
Proof. exact (@quasi_not_exact). Qed.
Print Assumptions C99_zero_quasi_loss_refuted.
Example C99_case : let ls := [Layer 2 [] [] 1 1 Identity true] in wide 2 ls /\ full_loss ls (fun _ => [6]) [4; 5] [6] = Some 0.
Proof.
  split; [repeat constructor|]. unfold full_loss, decode_future, mean_square, module_predict, module_invert, layer_predict, layer_invert, affine. cbn -[tanh Rdiv].
  unfold Invertible.kernel, lower. cbn -[tanh Rdiv Rinv]. rewrite !tanh_0'. f_equal. unfold square. field.
Qed.

(** C56 *)
Theorem C56_epoch_batches :
  forall given n perm bs, shuffle n perm -> epoch_batches given perm = Some bs ->
  let b := batch_len given n in
  (0 < b)%nat /\ length bs = (n / b)%nat /\ Forall (fun r => length r = b) bs /\
  exists unused, Permutation (concat bs ++ unused) (seq 0 n) /\ length unused = (n mod b)%nat.
Proof. exact (@epoch_cover). Qed.
Print Assumptions C56_epoch_batches.
Theorem C56_each_row_once :
  forall given n perm bs, shuffle n perm -> epoch_batches given perm = Some bs -> NoDup (concat bs) /\ forall i, In i (concat bs) -> (i < n)%nat.
Proof. exact (@epoch_once). Qed.
Print Assumptions C56_each_row_once.
Theorem C56_rows_left_out_refuted :
  forall b n perm bs, shuffle n perm -> (n mod b <> 0)%nat -> epoch_batches (Some b) perm = Some bs -> exists i, (i < n)%nat /\ ~ In i (concat bs).
Proof. exact (@rows_dropped). Qed.
Print Assumptions C56_rows_left_out_refuted.
Theorem C56_small_sample_refuted :
  forall perm, (length perm < 10)%nat -> epoch_batches None perm = None.
Proof. exact (@small_sample). Qed.
Print Assumptions C56_small_sample_refuted.
Theorem C56_oversized_batch_refuted :
  forall (P O : Type) (step : P -> O -> list nat -> P * O) loss stats_step rounds tol b n perms before init, (n < b)%nat -> Forall (shuffle n) perms ->
  exists s, fit step loss stats_step rounds tol (Some b) n perms before init = Some (false, s) /\ chosen s = Some (fst init).
Proof. exact (@oversized_batch). Qed.
Print Assumptions C56_oversized_batch_refuted.
Example C56_case : shuffle 5 [3; 0; 4; 1; 2]%nat /\ epoch_batches (Some 2%nat) [3; 0; 4; 1; 2]%nat = Some [[3; 0]; [4; 1]]%nat.
Proof. split; [|reflexivity]. unfold shuffle. cbn. apply NoDup_Permutation; [repeat (constructor; [cbn; intuition discriminate|]); constructor|repeat (constructor; [cbn; intuition discriminate|]); constructor|]. intros x; cbn; intuition. Qed.

(** C57 *)
Theorem C57_early_stop_best_partial :
  forall (P O : Type) (step : P -> O -> list nat -> P * O) loss stats_step rounds tol given n perms before init s,
  0 <= tol -> fit step loss stats_step rounds tol given n perms before init = Some (true, s) -> exists p, chosen s = Some p /\ best_evaluated (evals s) p.
Proof. exact (@early_stop_best). Qed.
Print Assumptions C57_early_stop_best_partial.
Theorem C57_patience_ignored_refuted :
  forall (P O : Type) (step : P -> O -> list nat -> P * O) loss stats_step r1 r2 tol given n perms before init, 0 <= tol ->
  fit step loss stats_step r1 tol given n perms before init = fit step loss stats_step r2 tol given n perms before init.
Proof. exact (@patience_ignored). Qed.
Print Assumptions C57_patience_ignored_refuted.
Theorem C57_out_of_epochs_refuted : exists (step : nat -> unit -> list nat -> nat * unit) (loss : nat -> nat -> num) perms s q,
  Forall (shuffle 2) perms /\ fit step loss 2 5 (/ 10 ^ 4) (Some 1%nat) 2 perms None (0%nat, tt) = Some (false, s) /\
  In (q, Some 1) (evals s) /\ exists p, chosen s = Some p /\ forall k, loss k p = Some 100 /\ loss k q = Some 1.
Proof. exact (@exhausted_not_best). Qed.
Print Assumptions C57_out_of_epochs_refuted.
(** Losses 3 then 4: stopped at the second evaluation, the first parameters are kept. *)
Example C57_case : exists s, fit (fun p (_ : unit) (_ : list nat) => (S p, tt)) (fun _ p => Some (match p with 2%nat => 3 | _ => 4 end)) 1 5 0 (Some 1%nat) 2 [[0; 1]; [1; 0]]%nat None (0%nat, tt) = Some (true, s) /\ chosen s = Some 2%nat.
Proof.
  exists (State 3%nat tt (Some 3%nat) (Some 2%nat) 2 [(3%nat, Some 4); (2%nat, Some 3)]). split; [|unfold chosen; cbn; now rewrite Rltb_t by lra].
  unfold fit. cbn -[ratio_below]. unfold ratio_below. destruct (Req_EM_T _ 0) as [E|E]; [exfalso; lra|]. rewrite Rltb_t; [reflexivity|]. rewrite Rabs_pos_eq by lra. assert (0 < / (3 + / 10 ^ 6)) by (apply Rinv_0_lt_compat; lra). unfold Rdiv. nra.
Qed.

(** C209 *)
Theorem C209_value :
  forall (opts : options) (n nx ny nz : nat) (t : tree) (gs : list group) (x y : nat -> R), stores t gs -> gs <> [] ->
  exists v, network_value (act_fun opts) (rec_fun opts) nx ny nz gs x (as_used (augment opts) n y) v /\
  forall k, predict_net opts n (nx, ny, nz) t x y k = squeezed (bounds opts) v k.
Proof. exact (@predicted_value). Qed.
Print Assumptions C209_value.
Theorem C209_unique :
  forall f r nx ny nz gs x y v w, gs <> [] -> network_value f r nx ny nz gs x y v -> network_value f r nx ny nz gs x y w -> forall k, v k = w k.
Proof. exact (@network_value_unique). Qed.
Print Assumptions C209_unique.
(** Two layers with one feature, one control and one latent value; the first adds the control to its bias. *)
Definition one_map (w b : R) : Reproject.dense := Reproject.Dense [[w]] [b].
Definition small_layer (w : R) : group := [(txt "wzu", one_map 0 1); (txt "wyu", one_map 0 1); (txt "wz", one_map 2 0); (txt "wy", one_map w 0); (txt "wuz", one_map 3 0); (txt "u_dense", one_map 1 0)].
Example C209_case : stores [(txt "PICNNLayer_0", Flat (small_layer 1)); (txt "PICNNLayer_1", Flat (small_layer 5))] [small_layer 1; small_layer 5] /\
  forall v, network_value (fun a => a) (fun a => a) 1 1 1 [small_layer 1; small_layer 5] (fun _ => 7) (fun _ => 10) v -> v 0%nat = 137.
Proof.
  split.
  - exists [txt "PICNNLayer_0"; txt "PICNNLayer_1"]. split; [reflexivity|]. split; [reflexivity|]. repeat constructor; [exists [], (txt "_0") | exists [], (txt "_1")]; reflexivity.
  - intros v (u & z & U & Z & St & V). destruct (St 0%nat (small_layer 1) 0%nat (le_n 2) eq_refl) as [A B]. specialize (V (small_layer 5) 0%nat eq_refl).
    unfold layer_sum, affine, weight_of, bias_of in *. cbn in A, B, V. rewrite U, Z in B. rewrite U in A. rewrite A, B in V. rewrite V.
    unfold Rmax. destruct (Rle_dec 0 (0 + 0 * 7 + 1)); [|lra]. destruct (Rle_dec 0 (0 + 0 * (0 + 1 * 7 + 0) + 1)); lra.
Qed.

(** C219: networks before training. *)
Theorem C219_scale :
  forall out d j k, (0 < out)%nat -> positive_lecun out d j k = Rabs (d j k) / (10 * sqrt (INR out)).
Proof. exact (@lecun_scale). Qed.
Print Assumptions C219_scale.
Theorem C219_convex_partial :
  forall plain o n hs last x k, bounds o = None -> nondecreasing (act_fun o) -> convex1 (act_fun o) -> Forall (as_created plain) (hs ++ [last]) ->
  convex (fun y => picnn o n hs last x y k).
Proof. exact (@new_convex). Qed.
Print Assumptions C219_convex_partial.
Theorem C219_monotone_partial :
  forall o n hs last x k, augment o = false -> (forall v, 0 <= rec_fun o v) -> nondecreasing (act_fun o) ->
  (forall lo hi, bounds o = Some (lo, hi) -> forall j, lo j <= hi j) -> Forall (as_created false) (hs ++ [last]) ->
  monotone (fun y => picnn o n hs last x y k).
Proof. exact (@new_monotone). Qed.
Print Assumptions C219_monotone_partial.
(** Missing: bounded outputs and augmented inputs, see C53. *)
Definition created_layer (plain : bool) (s : R) : weights :=
  new_layer plain 4 (fun _ _ => s) (fun _ _ => s) (fun _ _ => s) (read_layer 1 1 1 (sample_layer 3)).
Example C219_case : Forall (as_created true) ([created_layer true (-8)] ++ [created_layer true (-4)]) /\ wz (created_layer true (-8)) 0%nat 0%nat = 4 / 10 /\ wy (created_layer true (-8)) 0%nat 0%nat = -8 /\
  wy (created_layer false (-8)) 0%nat 0%nat = 4 / 10.
Proof.
  assert (E : forall j k, positive_lecun 4 (fun _ _ => -8) j k = 4 / 10).
  { intros j k. rewrite lecun_scale by lia. replace (INR 4) with (2 * 2) by (cbn; lra). rewrite sqrt_square by lra. rewrite Rabs_left by lra. field. }
  split; [|split; [apply E|split; [reflexivity|apply E]]].
  cbn [app]. repeat constructor; unfold as_created, created_layer; repeat eexists.
Qed.
