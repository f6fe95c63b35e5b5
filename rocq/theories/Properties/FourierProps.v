(** Fourier models and combinations of experts: C43, C44, C45, C89, C90, C91, C92. *)
From Coq Require Import Reals List Arith Bool Lia Lra.
From Verif Require Import Model.FourierEs Model.FourierKalman Model.Experts Spec.FourierSpec Spec.ExpertsSpec
  Proof.FourierProof Proof.FourierProof2 Proof.FourierKalmanProof.
Import ListNotations.
Local Open Scope R_scope.

(** C43 *)
Theorem C43_window_is_last_values :
  forall (V : Type) (y w : list V) i, (0 < length w)%nat -> (i < length y)%nat ->
  window_at y w i = last_of (length w) (w ++ firstn (i + 1) y).
Proof. exact (@window_last). Qed.
Print Assumptions C43_window_is_last_values.
Theorem C43_window_across_calls :
  forall (V : Type) (y z w : list V) i, (0 < length w)%nat -> y <> [] -> (i < length z)%nat ->
  window_at z (window_at y w (length y - 1)) i = window_at (y ++ z) w (length y + i).
Proof. exact (@window_chunks). Qed.
Print Assumptions C43_window_across_calls.
Example C43_case : window_at [1; 2]%nat [7; 8; 9]%nat 1 = [9; 1; 2]%nat /\ window_at [1; 2; 3; 4]%nat [7; 8; 9]%nat 3 = [2; 3; 4]%nat.
Proof. split; reflexivity. Qed.

(** C44 *)
Theorem C44_predict_leaves_no_trace_fourier :
  forall p st cs y,
  fst (frun p (after (frun p) st cs) y false) = fst (frun p (after (frun p) st (filter is_fit cs)) y false).
Proof. exact (@fourier_predict_pure). Qed.
Print Assumptions C44_predict_leaves_no_trace_fourier.
Theorem C44_predict_leaves_no_trace_fk :
  forall (X C : Type) (o : ops X C) m n_sa omega f cs y,
  fst (krun o m n_sa omega (after (krun o m n_sa omega) f cs) y false) =
  fst (krun o m n_sa omega (after (krun o m n_sa omega) f (filter is_fit cs)) y false).
Proof. exact (@fk_predict_pure). Qed.
Print Assumptions C44_predict_leaves_no_trace_fk.
Theorem C44_chunked_fit_partial :
  forall p st y z, (0 < fm p)%nat -> length (st_w st) = fm p -> y <> [] -> (length y mod fm p = 0)%nat ->
  frun p st (y ++ z) true =
    (fst (frun p st y true) ++ fst (frun p (snd (frun p st y true)) z true), snd (frun p (snd (frun p st y true)) z true)).
Proof. exact (@fit_in_chunks). Qed.
Print Assumptions C44_chunked_fit_partial.
Theorem C44_chunked_fit_refuted : exists (p : fparams) (y z : list R), (0 < fm p)%nat /\ y <> [] /\ z <> [] /\
  fst (frun p (fresh p) (y ++ z) true) <> fst (frun p (fresh p) y true) ++ fst (frun p (snd (frun p (fresh p) y true)) z true).
Proof. exact (@chunks_differ). Qed.
Print Assumptions C44_chunked_fit_refuted.
Theorem C44_record_grows_refuted :
  forall (X C : Type) (o : ops X C) m n_sa omega f y k,
  length (fk_history (after (krun o m n_sa omega) f (repeat (Predict y) k))) = (length (fk_history f) + k * length y)%nat.
Proof. exact (@fk_record_unbounded). Qed.
Print Assumptions C44_record_grows_refuted.
Example C44_case : filter is_fit [Predict [1]; Fit [2; 3]; Predict [4]] = [Fit [2; 3]].
Proof. reflexivity. Qed.

(** C45 *)
Theorem C45_experts_hull :
  forall (K : Type) (kal : K -> option (list R) -> option (list R) -> K * option (list R)) n_sa n preds y,
  (0 < n)%nat -> (forall st x z, (forall v, x = Some v -> length v = n) -> (forall v, z = Some v -> length v = n) -> forall v, snd (kal st x z) = Some v -> length v = n) ->
  forall rows st x, (forall v, x = Some v -> length v = n) ->
  length (mix_rows kal n_sa n preds y st x rows) = length rows /\
  forall k row, nth_error (mix_rows kal n_sa n preds y st x rows) k = Some (Some row) ->
    length row = n_sa /\
    forall h, (h < n_sa)%nat -> in_hull (map (preds (nth k rows 0%nat) h) (seq 0 n)) (nth h row 0).
Proof. exact (@mix_rows_hull). Qed.
Print Assumptions C45_experts_hull.
Theorem C45_weights_probability :
  forall c w, weights c = Some w -> probability w /\ length w = length c.
Proof. exact (@weights_probability). Qed.
Print Assumptions C45_weights_probability.
Theorem C45_scores_probability :
  forall n_sa n preds y i w, expert_coeffs n_sa n preds y i = Some w -> probability w /\ length w = n /\ Forall (fun v => 0 < v) w.
Proof. exact (@expert_coeffs_probability). Qed.
Print Assumptions C45_scores_probability.
Example C45_case : weights [1; -3] = Some [1 / 4; 3 / 4] /\ combine_experts [[8; 4]] [1 / 4; 3 / 4] = [5].
Proof.
  split.
  - unfold weights, add_up. cbn [map fold_right]. rewrite (Rabs_left (-3)) by lra. rewrite (Rabs_right 1) by lra.
    replace (1 + (- -3 + 0)) with 4 by lra. destruct (Req_EM_T 4 0); [lra|]. f_equal. f_equal; [|f_equal].
    + rewrite Rabs_right; lra.
    + rewrite Rabs_left; lra.
  - cbn. f_equal. lra.
Qed.

(** C89 *)
Theorem C89_basis_orthonormal_partial :
  forall m h s i j, (2 * h < m)%nat -> (i < 2 * h + 1)%nat -> (j < 2 * h + 1)%nat ->
  rsum (fun r => basis m (s + r) i * basis m (s + r) j) m = if (i =? j)%nat then 1 else 0.
Proof. exact (@basis_orthonormal). Qed.
Print Assumptions C89_basis_orthonormal_partial.
Theorem C89_basis_periodic :
  forall m t j, (0 < m)%nat -> basis m (t + m) j = basis m t j.
Proof. exact (@basis_period). Qed.
Print Assumptions C89_basis_periodic.
Theorem C89_half_window_refuted :
  forall h s, (0 < h)%nat ->
  rsum (fun r => basis (2 * h) (s + r) (2 * h - 1) * basis (2 * h) (s + r) (2 * h - 1)) (2 * h) = 0.
Proof. exact (@nyquist_not_orthonormal). Qed.
Print Assumptions C89_half_window_refuted.
(** C90 *)
Theorem C90_coefficients_converge :
  forall p c x0 eps last1 n, proper p -> length c = dim p -> length x0 = dim p ->
  let Y := fun u => signal p c (u + fm p - 1) in
  let st := FStored (Some x0) eps last1 (map Y (seq 0 (fm p))) in
  st_x (snd (frun p st (map Y (seq (fm p) n)) true)) =
    Some (map (fun j => nth j c 0 + (1 - falpha p) ^ n * (nth j x0 0 - nth j c 0)) (seq 0 (dim p))).
Proof. exact (@coefficients_converge). Qed.
Print Assumptions C90_coefficients_converge.
Theorem C90_forecasts_exact :
  forall p c n, proper p -> length c = dim p ->
  let Y := fun u => signal p c (u + fm p - 1) in
  (forall t, Y (t + fperiod p)%nat = Y t) ->
  let st := FStored (Some c) 0 (Y (fm p)) (map Y (seq 0 (fm p))) in
  fst (frun p st (map Y (seq (fm p) n)) false) = map (fun i => map (fun h => Y (fm p + i + 1 + h)%nat) (seq 0 (fsa p))) (seq 0 n).
Proof. exact (@forecasts_exact). Qed.
Print Assumptions C90_forecasts_exact.
Example C90_case : proper (FParams 5 2 5 2 (1 / 2) (1 / 2)) /\
  forall c t, signal (FParams 5 2 5 2 (1 / 2) (1 / 2)) c (t + 5) = signal (FParams 5 2 5 2 (1 / 2) (1 / 2)) c t.
Proof. split; [repeat split; cbn; lia|]. intros c t. unfold signal. apply rsum_ext. intros j _. cbn [fm]. now rewrite basis_period by lia. Qed.

(** C91 *)
Theorem C91_late_expert_preferred_refuted :
  forall n_sa n preds y i a b w, (0 < n_sa)%nat -> (n_sa <= S i)%nat -> (a < n)%nat -> (b < n)%nat ->
  perfect n_sa preds y a -> one_step_late n_sa preds y b -> y (S i) <> y i ->
  expert_coeffs n_sa n preds y i = Some w -> nth a w 0 < nth b w 0.
Proof. exact (@late_expert_preferred). Qed.
Print Assumptions C91_late_expert_preferred_refuted.
Theorem C91_ranking_partial :
  forall n_sa n preds y i a b w, (a < n)%nat -> (b < n)%nat -> expert_coeffs n_sa n preds y i = Some w ->
  (nth a w 0 < nth b w 0 <-> mean_distance n_sa preds (S i) (y i) b < mean_distance n_sa preds (S i) (y i) a).
Proof. exact (@experts_ranked). Qed.
Print Assumptions C91_ranking_partial.
Theorem C91_flat_partial :
  forall n_sa n preds y i a b w, (a < n)%nat -> (b < n)%nat -> expert_coeffs n_sa n preds y i = Some w -> y (S i) = y i ->
  (nth a w 0 < nth b w 0 <-> mean_distance n_sa preds (S i) (y (S i)) b < mean_distance n_sa preds (S i) (y (S i)) a).
Proof. exact (@experts_ranked_flat). Qed.
Print Assumptions C91_flat_partial.
Example C91_case : let y := fun i => INR i in let preds := fun t h e => INR (match e with O => t + 1 + h | _ => t + h end) in
  perfect 2 preds y 0 /\ one_step_late 2 preds y 1 /\ exists w, expert_coeffs 2 2 preds y 5 = Some w.
Proof.
  cbn zeta. split; [intros t h _; reflexivity|]. split; [intros t h _; reflexivity|].
  unfold expert_coeffs. destruct (Req_EM_T _ 0) as [E|E]; [exfalso|eexists; reflexivity].
  cbn [seq map] in E. rewrite (error_perfect 2 _ _ 5 0), (error_late 2 _ _ 5 1) in E by (try lia; intros t h _; reflexivity).
  rewrite Rabs_right in E by (cbn; lra). cbn in E. lra.
Qed.

(** C92 *)
Theorem C92_no_error_gives_nan_refuted :
  forall (K : Type) (kal : K -> option (list R) -> option (list R) -> K * option (list R)) n_sa n preds y,
  (forall st x, snd (kal st x None) = None) ->
  forall rows st x k, (k < length rows)%nat -> (n_sa <= nth k rows 0)%nat ->
  (forall e sa, (e < n)%nat -> (sa < n_sa)%nat -> preds (nth k rows 0 - sa)%nat sa e = y (nth k rows 0%nat)) ->
  nth_error (mix_rows kal n_sa n preds y st x rows) k = Some None.
Proof. exact (@mix_rows_nan). Qed.
Print Assumptions C92_no_error_gives_nan_refuted.
Theorem C92_numbers_partial :
  forall n_sa n preds y i, (0 < n)%nat -> (0 < n_sa)%nat ->
  (expert_coeffs n_sa n preds y i = None <-> forall e h, (e < n)%nat -> (h < n_sa)%nat -> preds (i - h)%nat h e = y i).
Proof. exact (@experts_numbers). Qed.
Print Assumptions C92_numbers_partial.
Example C92_numbers_case : exists w, expert_coeffs 1 2 (fun _ _ e => INR e) (fun _ => 0) 3 = Some w.
Proof.
  destruct (expert_coeffs 1 2 (fun _ _ e => INR e) (fun _ => 0) 3) as [w|] eqn:E; [now exists w|]. exfalso.
  pose proof (proj1 (C92_numbers_partial 1 2 (fun _ _ e => INR e) (fun _ => 0) 3 ltac:(lia) ltac:(lia)) E) as Q. specialize (Q 1%nat 0%nat ltac:(lia) ltac:(lia)). cbn in Q. lra.
Qed.

Example C92_case : let preds := fun _ _ _ : nat => 0 in let y := fun _ : nat => 0 in
  mix_rows (fun (st : unit) _ z => (st, z)) 1 2 preds y tt (Some [1 / 2; 1 / 2]) [0; 1]%nat = [Some [0]; None].
Proof.
  cbn zeta. cbn [mix_rows Nat.leb]. rewrite no_error_no_weights; [|intros e _; unfold expert_error; cbn; rewrite Rminus_diag_eq, Rabs_R0 by reflexivity; lra].
  cbn [choose]. unfold weights, add_up. cbn [map fold_right]. rewrite (Rabs_right (1 / 2)) by lra.
  destruct (Req_EM_T (1 / 2 + (1 / 2 + 0)) 0); [lra|]. cbn. do 3 f_equal. lra.
Qed.
