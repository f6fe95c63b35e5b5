From Coq Require Import Reals Lra Lia List Arith Bool.
From Verif Require Import Model.Stats Model.Gaussian Spec.GaussianSpec Proof.StatsProof Proof.TrainingProof.
Import ListNotations.
Local Open Scope R_scope.

Lemma erfinv_zero erfinv : error_inverse erfinv -> erfinv 0 = 0.
Proof. intros [_ H]. specialize (H 0 ltac:(lra)). replace (- 0) with 0 in H by lra. lra. Qed.
Lemma nth_map2 {A B} (f : A -> B) l i da db : (i < length l)%nat -> nth i (map f l) db = f (nth i l da).
Proof. intros H. rewrite (nth_indep _ db (f da)) by (rewrite map_length; auto). apply map_nth. Qed.
Lemma sqrt2_pos : 0 < sqrt 2. Proof. apply sqrt_lt_R0. lra. Qed.

(** One quantile. *)
Lemma quantile_at erfinv levels mu sigma i j :
  (i < length mu)%nat -> (i < length sigma)%nat -> (j < length levels)%nat ->
  nth j (nth i (gaussian_quantiles erfinv levels mu sigma) []) 0 =
  nth i mu 0 + nth i sigma 0 * sqrt 2 * erfinv (2 * nth j levels 0 - 1).
Proof.
  intros A B C. unfold gaussian_quantiles.
  rewrite (nth_map2 _ _ _ (0, 0)) by (rewrite combine_length; lia).
  rewrite (nth_map2 _ _ _ 0) by auto.
  revert sigma i A B. induction mu as [|m mu IH]; intros [|s sigma] [|i] A B; simpl in *; try lia; auto.
  apply IH; lia.
Qed.
Lemma quantiles_shape erfinv scaler levels out i :
  (i < length (predict_quantiles erfinv scaler levels out))%nat ->
  (i < length (fst (predict_sigma scaler out)))%nat /\ (i < length (snd (predict_sigma scaler out)))%nat.
Proof.
  unfold predict_quantiles. destruct (predict_sigma scaler out) as [mu sigma]. simpl.
  unfold gaussian_quantiles. rewrite map_length, combine_length. lia.
Qed.

(** The order of the quantiles of a column is decided by the sign of the reported deviation. *)
Lemma quantiles_order erfinv scaler levels out i j k :
  error_inverse erfinv -> levels_ok levels -> (i < length (predict_quantiles erfinv scaler levels out))%nat ->
  (j < length levels)%nat -> (k < length levels)%nat -> nth j levels 0 < nth k levels 0 ->
  let q := fun l => nth l (nth i (predict_quantiles erfinv scaler levels out) []) 0 in
  let sigma := nth i (snd (predict_sigma scaler out)) 0 in
  (0 < sigma -> q j < q k) /\ (sigma = 0 -> q j = q k) /\ (sigma < 0 -> q k < q j).
Proof.
  intros [E _] L I J K Q. destruct (quantiles_shape _ _ _ _ _ I) as [A B]. cbv zeta. clear I.
  unfold predict_quantiles. destruct (predict_sigma scaler out) as [mu sg]. cbn [fst snd] in *.
  rewrite !quantile_at by auto.
  assert (0 < nth j levels 0 < 1) by (apply L, nth_In; auto).
  assert (0 < nth k levels 0 < 1) by (apply L, nth_In; auto).
  specialize (E (2 * nth j levels 0 - 1) (2 * nth k levels 0 - 1) ltac:(lra) ltac:(lra) ltac:(lra)).
  pose proof sqrt2_pos. set (s := nth i sg 0) in *.
  assert (P : forall t, 0 < t -> t * sqrt 2 * erfinv (2 * nth j levels 0 - 1) < t * sqrt 2 * erfinv (2 * nth k levels 0 - 1)).
  { intros t T. apply Rmult_lt_compat_l; auto. apply Rmult_lt_0_compat; auto. }
  split; [|split]; intros S.
  - specialize (P s S). lra.
  - rewrite S. lra.
  - specialize (P (- s) ltac:(lra)). nra.
Qed.
(** The deviation reported, against the one of the target: [sd * sqrt var]. *)
Lemma sigma_scaled scaler out i :
  (2 * length scaler = length out)%nat -> (i < length scaler)%nat ->
  let m := fst (nth i scaler (0, 0)) in let sd := snd (nth i scaler (0, 0)) in
  nth i (fst (predict_sigma (Some scaler) out)) 0 = sd * nth i out 0 + m /\
  nth i (snd (predict_sigma (Some scaler) out)) 0 = sd * sqrt (nth (length scaler + i) out 0) + m.
Proof.
  intros L I. cbv zeta. unfold predict_sigma. rewrite <- L, (Nat.mul_comm 2), Nat.div_mul by lia. cbn [fst snd].
  assert (G : forall l, length l = length scaler -> nth i (inverse_transform scaler l) 0 = snd (nth i scaler (0, 0)) * nth i l 0 + fst (nth i scaler (0, 0))).
  { intros l E. unfold inverse_transform. rewrite (nth_map2 _ _ _ ((0, 0), 0)) by (rewrite combine_length; lia).
    rewrite combine_nth by auto. simpl. lra. }
  rewrite !G.
  - split; f_equal; f_equal.
    + assert (i < length (firstn (length scaler) out))%nat by (rewrite firstn_length; lia).
      rewrite <- (firstn_skipn (length scaler) out) at 2. rewrite app_nth1; auto.
    + rewrite (nth_map2 _ _ _ 0) by (rewrite skipn_length; lia). f_equal.
      rewrite <- (firstn_skipn (length scaler) out) at 2. rewrite app_nth2; rewrite firstn_length; [|lia]. f_equal. lia.
  - rewrite map_length, skipn_length. lia.
  - rewrite firstn_length. lia.
Qed.
Lemma sigma_unscaled out n i : (2 * n = length out)%nat -> (i < n)%nat ->
  nth i (fst (predict_sigma None out)) 0 = nth i out 0 /\ nth i (snd (predict_sigma None out)) 0 = nth (n + i) out 0.
Proof.
  intros L I. unfold predict_sigma. rewrite <- L, (Nat.mul_comm 2), Nat.div_mul by lia. cbn [fst snd].
  split.
  - assert (i < length (firstn n out))%nat by (rewrite firstn_length; lia).
    rewrite <- (firstn_skipn n out) at 2. rewrite app_nth1; auto.
  - rewrite <- (firstn_skipn n out) at 2. rewrite app_nth2; rewrite firstn_length; [|lia]. f_equal. lia.
Qed.
(** The reported deviation is the deviation of the target only in the trivial cases. *)
Lemma sigma_right scaler out i :
  (2 * length scaler = length out)%nat -> (i < length scaler)%nat ->
  (nth i (snd (predict_sigma (Some scaler) out)) 0 = snd (nth i scaler (0, 0)) * sqrt (nth (length scaler + i) out 0) <->
   fst (nth i scaler (0, 0)) = 0).
Proof. intros L I. destruct (sigma_scaled scaler out i L I) as [_ ->]. split; lra. Qed.
Lemma sigma_right_unscaled out n i : (2 * n = length out)%nat -> (i < n)%nat -> 0 <= nth (n + i) out 0 ->
  (nth i (snd (predict_sigma None out)) 0 = sqrt (nth (n + i) out 0) <-> nth (n + i) out 0 = 0 \/ nth (n + i) out 0 = 1).
Proof.
  intros L I P. destruct (sigma_unscaled out n i L I) as [_ ->]. set (v := nth (n + i) out 0) in *. clearbody v.
  pose proof (sqrt_sqrt v P) as S. pose proof (sqrt_pos v). split.
  - intros E. rewrite <- E in S. assert (v * (v - 1) = 0) as Z by lra. apply Rmult_integral in Z. lra.
  - intros [->| ->]; [rewrite sqrt_0|rewrite sqrt_1]; auto.
Qed.
(** A column whose mean is below minus the predicted deviation has all its quantiles in reverse order. *)
Lemma quantiles_reversed erfinv scaler levels out i j k :
  error_inverse erfinv -> levels_ok levels -> (2 * length scaler = length out)%nat -> (i < length scaler)%nat ->
  (j < length levels)%nat -> (k < length levels)%nat -> nth j levels 0 < nth k levels 0 ->
  fst (nth i scaler (0, 0)) < - (snd (nth i scaler (0, 0)) * sqrt (nth (length scaler + i) out 0)) ->
  nth k (nth i (predict_quantiles erfinv (Some scaler) levels out) []) 0 < nth j (nth i (predict_quantiles erfinv (Some scaler) levels out) []) 0.
Proof.
  intros E L N I J K Q M. destruct (sigma_scaled scaler out i N I) as [_ S].
  apply (quantiles_order erfinv (Some scaler) levels out i j k E L); auto; [|lra].
  unfold predict_quantiles, predict_sigma. rewrite <- N, (Nat.mul_comm 2), Nat.div_mul by lia.
  unfold gaussian_quantiles, inverse_transform. rewrite map_length, combine_length, !map_length, !combine_length, map_length, firstn_length, skipn_length. lia.
Qed.
Lemma raw_order erfinv levels out i j k :
  error_inverse erfinv -> levels_ok levels -> (i < length (raw_quantiles erfinv levels out))%nat ->
  (j < length levels)%nat -> (k < length levels)%nat -> nth j levels 0 <= nth k levels 0 ->
  nth j (nth i (raw_quantiles erfinv levels out) []) 0 <= nth k (nth i (raw_quantiles erfinv levels out) []) 0.
Proof.
  intros [E _] L I J K Q. unfold raw_quantiles in *.
  set (mu := firstn _ out) in *. set (sg := map sqrt _) in *.
  assert (i < length mu /\ i < length sg)%nat as [A B].
  { revert I. unfold gaussian_quantiles. rewrite map_length, combine_length. lia. }
  rewrite !quantile_at by auto.
  assert (0 < nth j levels 0 < 1) by (apply L, nth_In; auto).
  assert (0 < nth k levels 0 < 1) by (apply L, nth_In; auto).
  assert (0 <= nth i sg 0). { unfold sg. rewrite (nth_map2 _ _ _ 0); [apply sqrt_pos|]. unfold sg in B. rewrite map_length in B. auto. }
  destruct Q as [Q|Q]; [|rewrite Q; lra].
  specialize (E (2 * nth j levels 0 - 1) (2 * nth k levels 0 - 1) ltac:(lra) ltac:(lra) ltac:(lra)).
  pose proof sqrt2_pos. assert (0 <= nth i sg 0 * sqrt 2) by (apply Rmult_le_pos; lra).
  apply Rplus_le_compat_l, Rmult_le_compat_l; lra.
Qed.

(** Structured networks. *)
Lemma structured_normal_mono erfinv obj out p q : error_inverse erfinv -> 0 < p -> p <= q -> q < 1 ->
  structured_normal erfinv obj out p <= structured_normal erfinv obj out q.
Proof.
  intros [E _] P Q Q1. unfold structured_normal. destruct Q as [Q|Q]; [|rewrite Q; lra].
  specialize (E (2 * p - 1) (2 * q - 1) ltac:(lra) ltac:(lra) ltac:(lra)).
  pose proof sqrt2_pos. pose proof (sqrt_pos (Rabs out)).
  assert (0 <= sqrt (Rabs out) * sqrt 2) by (apply Rmult_le_pos; lra).
  apply Rplus_le_compat_l, Rmult_le_compat_l; lra.
Qed.
Lemma exp_le a b : a <= b -> exp a <= exp b.
Proof. intros [H|H]; [left; apply exp_increasing; auto|subst; lra]. Qed.
Lemma sign_pos x : 0 < x -> sign x = 1.
Proof. intros H. unfold sign. destruct (Rltb_case x 0) as [[-> ?]|[-> _]]; [lra|]. destruct (Rltb_case 0 x) as [[-> _]|[-> ?]]; lra. Qed.
Lemma sign_neg x : x < 0 -> sign x = -1.
Proof. intros H. unfold sign. destruct (Rltb_case x 0) as [[-> ?]|[-> ?]]; lra. Qed.
Lemma lt_b a b : a < b -> Rltb a b = true.
Proof. intros H. destruct (Rltb_case a b) as [[-> _]|[_ ?]]; [auto|lra]. Qed.
Lemma ge_b a b : b <= a -> Rltb a b = false.
Proof. intros H. destruct (Rltb_case a b) as [[_ ?]|[-> _]]; [lra|auto]. Qed.
Lemma lognormal_mono erfinv obj out p q : error_inverse erfinv -> 0 < p -> p <= q -> q < 1 ->
  structured_lognormal erfinv obj out p <= structured_lognormal erfinv obj out q.
Proof.
  intros [E _] P Q Q1. unfold structured_lognormal. cbv zeta. destruct Q as [Q|Q]; [|rewrite Q; lra].
  set (s := log_sigma obj (sqrt (Rabs out))). assert (0 <= s) by apply sqrt_pos. clearbody s.
  set (m := log_mu obj (sqrt (Rabs out))). clearbody m.
  pose proof sqrt2_pos. assert (0 <= s * sqrt 2) by (apply Rmult_le_pos; lra).
  assert (exp (m + s * sqrt 2 * erfinv (2 * p - 1)) <= exp (m + s * sqrt 2 * erfinv (2 * q - 1))).
  { specialize (E (2 * p - 1) (2 * q - 1) ltac:(lra) ltac:(lra) ltac:(lra)). apply exp_le, Rplus_le_compat_l, Rmult_le_compat_l; lra. }
  assert (exp (m + s * sqrt 2 * erfinv (2 * (1 - q) - 1)) <= exp (m + s * sqrt 2 * erfinv (2 * (1 - p) - 1))).
  { specialize (E (2 * (1 - q) - 1) (2 * (1 - p) - 1) ltac:(lra) ltac:(lra) ltac:(lra)). apply exp_le, Rplus_le_compat_l, Rmult_le_compat_l; lra. }
  destruct (Rltb (sign out) 0), (Rltb 0 (sign out)); lra.
Qed.
Lemma lognormal_median erfinv obj out : error_inverse erfinv -> out <> 0 ->
  structured_lognormal erfinv obj out (1 / 2) = exp (log_mu obj (sqrt (Rabs out))).
Proof.
  intros E N. pose proof (erfinv_zero _ E) as Z. unfold structured_lognormal. cbv zeta.
  replace (2 * (1 / 2) - 1) with 0 by lra. replace (2 * (1 - 1 / 2) - 1) with 0 by lra. rewrite Z, Rmult_0_r, Rplus_0_r.
  destruct (Rlt_dec 0 out) as [H|H].
  - rewrite sign_pos by auto. rewrite (ge_b 1 0) by lra. rewrite (lt_b 0 1) by lra. lra.
  - rewrite sign_neg by lra. rewrite (lt_b (-1) 0) by lra. rewrite (ge_b 0 (-1)) by lra. lra.
Qed.
(** The log-normal fan never contains the sign of the objective: it is positive for a positive head, and with a zero
    deviation every quantile is zero whatever the objective. *)
Lemma lognormal_positive erfinv obj out q : 0 < out -> 0 < structured_lognormal erfinv obj out q.
Proof.
  intros H. unfold structured_lognormal. cbv zeta. rewrite sign_pos by auto. rewrite (ge_b 1 0) by lra. rewrite (lt_b 0 1) by lra.
  rewrite Rplus_0_l. apply exp_pos.
Qed.
Lemma lognormal_degenerate erfinv obj q : structured_lognormal erfinv obj 0 q = 0.
Proof.
  unfold structured_lognormal. cbv zeta.
  assert (sign 0 = 0) as -> by (unfold sign; rewrite (ge_b 0 0) by lra; auto).
  rewrite (ge_b 0 0) by lra. lra.
Qed.
(** Moment matching: the log-normal with the computed parameters has the objective's magnitude as its mean. *)
Lemma lognormal_mean obj sigma : 0 < obj ->
  exp (log_mu obj sigma + (log_sigma obj sigma) ^ 2 / 2) = obj.
Proof.
  intros H. unfold log_mu, log_sigma.
  assert (0 < obj ^ 2) by (apply pow_lt; auto). assert (0 <= sigma ^ 2) by apply pow2_ge_0.
  assert (0 <= sigma ^ 2 / obj ^ 2) by (apply Rmult_le_pos; [auto|left; apply Rinv_0_lt_compat; auto]).
  assert (0 <= ln (1 + sigma ^ 2 / obj ^ 2)).
  { destruct (Rle_lt_or_eq_dec 0 _ H2) as [P|P]; [left; rewrite <- ln_1; apply ln_increasing; lra|]. rewrite <- P, Rplus_0_r, ln_1. lra. }
  rewrite pow2_sqrt by auto.
  assert (0 < sqrt (sigma ^ 2 + obj ^ 2)) by (apply sqrt_lt_R0; lra).
  replace (ln (1 + sigma ^ 2 / obj ^ 2) / 2) with (ln (sqrt (1 + sigma ^ 2 / obj ^ 2))).
  2:{ assert (0 < sqrt (1 + sigma ^ 2 / obj ^ 2)) by (apply sqrt_lt_R0; lra).
      rewrite <- (sqrt_sqrt (1 + sigma ^ 2 / obj ^ 2)) at 2 by lra. rewrite ln_mult by auto. lra. }
  rewrite <- ln_mult; [|apply Rdiv_lt_0_compat; auto|apply sqrt_lt_R0; lra].
  rewrite exp_ln.
  2:{ apply Rmult_lt_0_compat; [apply Rdiv_lt_0_compat; auto|apply sqrt_lt_R0; lra]. }
  replace (1 + sigma ^ 2 / obj ^ 2) with ((sigma ^ 2 + obj ^ 2) / obj ^ 2) by (field; lra).
  rewrite sqrt_div by lra. rewrite (sqrt_pow2 obj) by lra. field. split; lra.
Qed.
(** Without the scaler: the first half of the outputs are means, the second half variances. *)
Lemma raw_values :
  forall erfinv levels mu var, length mu = length var ->
  length (raw_quantiles erfinv levels (mu ++ var)) = length mu /\
  forall i, (i < length mu)%nat -> nth i (raw_quantiles erfinv levels (mu ++ var)) []
    = map (fun q => nth i mu 0 + sqrt (nth i var 0) * sqrt 2 * erfinv (2 * q - 1)) levels.
Proof.
  intros erfinv levels mu var L. unfold raw_quantiles. rewrite app_length, <- L.
  replace ((length mu + length mu) / 2)%nat with (length mu) by (replace (length mu + length mu)%nat with (length mu * 2)%nat by lia; now rewrite Nat.div_mul).
  rewrite firstn_app, Nat.sub_diag, firstn_all, firstn_O, app_nil_r, skipn_app, Nat.sub_diag, skipn_all. cbn [app skipn].
  unfold gaussian_quantiles. split; [rewrite map_length, combine_length, map_length; lia|]. intros i Hi.
  rewrite (nth_map2 _ _ _ (0, 0)) by (rewrite combine_length, map_length; lia).
  rewrite combine_nth by (rewrite map_length; exact L). cbn [fst snd]. rewrite (nth_map2 _ _ _ 0) by lia. reflexivity.
Qed.
