From Coq Require Import List Reals Lra Lia Arith.
From Verif Require Import Model.Stats Model.Subsample Model.Quantiles Model.Losses Model.Gaussian Spec.LossSpec Proof.StatsProof Proof.SubsampleProof Proof.LossProof Proof.LossProof3.
Import ListNotations.
Local Open Scope R_scope.

(** ** The squared error *)
Lemma squared_zero (predictions targets : list R) : length predictions = length targets -> targets <> [] ->
  0 <= squared_loss predictions targets /\ (squared_loss predictions targets = 0 <-> predictions = targets).
Proof.
  intros L N. unfold squared_loss. destruct (jmean_zero (map2 (fun p t => (p - t) ^ 2) predictions targets)) as [A B].
  - destruct predictions, targets; try discriminate; easy.
  - apply Forall_forall. intros x I. apply (in_map2 _ _ _ x 0 0 L) in I as (i & _ & ->). apply pow2_ge_0.
  - split; [exact A|]. rewrite B. clear A B N. split.
    + intro F. apply (nth_ext _ _ 0 0 L). intros i I. rewrite Forall_forall in F.
      assert ((nth i predictions 0 - nth i targets 0) ^ 2 = 0) as Z by (apply F, (in_map2 _ _ _ _ 0 0 L); now exists i).
      destruct (Req_dec (nth i predictions 0 - nth i targets 0) 0) as [E | E]; [lra | pose proof (pow2_gt_0 _ E); lra].
    + intros ->. apply Forall_forall. intros x I. apply (in_map2 _ _ _ x 0 0 L) in I as (i & _ & ->). ring.
Qed.
Lemma squared_constant (y : list R) (mu : R) : y <> [] -> squared_loss (everywhere y mu) y = variance y + (mu - average y) * (mu - average y).
Proof.
  intro N. unfold squared_loss, jmean.
  replace (map2 (fun p t => (p - t) ^ 2) (everywhere y mu) y) with (map (fun v => (mu - v) * (mu - v)) y).
  - rewrite map_length, bias_variance by exact N. field. pose proof (lenR y N). lra.
  - clear N. unfold everywhere. induction y as [|v y IH]; [reflexivity|]. cbn [map]. rewrite map2_c, <- IH. f_equal. ring.
Qed.
Lemma squared_best (y : list R) (mu : R) : y <> [] -> ((forall nu, squared_loss (everywhere y mu) y <= squared_loss (everywhere y nu) y) <-> mu = average y).
Proof.
  intro N. split.
  - intro H. specialize (H (average y)). rewrite !squared_constant in H by exact N.
    destruct (Req_dec (mu - average y) 0) as [E | E]; [lra|]. pose proof (Rsqr_pos_lt _ E) as K. unfold Rsqr in K. lra.
  - intros -> nu. rewrite !squared_constant by exact N. pose proof (Rle_0_sqr (nu - average y)) as K. unfold Rsqr in K. lra.
Qed.
(** ** The spread of the ranked score of log-normal forecasts *)
Lemma ln_nonneg x : 1 <= x -> 0 <= ln x.
Proof. intro H. rewrite <- ln_1. destruct H as [H | <-]; [left; apply ln_increasing; lra | right; reflexivity]. Qed.
Lemma crps_wider (m s : R) : m <> 0 -> log_sigma m (sqrt (Rabs s)) < crps_sigma m s /\ exp (crps_sigma m s ^ 2) = 1 + (sqrt (Rabs s) + / 10 ^ 10) ^ 2 / m ^ 2.
Proof.
  intro M. split.
  2:{ unfold crps_sigma.
      assert (0 <= (sqrt (Rabs s) + / 10 ^ 10) ^ 2 / m ^ 2) as P by (apply Rmult_le_pos; [apply pow2_ge_0 | left; apply Rinv_0_lt_compat, pow2_gt_0, M]).
      rewrite pow2_sqrt by (apply ln_nonneg; lra). apply exp_ln. lra. }
  unfold log_sigma, crps_sigma.
  assert (0 < / m ^ 2) as P by (apply Rinv_0_lt_compat, pow2_gt_0, M). pose proof (sqrt_pos (Rabs s)) as Q.
  assert (0 <= sqrt (Rabs s) ^ 2 / m ^ 2) as A by (apply Rmult_le_pos; [apply pow2_ge_0 | lra]).
  assert (sqrt (Rabs s) ^ 2 / m ^ 2 < (sqrt (Rabs s) + / 10 ^ 10) ^ 2 / m ^ 2) as B.
  { apply Rmult_lt_compat_r; [exact P|]. assert (0 < / 10 ^ 10) by (apply Rinv_0_lt_compat, pow_lt; lra). nra. }
  apply sqrt_lt_1_alt. split; [apply ln_nonneg; lra | apply ln_increasing; lra].
Qed.
(** ** The squared error with the penalty of the causes *)
Lemma causal_loss_zero (causes : list (list bool)) (n : nat) (jacobians : list (list (list R))) (predictions targets : list R) :
  causes <> [] -> (0 < n)%nat -> jacobians <> [] -> (forall row, In row causes -> length row = n) ->
  (forall j, In j jacobians -> length j = n /\ forall row, In row j -> length row = length causes) ->
  length predictions = length targets -> targets <> [] ->
  squared_loss predictions targets <= causal_loss causes n jacobians predictions targets /\
  (causal_loss causes n jacobians predictions targets = 0 <->
   predictions = targets /\
   forall j control target, In j jacobians -> (control < length causes)%nat -> (target < n)%nat ->
     nth target (nth control causes []) true = false -> nth control (nth target j []) 0 = 0).
Proof.
  intros A B C D E L N. destruct (causal_zero causes n jacobians A B C D E) as [P Q]. destruct (squared_zero predictions targets L N) as [P' Q'].
  unfold causal_loss. split; [lra|]. rewrite <- Q, <- Q'. split; [intro; split; lra | intros [-> ->]; lra].
Qed.
