(** The Kalman filter: C46. *)
From mathcomp Require Import all_ssreflect all_algebra.
From Verif Require Import Model.Kalman Spec.KalmanSpec Proof.KalmanProof.
Set Implicit Arguments.
Unset Strict Implicit.
Unset Printing Implicit Defensive.
Import Order.Theory GRing.Theory Num.Theory.
Local Open Scope ring_scope.

(** C46 *)
Theorem C46_covariance_valid :
  forall (F : realFieldType) n m (pinv : 'M[F]_m -> 'M[F]_m) (A : 'M[F]_n) (H : 'M[F]_(m, n)) x (P : 'M[F]_n) steps,
  covariance P -> (forall q, q \in steps -> covariance q.1.1 /\ covariance q.2) -> (forall S, pseudo_inverse S (pinv S)) ->
  covariance (kalman_run pinv A H x P steps).2.
Proof. exact (@code_covariance_run). Qed.
Print Assumptions C46_covariance_valid.
Theorem C46_gain_optimal :
  forall (F : realFieldType) n m (pinv : 'M[F]_m -> 'M[F]_m) x (P : 'M[F]_n) y (H : 'M[F]_(m, n)) (R : 'M[F]_m),
  covariance P -> covariance R -> (forall S, pseudo_inverse S (pinv S)) -> innovation P H R \in unitmx ->
  exists K, (kalman_update pinv x P y H R).1 = x + K *m (y - H *m x) /\
    forall L, no_larger (error_covariance P H R K) (error_covariance P H R L).
Proof. exact (@gain_optimal). Qed.
Print Assumptions C46_gain_optimal.
Theorem C46_reported_not_larger_partial :
  forall (F : realFieldType) n m (pinv : 'M[F]_m -> 'M[F]_m) x (P : 'M[F]_n) y (H : 'M[F]_(m, n)) (R : 'M[F]_m),
  covariance P -> covariance R -> (forall S, pseudo_inverse S (pinv S)) ->
  exists K, (kalman_update pinv x P y H R).1 = x + K *m (y - H *m x) /\
    no_larger (kalman_update pinv x P y H R).2 (error_covariance P H R K).
Proof. exact (@code_smaller). Qed.
Print Assumptions C46_reported_not_larger_partial.
Theorem C46_reported_covariance_refuted : exists pinv : 'M[rat]_1 -> 'M[rat]_1, (forall S, pseudo_inverse S (pinv S)) /\
  covariance (1%:M : 'M[rat]_1) /\
  forall x y, (kalman_update pinv x 1%:M y (1%:M : 'M[rat]_(1, 1)) 1%:M).1 = x + (1 / 2%:R)%:M *m (y - 1%:M *m x) /\
    error_covariance (1%:M : 'M[rat]_1) (1%:M : 'M[rat]_(1, 1)) 1%:M (1 / 2%:R)%:M = (1 / 2%:R)%:M /\
    (kalman_update pinv x 1%:M y (1%:M : 'M[rat]_(1, 1)) 1%:M).2 = (3%:R / 8%:R)%:M.
Proof. exact (@code_overconfident). Qed.
Print Assumptions C46_reported_covariance_refuted.
Example C46_case : covariance (1%:M : 'M[rat]_2) /\ innovation (1%:M : 'M[rat]_2) 1%:M 1%:M \in unitmx.
Proof.
split; last by rewrite /innovation trmx1 !mulmx1 unitmxE -raddfD det_scalar unitfE expf_neq0.
split; first by rewrite trmx1.
by move=> v; rewrite mulmx1 mxE big_ord_recl big_ord1 !mxE addr_ge0 // -expr2 sqr_ge0.
Qed.

(** C206 and C207, for the filter of FK *)
Theorem C206_filter : forall (F : fieldType) (n m : nat) (pinv : 'M[F]_m -> 'M[F]_m) (c : F) (x : 'cV[F]_n) (P A Q : 'M[F]_n) (y : 'cV[F]_m) (H : 'M[F]_(m, n)) (R : 'M[F]_m),
  kalman pinv (c *: x) P A Q (c *: y) H R = (c *: (kalman pinv x P A Q y H R).1, (kalman pinv x P A Q y H R).2).
Proof. exact (@kalman_scaled). Qed.
Print Assumptions C206_filter.
Theorem C207_filter_partial : forall (F : fieldType) (n m : nat) (pinv : 'M[F]_m -> 'M[F]_m) (u x : 'cV[F]_n) (P A Q : 'M[F]_n) (y : 'cV[F]_m) (H : 'M[F]_(m, n)) (R : 'M[F]_m),
  A *m u = u -> kalman pinv (x + u) P A Q (y + H *m u) H R = ((kalman pinv x P A Q y H R).1 + u, (kalman pinv x P A Q y H R).2).
Proof. exact (@kalman_moved). Qed.
Print Assumptions C207_filter_partial.
Example C207_filter_case : (1%:M : 'M[rat]_2) *m (const_mx 3%:R : 'cV[rat]_2) = const_mx 3%:R.
Proof. by rewrite mul1mx. Qed.
