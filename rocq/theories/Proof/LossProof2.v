From Coq Require Import List Reals Lra Lia Arith.
From Coquelicot Require Import Coquelicot.
From Verif Require Import Model.Stats Model.Losses Model.Gaussian Spec.LossSpec Proof.StatsProof Proof.LossProof.
Import ListNotations.
Local Open Scope R_scope.

Lemma bell_pdf u : bell u = pdf u.
Proof. unfold bell, pdf, Rdiv. ring. Qed.
Lemma pdf_pos u : 0 < pdf u.
Proof. unfold pdf. apply Rmult_lt_0_compat; [apply Rinv_0_lt_compat, sqrt_lt_R0; pose proof PI_RGT_0; lra | apply exp_pos]. Qed.
Lemma pdf_even u : pdf (- u) = pdf u.
Proof. unfold pdf. do 3 f_equal. field. Qed.
Lemma pdf_deriv u : derivable_pt_lim pdf u (- u * pdf u).
Proof. apply is_derive_Reals. unfold pdf. generalize (/ sqrt (2 * PI)). intro k. auto_derive; [easy|]. replace (- (u * (u * 1) * / 2)) with (- (u ^ 2 / 2)) by (unfold Rdiv; ring). field. Qed.

(** The contract is met by the integral of the density. *)
Lemma normal_cdf_exists : exists cdf, normal_cdf cdf.
Proof.
  exists (fun u => 1 / 2 + RInt bell 0 u). split.
  - intro u. apply is_derive_Reals. replace (bell u) with (0 + bell u) by ring.
    assert (forall x, continuous bell x) as C.
    { intro x. apply (ex_derive_continuous bell). unfold bell. auto_derive. exact I. }
    apply (is_derive_plus (fun _ => 1 / 2) (fun u => RInt bell 0 u)); [apply (is_derive_const (1 / 2))|].
    apply (is_derive_RInt bell (fun u => RInt bell 0 u) 0 u); [|apply C].
    exists (mkposreal 1 Rlt_0_1). intros t _. apply (RInt_correct bell 0 t). apply (ex_RInt_continuous bell). intros; apply C.
  - rewrite RInt_point. change (zero : R) with 0. lra.
Qed.

Section Cdf.
Context (cdf : R -> R) (N : normal_cdf cdf).
Lemma cdf_deriv u : derivable_pt_lim cdf u (pdf u).
Proof. rewrite <- bell_pdf. apply N. Qed.
Lemma cdf_increasing a b : a < b -> cdf a < cdf b.
Proof.
  intro H. destruct (MVT_cor2 cdf pdf a b H) as (c & E & _); [intros; apply cdf_deriv|].
  pose proof (Rmult_lt_0_compat (pdf c) (b - a) (pdf_pos c)). lra.
Qed.
Lemma cdf_symmetric u : cdf (- u) = 1 - cdf u.
Proof.
  assert (forall u, 0 < u -> cdf (- u) = 1 - cdf u) as P.
  { clear u. intros u H. destruct (MVT_cor2 (fun t => cdf t + cdf (- t)) (fun t => pdf t + - pdf (- t)) 0 u H) as (c & E & _).
    - intros t _. apply derivable_pt_lim_plus; [apply cdf_deriv|].
      replace (- pdf (- t)) with (pdf (- t) * (- 1)) by ring.
      apply (derivable_pt_lim_comp Ropp cdf t (- 1) (pdf (- t))); [apply derivable_pt_lim_opp; apply derivable_pt_lim_id | apply cdf_deriv].
    - rewrite pdf_even, Ropp_0, (proj2 N) in E. lra. }
  destruct (Rtotal_order u 0) as [H | [-> | H]].
  - rewrite <- (Ropp_involutive u) at 2. rewrite (P (- u)) by lra. lra.
  - rewrite Ropp_0, (proj2 N). lra.
  - apply P, H.
Qed.
Definition shape (u : R) : R := u * (2 * cdf u - 1) + 2 * pdf u.
Lemma shape_deriv u : derivable_pt_lim shape u (2 * cdf u - 1).
Proof.
  unfold shape.
  replace (2 * cdf u - 1) with ((1 * (2 * cdf u - 1) + u * (2 * pdf u - 0)) + 2 * (- u * pdf u)) by ring.
  apply (derivable_pt_lim_plus (fun u => u * (2 * cdf u - 1)) (fun u => 2 * pdf u)).
  - apply (derivable_pt_lim_mult (fun u => u) (fun u => 2 * cdf u - 1)); [apply derivable_pt_lim_id|].
    apply (derivable_pt_lim_minus (fun u => 2 * cdf u) (fun _ => 1)); [|apply derivable_pt_lim_const].
    apply (derivable_pt_lim_scal cdf); apply cdf_deriv.
  - apply (derivable_pt_lim_scal pdf). apply pdf_deriv.
Qed.
Lemma shape_even u : shape (- u) = shape u.
Proof. unfold shape. rewrite cdf_symmetric, pdf_even. ring. Qed.
Lemma shape_abs u : shape (Rabs u) = shape u.
Proof. unfold Rabs. destruct (Rcase_abs u); [apply shape_even | reflexivity]. Qed.
Lemma shape_increasing a b : 0 <= a < b -> shape a < shape b.
Proof.
  intros [A B]. destruct (MVT_cor2 shape (fun u => 2 * cdf u - 1) a b B) as (c & E & C1 & C2); [intros; apply shape_deriv|].
  pose proof (cdf_increasing 0 c). rewrite (proj2 N) in H.
  assert (0 < (2 * cdf c - 1) * (b - a)) by (apply Rmult_lt_0_compat; lra). lra.
Qed.
Lemma shape_zero : shape 0 = sqrt 2 / sqrt PI.
Proof.
  unfold shape, pdf. replace (- (0 ^ 2 / 2)) with 0 by field. rewrite exp_0, Rmult_0_l, sqrt_mult by (pose proof PI_RGT_0; lra).
  pose proof PI_RGT_0. assert (sqrt PI <> 0) by (apply Rgt_not_eq, sqrt_lt_R0; lra). assert (sqrt 2 <> 0) by (apply Rgt_not_eq, sqrt_lt_R0; lra).
  pose proof (sqrt_def 2 ltac:(lra)) as E.
  apply (Rmult_eq_reg_r (sqrt 2 * sqrt PI)); [|apply Rmult_integral_contrapositive_currified; easy].
  replace ((0 + 2 * (/ (sqrt 2 * sqrt PI) * 1)) * (sqrt 2 * sqrt PI)) with 2 by (field; easy).
  replace (sqrt 2 / sqrt PI * (sqrt 2 * sqrt PI)) with (sqrt 2 * sqrt 2) by (field; easy). lra.
Qed.
Lemma crps_shape y_hat y s : crps_cell cdf y_hat y s = sqrt s * (shape ((y - y_hat) / sqrt s) - 1 / sqrt PI).
Proof. unfold crps_cell, shape. ring. Qed.
End Cdf.

Lemma crps_increasing (cdf : R -> R) (y_hat y_hat' y y' s : R) : normal_cdf cdf -> 0 < s ->
  Rabs (y - y_hat) < Rabs (y' - y_hat') -> crps_cell cdf y_hat y s < crps_cell cdf y_hat' y' s.
Proof.
  intros N S H. rewrite !crps_shape. pose proof (sqrt_lt_R0 s S) as Q.
  apply Rmult_lt_compat_l; [easy|]. apply Rplus_lt_compat_r.
  rewrite <- (shape_abs cdf N ((y - y_hat) / sqrt s)), <- (shape_abs cdf N ((y' - y_hat') / sqrt s)).
  apply (shape_increasing cdf N). split; [apply Rabs_pos|].
  unfold Rdiv. rewrite !Rabs_mult. apply Rmult_lt_compat_r; [|easy]. apply Rabs_pos_lt, Rinv_neq_0_compat. lra.
Qed.
Lemma crps_symmetric (cdf : R -> R) (y_hat y_hat' y y' s : R) : normal_cdf cdf -> 0 < s ->
  Rabs (y - y_hat) = Rabs (y' - y_hat') -> crps_cell cdf y_hat y s = crps_cell cdf y_hat' y' s.
Proof.
  intros N S H. rewrite !crps_shape. do 2 f_equal.
  rewrite <- (shape_abs cdf N ((y - y_hat) / sqrt s)), <- (shape_abs cdf N ((y' - y_hat') / sqrt s)).
  unfold Rdiv. rewrite !Rabs_mult, H. reflexivity.
Qed.
Lemma crps_exact (cdf : R -> R) (y s : R) : normal_cdf cdf -> 0 < s -> crps_cell cdf y y s = sqrt s * ((sqrt 2 - 1) / sqrt PI).
Proof.
  intros N S. rewrite crps_shape. f_equal. replace ((y - y) / sqrt s) with 0 by (unfold Rdiv; ring). rewrite (shape_zero cdf).
  field. apply Rgt_not_eq, sqrt_lt_R0. pose proof PI_RGT_0; lra.
Qed.
Lemma crps_positive (cdf : R -> R) (y_hat y s : R) : normal_cdf cdf -> 0 < s -> sqrt s * ((sqrt 2 - 1) / sqrt PI) <= crps_cell cdf y_hat y s /\ 0 < crps_cell cdf y_hat y s.
Proof.
  intros N S.
  assert (sqrt s * ((sqrt 2 - 1) / sqrt PI) <= crps_cell cdf y_hat y s) as L.
  { rewrite <- (crps_exact cdf y_hat s N S). destruct (Req_dec y y_hat) as [-> | E]; [lra|].
    left. apply crps_increasing; [easy|easy|]. rewrite Rminus_diag_eq, Rabs_R0 by easy. apply Rabs_pos_lt. lra. }
  split; [exact L|]. eapply Rlt_le_trans; [|exact L].
  assert (1 < sqrt 2) by (rewrite <- sqrt_1; apply sqrt_lt_1; lra). pose proof PI_RGT_0.
  apply Rmult_lt_0_compat; [apply sqrt_lt_R0; easy|]. apply Rdiv_lt_0_compat; [lra | apply sqrt_lt_R0; lra].
Qed.
Lemma crps_units (cdf : R -> R) (c y_hat y s : R) : 0 < c -> 0 < s -> crps_cell cdf (c * y_hat) (c * y) (c ^ 2 * s) = c * crps_cell cdf y_hat y s.
Proof.
  intros C S. rewrite !crps_shape. replace (sqrt (c ^ 2 * s)) with (c * sqrt s).
  - replace ((c * y - c * y_hat) / (c * sqrt s)) with ((y - y_hat) / sqrt s); [ring|].
    field. pose proof (sqrt_lt_R0 s S). split; lra.
  - rewrite sqrt_mult_alt by (apply pow2_ge_0). rewrite sqrt_pow2 by lra. reflexivity.
Qed.
