(** Proofs about the estimation of the copula. *)
From Coq Require Import List ZArith Bool Arith Reals Lra Lia.
From Verif Require Import Model.Series Model.Subsample Model.Stats Model.Quantiles Model.Metrics Model.FourierEs
  Model.ScenGen Model.CopulaFit Spec.SubsampleSpec Spec.QuantilesSpec Spec.ScenGenSpec Spec.CopulaFitSpec
  Proof.SubsampleProof Proof.QuantilesProof Proof.FourierProof Proof.ScenGenProof Proof.ScenGenProof2.
Import ListNotations.
Local Open Scope R_scope.

Lemma total_rsum f n : total f n = rsum f n.
Proof. induction n as [|n IH]; cbn; [reflexivity|]. now rewrite IH. Qed.

Definition dot (xs : nat -> nat -> R) (n i j : nat) : R := rsum (fun r => deviation xs n r i * deviation xs n r j) n.

Lemma dot_sym xs n i j : dot xs n i j = dot xs n j i.
Proof. unfold dot. apply rsum_ext. intros; ring. Qed.

Lemma dot_covariance xs n i j : (0 < n)%nat -> dot xs n i j = INR n * covariance xs n i j.
Proof.
  intros Hn. assert (N : INR n <> 0) by (apply not_0_INR; lia).
  unfold covariance, mean_of. rewrite (total_rsum (fun r => xs r i)), (total_rsum (fun r => xs r j)), (total_rsum (fun r => xs r i * xs r j)).
  unfold dot, deviation, average.
  set (a := rsum (fun r => xs r i) n / INR n). set (b := rsum (fun r => xs r j) n / INR n).
  rewrite (rsum_ext _ (fun r => xs r i * xs r j + ((- b) * xs r i + ((- a) * xs r j + a * b)))) by (intros; ring).
  rewrite !rsum_plus, !rsum_scal, rsum_const.
  replace (rsum (fun r => xs r i) n) with (INR n * a) by (unfold a; field; exact N).
  replace (rsum (fun r => xs r j) n) with (INR n * b) by (unfold b; field; exact N).
  field. exact N.
Qed.

Lemma rsum_nonneg f n : (forall i, (i < n)%nat -> 0 <= f i) -> 0 <= rsum f n.
Proof. intros H. induction n as [|n IH]; cbn; [lra|]. pose proof (H n ltac:(lia)). pose proof (IH ltac:(intros; apply H; lia)). lra. Qed.

Lemma rsum_zero f n : (forall i, (i < n)%nat -> 0 <= f i) -> rsum f n <= 0 -> forall i, (i < n)%nat -> f i = 0.
Proof.
  intros H. induction n as [|n IH]; intros Hs i Hi; [lia|]. cbn in Hs.
  pose proof (H n ltac:(lia)). pose proof (rsum_nonneg f n ltac:(intros; apply H; lia)).
  destruct (Nat.eq_dec i n) as [->|]; [lra|]. apply IH; [intros; apply H; lia|lra|lia].
Qed.

Lemma dot_pos xs n i : (~ constant_column xs n i) -> 0 < dot xs n i i.
Proof.
  intros Hc. destruct (Rlt_dec 0 (dot xs n i i)) as [H|H]; [exact H|]. exfalso. apply Hc.
  exists (average (fun r => xs r i) n). intros r Hr. unfold dot in H.
  assert (E : deviation xs n r i * deviation xs n r i = 0).
  { apply (rsum_zero (fun r => deviation xs n r i * deviation xs n r i) n); [|lra|exact Hr].
    intros k Hk. pose proof (Rle_0_sqr (deviation xs n k i)). unfold Rsqr in *. lra. }
  apply Rsqr_0_uniq in E. unfold deviation in E. lra.
Qed.

Lemma dot_constant xs n i : constant_column xs n i -> dot xs n i i = 0.
Proof.
  intros [c Hc]. unfold dot. destruct n as [|n]; [reflexivity|].
  rewrite (rsum_ext _ (fun _ => 0)); [rewrite rsum_const; lra|]. intros r Hr. unfold deviation, average.
  rewrite (rsum_ext (fun r => xs r i) (fun _ => c)) by exact Hc. rewrite rsum_const, (Hc r Hr).
  assert (N : INR (S n) <> 0) by (apply not_0_INR; lia). field. exact N.
Qed.

(** [sum_ij w_i w_j dot_ij] is a sum of squares. *)
Lemma gram xs n dim w :
  rsum (fun i => rsum (fun j => w i * dot xs n i j * w j) dim) dim
  = rsum (fun r => rsum (fun i => w i * deviation xs n r i) dim * rsum (fun i => w i * deviation xs n r i) dim) n.
Proof.
  transitivity (rsum (fun i => rsum (fun j => rsum (fun r => w i * deviation xs n r i * (w j * deviation xs n r j)) n) dim) dim).
  { apply rsum_ext. intros i _. apply rsum_ext. intros j _. unfold dot.
    rewrite (rsum_ext (fun r => w i * deviation xs n r i * (w j * deviation xs n r j))
               (fun r => (w i * w j) * (deviation xs n r i * deviation xs n r j))) by (intros; ring).
    rewrite rsum_scal. ring. }
  transitivity (rsum (fun i => rsum (fun r => rsum (fun j => w i * deviation xs n r i * (w j * deviation xs n r j)) dim) n) dim).
  { apply rsum_ext. intros i _. apply rsum_swap. }
  rewrite rsum_swap. apply rsum_ext. intros r _.
  rewrite (rsum_ext _ (fun i => rsum (fun k => w k * deviation xs n r k) dim * (w i * deviation xs n r i))).
  - rewrite rsum_scal. reflexivity.
  - intros i _. rewrite rsum_scal. ring.
Qed.

Lemma gram_nonneg xs n dim w : 0 <= rsum (fun i => rsum (fun j => w i * dot xs n i j * w j) dim) dim.
Proof.
  rewrite gram. apply rsum_nonneg. intros r _.
  pose proof (Rle_0_sqr (rsum (fun i => w i * deviation xs n r i) dim)). unfold Rsqr in *. exact H.
Qed.

Lemma cauchy_schwarz xs n i j : dot xs n i j * dot xs n i j <= dot xs n i i * dot xs n j j.
Proof.
  assert (Q : forall a b, 0 <= a * a * dot xs n i i + 2 * (a * b) * dot xs n i j + b * b * dot xs n j j).
  { intros a b. unfold dot.
    replace (a * a * _ + _ + _) with (rsum (fun r => (a * deviation xs n r i + b * deviation xs n r j) * (a * deviation xs n r i + b * deviation xs n r j)) n).
    - apply rsum_nonneg. intros r _. pose proof (Rle_0_sqr (a * deviation xs n r i + b * deviation xs n r j)). unfold Rsqr in *. lra.
    - rewrite (rsum_ext _ (fun r => a * a * (deviation xs n r i * deviation xs n r i)
         + (2 * (a * b) * (deviation xs n r i * deviation xs n r j) + b * b * (deviation xs n r j * deviation xs n r j)))) by (intros; ring).
      rewrite !rsum_plus, !rsum_scal. ring. }
  set (c := dot xs n i j) in *. set (p := dot xs n i i) in *. set (q := dot xs n j j) in *.
  assert (Hp : 0 <= p). { pose proof (Q 1 0). lra. }
  assert (Hq : 0 <= q). { pose proof (Q 0 1). lra. }
  destruct (Req_dec q 0) as [Eq|Nq].
  - pose proof (Q (- c) ((1 + p) / 1)) as H. rewrite Eq in *. unfold Rdiv in H. rewrite Rinv_1 in H.
    nra.
  - pose proof (Q q (- c)) as H. assert (0 <= q * (p * q - c * c)) by nra.
    apply Rmult_le_reg_l with q; [lra|]. nra.
Qed.

Lemma sqrt_pos_sq x : 0 < x -> 0 < sqrt x /\ sqrt x * sqrt x = x.
Proof. intros H. split; [now apply sqrt_lt_R0|apply sqrt_sqrt; lra]. Qed.

Lemma ratio_bound c p q : 0 < p -> 0 < q -> c * c <= p * q -> -1 <= c / sqrt p / sqrt q <= 1.
Proof.
  intros Hp Hq H. destruct (sqrt_pos_sq p Hp) as [Sp Ep]. destruct (sqrt_pos_sq q Hq) as [Sq Eq].
  assert (E : c = (c / sqrt p / sqrt q) * (sqrt p * sqrt q)) by (field; lra).
  set (t := c / sqrt p / sqrt q) in *. clearbody t.
  assert (H2 : t * t * (p * q) <= 1 * (p * q)).
  { replace (t * t * (p * q)) with (c * c); [lra|].
    transitivity (t * t * ((sqrt p * sqrt p) * (sqrt q * sqrt q))); [rewrite E; ring|now rewrite Ep, Eq]. }
  apply Rmult_le_reg_r in H2; [|nra]. split; nra.
Qed.

Lemma clip1_id x : -1 <= x <= 1 -> clip1 x = x.
Proof. intros H. unfold clip1. rewrite Rmin_right by lra. apply Rmax_right. lra. Qed.

(** The covariances with either divisor have the same ratio. *)
Lemma ratio_scale c p q k : 0 < k -> 0 < p -> 0 < q -> (c / k) / sqrt (p / k) / sqrt (q / k) = c / sqrt p / sqrt q.
Proof.
  intros Hk Hp Hq. destruct (sqrt_pos_sq p Hp) as [Sp _]. destruct (sqrt_pos_sq q Hq) as [Sq _].
  destruct (sqrt_pos_sq k Hk) as [Sk Ek].
  rewrite !sqrt_div_alt by lra. rewrite <- Ek at 1. field. lra.
Qed.

Definition ratio (xs : nat -> nat -> R) (n i j : nat) : R :=
  dot xs n i j / sqrt (dot xs n i i) / sqrt (dot xs n j j).

Lemma ratio_self xs n i : 0 < dot xs n i i -> ratio xs n i i = 1.
Proof. intros H. unfold ratio. destruct (sqrt_pos_sq _ H) as [S E]. rewrite <- E at 1. field. lra. Qed.
Lemma ratio_sym xs n i j : 0 < dot xs n i i -> 0 < dot xs n j j -> ratio xs n i j = ratio xs n j i.
Proof.
  intros Hi Hj. unfold ratio. destruct (sqrt_pos_sq _ Hi) as [Si _]. destruct (sqrt_pos_sq _ Hj) as [Sj _].
  rewrite (dot_sym xs n j i). field. lra.
Qed.

Lemma ratio_correlation xs n i j : (0 < n)%nat -> 0 < dot xs n i i -> 0 < dot xs n j j -> correlation xs n i j (ratio xs n i j).
Proof.
  intros Hn Hi Hj. assert (N : 0 < INR n) by (apply lt_0_INR; lia).
  unfold correlation, variance.
  assert (Vi : covariance xs n i i = dot xs n i i / INR n) by (rewrite dot_covariance by exact Hn; field; lra).
  assert (Vj : covariance xs n j j = dot xs n j j / INR n) by (rewrite dot_covariance by exact Hn; field; lra).
  assert (Vc : covariance xs n i j = dot xs n i j / INR n) by (rewrite (dot_covariance xs n i j) by exact Hn; field; lra).
  rewrite Vi, Vj, Vc. unfold ratio.
  destruct (sqrt_pos_sq _ Hi) as [Si _]. destruct (sqrt_pos_sq _ Hj) as [Sj _]. destruct (sqrt_pos_sq _ N) as [Sn En].
  rewrite !sqrt_div_alt by lra. rewrite <- En at 3. field. lra.
Qed.

Lemma quadratic_ratio xs n dim w : (forall i, (i < dim)%nat -> 0 < dot xs n i i) -> 0 <= quadratic dim (ratio xs n) w.
Proof.
  intros H. unfold quadratic. rewrite total_rsum.
  rewrite (rsum_ext _ (fun i => rsum (fun j => (w i / sqrt (dot xs n i i)) * dot xs n i j * (w j / sqrt (dot xs n j j))) dim)).
  - apply gram_nonneg with (w := fun i => w i / sqrt (dot xs n i i)).
  - intros i Hi. rewrite total_rsum. apply rsum_ext. intros j Hj. unfold ratio.
    destruct (sqrt_pos_sq _ (H i Hi)) as [Si _]. destruct (sqrt_pos_sq _ (H j Hj)) as [Sj _]. field. lra.
Qed.

Lemma diag_sum (f : nat -> R) dim : rsum (fun i => rsum (fun j => if (i =? j)%nat then f i else 0) dim) dim = rsum f dim.
Proof.
  apply rsum_ext. intros i Hi. rewrite (rsum_pick _ dim i Hi).
  - now rewrite Nat.eqb_refl.
  - intros j _ Hn. destruct (Nat.eqb_spec i j); [congruence|reflexivity].
Qed.

Lemma quadratic_diag dim M d w :
  quadratic dim (fun i j => M i j + (if (i =? j)%nat then d i else 0)) w
  = quadratic dim M w + total (fun i => d i * (w i * w i)) dim.
Proof.
  unfold quadratic. rewrite (total_rsum (fun i => d i * (w i * w i))).
  rewrite (total_rsum (fun i => total (fun j => w i * (M i j + (if (i =? j)%nat then d i else 0)) * w j) dim)).
  rewrite (total_rsum (fun i => total (fun j => w i * M i j * w j) dim)).
  rewrite <- (diag_sum (fun i => d i * (w i * w i)) dim), <- rsum_plus.
  apply rsum_ext. intros i _. rewrite !total_rsum, <- rsum_plus. apply rsum_ext. intros j _.
  destruct (Nat.eqb_spec i j) as [->|]; ring.
Qed.

Lemma quadratic_scal dim c M w : quadratic dim (fun i j => c * M i j) w = c * quadratic dim M w.
Proof.
  unfold quadratic. rewrite (total_rsum (fun i => total (fun j => w i * (c * M i j) * w j) dim)).
  rewrite (total_rsum (fun i => total (fun j => w i * M i j * w j) dim)), <- rsum_scal. apply rsum_ext. intros i _. rewrite !total_rsum, <- rsum_scal.
  apply rsum_ext. intros j _. ring.
Qed.

Lemma cov_est_dot d xs n i j : cov_est d xs n i j = dot xs n i j / (INR n - d).
Proof. reflexivity. Qed.

Lemma vanilla_value xs n i j : (2 <= n)%nat -> 0 < dot xs n i i -> 0 < dot xs n j j ->
  corr_vanilla xs n i j = Some (ratio xs n i j + (if (i =? j)%nat then / 1000000 else 0)).
Proof.
  intros Hn Hi Hj. unfold corr_vanilla. destruct (Nat.leb_spec n 1); [lia|].
  assert (K : 0 < INR n - 1). { apply le_INR in Hn. cbn in Hn. lra. }
  rewrite !cov_est_dot.
  destruct (Rlt_dec 0 (dot xs n i i / (INR n - 1))) as [_|C]; [|exfalso; apply C; now apply Rdiv_lt_0_compat].
  destruct (Rlt_dec 0 (dot xs n j j / (INR n - 1))) as [_|C]; [|exfalso; apply C; now apply Rdiv_lt_0_compat].
  rewrite ratio_scale by assumption. rewrite clip1_id by (apply ratio_bound; [assumption..|apply cauchy_schwarz]). reflexivity.
Qed.

Lemma vanilla_correlation :
  forall xs n dim, (2 <= n)%nat -> (forall j, (j < dim)%nat -> ~ constant_column xs n j) ->
  exists M, (forall i j, (i < dim)%nat -> (j < dim)%nat -> corr_est Vanilla xs n dim i j = Some (M i j)) /\
    (forall i j, (i < dim)%nat -> (j < dim)%nat -> M i j = M j i) /\
    (forall i, (i < dim)%nat -> M i i = 1 + / 1000000) /\
    (forall i j, (i < dim)%nat -> (j < dim)%nat -> i <> j -> correlation xs n i j (M i j) /\ -1 <= M i j <= 1) /\
    positive_definite dim M (/ 1000000).
Proof.
  intros xs n dim Hn Hc.
  assert (D : forall i, (i < dim)%nat -> 0 < dot xs n i i) by (intros i Hi; apply dot_pos, Hc, Hi).
  exists (fun i j => ratio xs n i j + (if (i =? j)%nat then / 1000000 else 0)). split; [|split; [|split; [|split]]].
  - intros i j Hi Hj. apply vanilla_value; auto.
  - intros i j Hi Hj. rewrite (ratio_sym xs n i j) by auto. now rewrite (Nat.eqb_sym i j).
  - intros i Hi. rewrite ratio_self, Nat.eqb_refl by auto. reflexivity.
  - intros i j Hi Hj Hne. destruct (Nat.eqb_spec i j); [congruence|]. rewrite Rplus_0_r. split.
    + apply ratio_correlation; [lia|auto..].
    + apply ratio_bound; auto. apply cauchy_schwarz.
  - intros v. rewrite (quadratic_diag dim (ratio xs n) (fun _ => / 1000000)).
    pose proof (quadratic_ratio xs n dim v D). rewrite (total_rsum (fun i => v i * v i)), (total_rsum (fun i => / 1000000 * (v i * v i))), rsum_scal. lra.
Qed.

Lemma mean_variance xs n dim : (0 < n)%nat ->
  rsum (fun k => cov_est 0 xs n k k) dim / INR dim = mean_of (fun k => variance xs n k) dim.
Proof.
  intros Hn. unfold mean_of. rewrite (total_rsum (fun k => variance xs n k)). f_equal. apply rsum_ext. intros k _.
  rewrite cov_est_dot, dot_covariance by exact Hn. unfold variance. assert (N : 0 < INR n) by (apply lt_0_INR; lia). field. lra.
Qed.

Lemma shrunk_value xs n dim i j : (0 < n)%nat -> 0 < dot xs n i i -> 0 < dot xs n j j ->
  corr_shrunk xs n dim i j = Some (9 / 10 * ratio xs n i j
    + (if (i =? j)%nat then 1 / 10 * mean_of (fun k => variance xs n k) dim / variance xs n i else 0)).
Proof.
  intros Hn Hi Hj. unfold corr_shrunk. assert (N : 0 < INR n) by (apply lt_0_INR; lia).
  rewrite mean_variance by exact Hn. rewrite !cov_est_dot.
  replace (INR n - 0) with (INR n) by lra.
  destruct (Rlt_dec 0 (dot xs n i i / INR n)) as [_|C]; [|exfalso; apply C; now apply Rdiv_lt_0_compat].
  destruct (Rlt_dec 0 (dot xs n j j / INR n)) as [_|C]; [|exfalso; apply C; now apply Rdiv_lt_0_compat].
  f_equal. unfold ratio.
  assert (Vi : variance xs n i = dot xs n i i / INR n) by (unfold variance; rewrite (dot_covariance xs n i i) by exact Hn; field; lra).
  rewrite Vi. clear Vi.
  destruct (sqrt_pos_sq _ Hi) as [Si Ei]. destruct (sqrt_pos_sq _ Hj) as [Sj Ej]. destruct (sqrt_pos_sq _ N) as [Sn En].
  destruct (Nat.eqb_spec i j) as [<-|Hne].
  - set (mu := mean_of _ _). rewrite (sqrt_sqrt (dot xs n i i / INR n)) by (left; now apply Rdiv_lt_0_compat).
    replace (dot xs n i i / sqrt (dot xs n i i) / sqrt (dot xs n i i)) with 1 by (rewrite <- Ei at 1; field; lra).
    field. lra.
  - rewrite !sqrt_div_alt by lra. rewrite <- En at 1. field. lra.
Qed.

Lemma variance_dot xs n i : (0 < n)%nat -> variance xs n i = dot xs n i i / INR n.
Proof. intros Hn. assert (N : 0 < INR n) by (apply lt_0_INR; lia). unfold variance. rewrite (dot_covariance xs n i i) by exact Hn. field. lra. Qed.

Lemma shrunk_matrix :
  forall xs n dim, (2 <= n)%nat -> (forall j, (j < dim)%nat -> ~ constant_column xs n j) ->
  exists M, (forall i j, (i < dim)%nat -> (j < dim)%nat -> corr_est Shrunk xs n dim i j = Some (M i j)) /\
    (forall i j, (i < dim)%nat -> (j < dim)%nat -> M i j = M j i) /\
    (forall i, (i < dim)%nat -> M i i = 9 / 10 + 1 / 10 * mean_of (fun k => variance xs n k) dim / variance xs n i) /\
    (forall i j, (i < dim)%nat -> (j < dim)%nat -> i <> j -> correlation xs n i j (10 / 9 * M i j)) /\
    positive_definite dim M 0.
Proof.
  intros xs n dim Hn Hc.
  assert (D : forall i, (i < dim)%nat -> 0 < dot xs n i i) by (intros i Hi; apply dot_pos, Hc, Hi).
  assert (N : 0 < INR n) by (apply lt_0_INR; lia).
  set (mu := mean_of (fun k => variance xs n k) dim).
  exists (fun i j => 9 / 10 * ratio xs n i j + (if (i =? j)%nat then 1 / 10 * mu / variance xs n i else 0)).
  split; [|split; [|split; [|split]]].
  - intros i j Hi Hj. apply shrunk_value; auto; lia.
  - intros i j Hi Hj. rewrite (ratio_sym xs n i j) by auto. rewrite (Nat.eqb_sym i j).
    destruct (Nat.eqb_spec j i) as [->|]; reflexivity.
  - intros i Hi. rewrite ratio_self, Nat.eqb_refl by auto. lra.
  - intros i j Hi Hj Hne. destruct (Nat.eqb_spec i j); [congruence|]. rewrite Rplus_0_r.
    replace (10 / 9 * (9 / 10 * ratio xs n i j)) with (ratio xs n i j) by field.
    apply ratio_correlation; [lia|auto..].
  - intros v. rewrite (quadratic_diag dim (fun i j => 9 / 10 * ratio xs n i j) (fun i => 1 / 10 * mu / variance xs n i)).
    rewrite quadratic_scal. pose proof (quadratic_ratio xs n dim v D) as Q.
    assert (T : 0 <= total (fun i => 1 / 10 * mu / variance xs n i * (v i * v i)) dim).
    { rewrite total_rsum. apply rsum_nonneg. intros i Hi.
      assert (0 < variance xs n i) by (rewrite variance_dot by lia; apply Rdiv_lt_0_compat; auto).
      assert (0 <= mu).
      { unfold mu, mean_of. rewrite total_rsum. apply Rmult_le_pos.
        - apply rsum_nonneg. intros k Hk. rewrite variance_dot by lia. left. apply Rdiv_lt_0_compat; auto.
        - left. apply Rinv_0_lt_compat, lt_0_INR. lia. }
      apply Rmult_le_pos; [|apply Rle_0_sqr]. apply Rmult_le_pos; [lra|]. left. now apply Rinv_0_lt_compat. }
    lra.
Qed.

(** Two rows, two steps; the second step is much more uncertain than the first. *)
Definition uneven (b : R) : nat -> nat -> R := fun r j => INR r * (if (j =? 0)%nat then 1 else b).
Lemma uneven_variance b j : variance (uneven b) 2 j = (if (j =? 0)%nat then 1 else b * b) / 4.
Proof. unfold variance, covariance, mean_of, uneven. cbn. destruct (j =? 0)%nat; field. Qed.
Lemma uneven_not_constant b j : b <> 0 -> ~ constant_column (uneven b) 2 j.
Proof.
  intros Hb [c Hc]. pose proof (Hc 0%nat ltac:(lia)) as H0. pose proof (Hc 1%nat ltac:(lia)) as H1.
  unfold uneven in *. cbn in H0, H1. destruct (j =? 0)%nat; lra.
Qed.

Lemma shrunk_not_correlation :
  forall B, exists xs v, (forall j, (j < 2)%nat -> ~ constant_column xs 2 j) /\
    corr_est Shrunk xs 2 2 0 0 = Some v /\ B < v.
Proof.
  intros B. set (b := 20 * (Rabs B + 1)).
  assert (Hb : 20 <= b) by (unfold b; pose proof (Rabs_pos B); lra).
  destruct (shrunk_matrix (uneven b) 2 2 ltac:(lia) ltac:(intros j _; apply uneven_not_constant; lra)) as (M & E & _ & Hd & _).
  exists (uneven b), (M 0%nat 0%nat). split; [intros j _; apply uneven_not_constant; lra|]. split; [apply E; lia|].
  rewrite Hd by lia. unfold mean_of. cbn [total]. rewrite !uneven_variance. cbn [Nat.eqb INR].
  assert (B <= Rabs B) by apply Rle_abs. assert (b * b >= 20 * b) by nra. unfold b in *. nra.
Qed.

(** A constant step. *)
Lemma constant_none m xs n dim i j : constant_column xs n j -> corr_est m xs n dim i j = None.
Proof.
  intros H. pose proof (dot_constant xs n j H) as E.
  assert (Z : forall d, ~ 0 < cov_est d xs n j j) by (intros d; rewrite cov_est_dot, E; unfold Rdiv; rewrite Rmult_0_l; lra).
  destruct m; cbn; [unfold corr_vanilla|unfold corr_shrunk].
  - destruct (n <=? 1)%nat; [reflexivity|]. destruct (Rlt_dec 0 (cov_est 1 xs n i i)); [|reflexivity].
    destruct (Rlt_dec 0 (cov_est 1 xs n j j)) as [C|_]; [now apply Z in C|reflexivity].
  - destruct (Rlt_dec 0 (cov_est 0 xs n i i)); [|reflexivity].
    destruct (Rlt_dec 0 (cov_est 0 xs n j j)) as [C|_]; [now apply Z in C|reflexivity].
Qed.

Lemma finite_matrix_none dim f i j : (i < dim)%nat -> (j < dim)%nat -> f i j = None -> finite_matrix dim f = false.
Proof.
  intros Hi Hj E. unfold finite_matrix. destruct (forallb _ (seq 0 dim)) eqn:F; [|reflexivity]. exfalso.
  rewrite forallb_forall in F. specialize (F i ltac:(apply in_seq; lia)). rewrite forallb_forall in F.
  specialize (F j ltac:(apply in_seq; lia)). now rewrite E in F.
Qed.

Lemma rows_at_in {A} (hours : list Z) h (rows : list A) r : In r (rows_at hours h rows) ->
  exists i, nth_error hours i = Some h /\ nth_error rows i = Some r.
Proof.
  unfold rows_at. intros H. apply in_map_iff in H. destruct H as ((z, r') & E & H). cbn in E. subst r'.
  apply filter_In in H. destruct H as [H Ez]. cbn in Ez. apply Z.eqb_eq in Ez. subst z.
  apply In_nth_error in H. destruct H as [i Hi]. exists i.
  revert rows i Hi. induction hours as [|a hours IH]; intros rows i Hi; [destruct i; discriminate|].
  destruct rows as [|b rows]; [destruct i; discriminate|]. destruct i as [|i]; cbn in *; [now inversion Hi|]. now apply IH.
Qed.

(** The errors of hour [h] at step [j] are all equal to [c]. *)
Lemma constant_step_fails :
  forall m cdf fit_hours errs dim n_scen hours draws h j c,
  In h hours -> (j < dim)%nat ->
  (forall i e, nth_error fit_hours i = Some h -> nth_error errs i = Some e -> nth j e 0 = c) ->
  copula_fit_sample m cdf fit_hours errs dim n_scen hours draws = None.
Proof.
  intros m cdf fh errs dim ns hours draws h j c Hh Hj Hc. unfold copula_fit_sample.
  destruct (forallb _ (unique_hours hours)) eqn:F; [|reflexivity]. exfalso.
  rewrite forallb_forall in F. specialize (F h ltac:(now apply unique_hours_in)).
  rewrite (finite_matrix_none dim _ j j Hj Hj) in F; [discriminate|].
  apply constant_none. exists c. intros r Hr. unfold hour_data.
  destruct (rows_at_in fh h errs (nth r (rows_at fh h errs) []) ltac:(apply nth_In; exact Hr)) as (i & H1 & H2).
  exact (Hc i _ H1 H2).
Qed.

(** Otherwise sampling does what the sampling step alone does. *)
Lemma varying_steps_sample :
  forall m cdf fit_hours errs dim n_scen hours draws,
  (forall h, In h hours -> (2 <= length (rows_at fit_hours h errs))%nat /\
     forall j, (j < dim)%nat -> ~ constant_column (hour_data fit_hours errs h) (length (rows_at fit_hours h errs)) j) ->
  copula_fit_sample m cdf fit_hours errs dim n_scen hours draws = copula_sample cdf fit_hours dim n_scen hours draws.
Proof.
  intros m cdf fh errs dim ns hours draws H. unfold copula_fit_sample.
  replace (forallb _ (unique_hours hours)) with true; [reflexivity|]. symmetry. apply forallb_forall. intros h Hh.
  apply (proj1 (unique_hours_in _ _)) in Hh. destruct (H h Hh) as [Hn Hc].
  unfold finite_matrix. apply forallb_forall. intros i Hi. apply forallb_forall. intros j Hj.
  apply in_seq in Hi, Hj. unfold hour_cov. destruct m.
  - destruct (vanilla_correlation _ _ dim Hn Hc) as (M & E & _). rewrite E by lia. reflexivity.
  - destruct (shrunk_matrix _ _ dim Hn Hc) as (M & E & _). rewrite E by lia. reflexivity.
Qed.

(** Rows alone in their hour, with equal covariances, get the same samples. *)
Lemma same_draws :
  forall rvs seed m cdf fit_hours errs dim n_scen hours i i',
  n_scen <> 1%nat -> (1 <= dim)%nat -> incl hours fit_hours ->
  (forall h, In h hours -> (2 <= length (rows_at fit_hours h errs))%nat /\
     forall j, (j < dim)%nat -> ~ constant_column (hour_data fit_hours errs h) (length (rows_at fit_hours h errs)) j) ->
  (i < length hours)%nat -> (i' < length hours)%nat ->
  rows_of_hour hours (nth i hours 0%Z) = 1%nat -> rows_of_hour hours (nth i' hours 0%Z) = 1%nat ->
  hour_cov m fit_hours errs dim (nth i hours 0%Z) = hour_cov m fit_hours errs dim (nth i' hours 0%Z) ->
  exists s, copula_fit_sample m cdf fit_hours errs dim n_scen hours
              (seeded_draws rvs seed m fit_hours errs dim n_scen hours) = Some s /\
    forall j k, (j < dim)%nat -> (k < n_scen)%nat -> a_at s i j k = a_at s i' j k.
Proof.
  intros rvs seed m cdf fh errs dim ns hours i i' Hs Hd Hf Hv Hi Hi' H1 H1' Ec.
  rewrite (varying_steps_sample m cdf fh errs dim ns hours _ Hv).
  destruct (copula_sample_correct cdf fh dim ns hours (seeded_draws rvs seed m fh errs dim ns hours) Hs Hd Hf)
    as (a & rank & -> & _ & _ & _ & Hr & Ha).
  exists a. split; [reflexivity|]. intros j k Hj Hk. rewrite !Ha by assumption.
  destruct (Hr i Hi) as [R _]. destruct (Hr i' Hi') as [R' _].
  replace (rank i) with 0%nat by lia. replace (rank i') with 0%nat by lia.
  unfold seeded_draws, count_hour. unfold rows_of_hour in H1, H1'. now rewrite Ec, H1, H1'.
Qed.

(** The same seed: the scenarios differ only by the added noise. *)
Lemma seeded_noise :
  forall rvs seed m cdf fit_hours errs q_vect init nz nz' steps n_scen hours quantiles k f,
  seeded_scenarios rvs seed m cdf fit_hours errs q_vect false init nz steps n_scen hours quantiles = Some (k, f) ->
  exists f', seeded_scenarios rvs seed m cdf fit_hours errs q_vect false init nz' steps n_scen hours quantiles = Some (k, f') /\
    forall i j s v, f i j s = Some v -> exists v', f' i j s = Some v' /\
      v' - v = (n_normal nz' i j s - n_normal nz i j s) * / 1000000000.
Proof.
  intros rvs seed m cdf fh errs q init nz nz' steps ns hours quantiles k f H. unfold seeded_scenarios in *.
  destruct (copula_fit_sample _ _ _ _ _ _ _ _) as [s|]; [|discriminate]. unfold sample_scenarios in *.
  eexists. split.
  - assert (Ek : steps = k) by exact (f_equal (fun o => match o with Some (z, _) => z | None => k end) H). rewrite <- Ek. reflexivity.
  - assert (Ef : f = fun i j s0 => option_map (fun v => v + n_normal nz i j s0 * / 1000000000) (interp1d q (quantiles i j) (a_at s i j s0))).
    { symmetry. exact (f_equal (fun o => match o with Some (_, z) => z | None => f end) H). }
    rewrite Ef. intros i j s0 v Hv. cbn beta. destruct (interp1d q (quantiles i j) (a_at s i j s0)) as [u|]; [|discriminate].
    cbn in Hv |- *. eexists. split; [reflexivity|]. assert (v = u + n_normal nz i j s0 * / 1000000000) by congruence. lra.
Qed.

(** With an additional node: the observations first, then the scenarios of the same seed without it. *)
Lemma seeded_additional :
  forall rvs seed m cdf fit_hours errs q_vect obs nz nz' steps n_scen hours quantiles k f,
  seeded_scenarios rvs seed m cdf fit_hours errs q_vect false None nz steps n_scen hours quantiles = Some (k, f) ->
  length obs = length hours ->
  exists f', seeded_scenarios rvs seed m cdf fit_hours errs q_vect true (Some obs) nz' steps n_scen hours quantiles = Some (S k, f') /\
    (forall i s, f' i 0%nat s = Some (nth i obs 0 + n_uniform nz' i s * / 1000000 + n_normal nz' i 0%nat s * / 1000000000)) /\
    forall i j s v, f i j s = Some v -> exists v', f' i (S j) s = Some v' /\
      v' - v = (n_normal nz' i (S j) s - n_normal nz i j s) * / 1000000000.
Proof.
  unfold seeded_scenarios. intros rvs seed m cdf fh errs q obs nz nz' steps ns hours qu k f.
  destruct (copula_fit_sample _ _ _ _ _ _ _ _) as [a|]; [|discriminate].
  unfold sample_scenarios. intros [= <- <-] L. rewrite L, Nat.eqb_refl. eexists. split; [reflexivity|]. split; [reflexivity|].
  intros i j s v. destruct (interp1d q (qu i j) (a_at a i j s)) as [w|]; cbn; [|discriminate].
  intros [= <-]. eexists. split; [reflexivity|]. lra.
Qed.
Lemma seeded_additional_length :
  forall rvs seed m cdf fit_hours errs q_vect obs nz steps n_scen hours quantiles,
  length obs <> length hours ->
  seeded_scenarios rvs seed m cdf fit_hours errs q_vect true (Some obs) nz steps n_scen hours quantiles = None.
Proof.
  unfold seeded_scenarios. intros. destruct (copula_fit_sample _ _ _ _ _ _ _ _) as [a|]; [|reflexivity].
  unfold sample_scenarios. destruct (Nat.eqb_spec (length obs) (length hours)); [contradiction|reflexivity].
Qed.
Lemma seeded_differs :
  forall rvs seed m cdf fit_hours errs q_vect init nz steps n_scen hours quantiles k f i j s v,
  seeded_scenarios rvs seed m cdf fit_hours errs q_vect false init nz steps n_scen hours quantiles = Some (k, f) ->
  f i j s = Some v ->
  exists nz' f' v', seeded_scenarios rvs seed m cdf fit_hours errs q_vect false init nz' steps n_scen hours quantiles = Some (k, f') /\
    f' i j s = Some v' /\ v' <> v.
Proof.
  intros rvs seed m cdf fh errs q init nz steps ns hours quantiles k f i j s v H Hv.
  set (nz' := Noise (n_uniform nz) (fun a b c => n_normal nz a b c + 1)).
  destruct (seeded_noise rvs seed m cdf fh errs q init nz nz' steps ns hours quantiles k f H) as (f' & E & Hf).
  destruct (Hf i j s v Hv) as (v' & Ev & D). exists nz', f', v'. split; [exact E|]. split; [exact Ev|].
  unfold nz' in D. cbn in D. assert (0 < / 1000000000) by (apply Rinv_0_lt_compat; lra). nra.
Qed.

(** The hour glasso is tuned on. *)
Lemma insert_count_sorted p l : (forall q, In q l -> (snd q <= snd (hd p l))%nat) ->
  forall q, In q (insert_count p l) -> (snd q <= snd (hd p (insert_count p l)))%nat.
Proof.
  intros H q Hq. destruct l as [|a l]; cbn [insert_count hd] in *.
  - destruct Hq as [<-|[]]. lia.
  - destruct (snd a <? snd p)%nat eqn:E; cbn [hd] in *.
    + apply Nat.ltb_lt in E. destruct Hq as [<-|Hq]; [lia|]. specialize (H q Hq). lia.
    + apply Nat.ltb_ge in E. destruct Hq as [<-|Hq]; [lia|].
      assert (G : forall l, In q (insert_count p l) -> q = p \/ In q l).
      { clear. induction l as [|b l IH]; cbn [insert_count In]; intros H; [destruct H as [<-|[]]; auto|].
        destruct (snd b <? snd p)%nat; cbn [In] in H; [destruct H as [<-|H]; auto|]. destruct H as [<-|H]; [auto|]. apply IH in H. tauto. }
      apply G in Hq. destruct Hq as [->|Hq]; [lia|]. apply (H q). now right.
Qed.

Lemma value_counts_head hours : forall q, In q (value_counts hours) -> (snd q <= snd (hd (0%Z, 0%nat) (value_counts hours)))%nat.
Proof.
  unfold value_counts.
  assert (G : forall us l, (forall q, In q l -> (snd q <= snd (hd (0%Z, 0%nat) l))%nat) ->
     forall q, In q (fold_left (fun l h => insert_count (h, count_hour hours h) l) us l) ->
       (snd q <= snd (hd (0%Z, 0%nat) (fold_left (fun l h => insert_count (h, count_hour hours h) l) us l)))%nat).
  { induction us as [|u us IH]; intros l H q Hq; [now apply H|]. cbn [fold_left] in *. apply (IH (insert_count (u, count_hour hours u) l)); [|exact Hq].
    intros q' Hq'. set (p := (u, count_hour hours u)) in *.
    assert (Hd : forall d d' (l : list (Z * nat)), l <> [] -> hd d l = hd d' l) by (intros d d' [|? ?] ?; [congruence|reflexivity]).
    assert (Hl : insert_count p l <> []) by (destruct l as [|a l]; cbn [insert_count]; [discriminate|destruct (snd a <? snd p)%nat; discriminate]).
    rewrite (Hd _ p) by exact Hl. apply insert_count_sorted; [|exact Hq'].
    intros q'' Hq''. specialize (H q'' Hq''). rewrite (Hd _ p) in H; [exact H|]. destruct l; [contradiction|discriminate]. }
  apply G. intros q Hq. contradiction Hq.
Qed.

Lemma glasso_hour_zero : forall hours, glasso_cv_hour hours = 0%Z.
Proof.
  intros hours. unfold glasso_cv_hour. pose proof (value_counts_head hours) as H.
  destruct (value_counts hours) as [|a l]; [reflexivity|]. cbn [map argmax hd] in *.
  replace (maximum (map snd l) <=? snd a)%nat with true; [reflexivity|]. symmetry. apply Nat.leb_le.
  assert (G : forall l b, (forall q, In q l -> (snd q <= b)%nat) -> (maximum (map (@snd Z nat) l) <= b)%nat).
  { clear. induction l as [|q l IH]; intros b H; [cbn; lia|]. cbn [map]. rewrite maximum_cons.
    pose proof (H q (or_introl eq_refl)). pose proof (IH b ltac:(intros; apply H; now right)). lia. }
  apply G. intros q Hq. apply H. now right.
Qed.

Lemma glasso_hour_wrong :
  exists hours, in_day hours /\ ~ In (glasso_cv_hour hours) hours /\ forall h, most_frequent hours h -> h <> glasso_cv_hour hours.
Proof.
  exists [7; 7; 8]%Z. rewrite glasso_hour_zero. split; [|split].
  - intros h. cbn. lia.
  - cbn. lia.
  - intros h [H _] ->. cbn in H. lia.
Qed.
(** Rows of the same hour get different draws. *)
Lemma same_hour_draws :
  forall rvs seed m cdf fit_hours errs dim n_scen hours i i',
  n_scen <> 1%nat -> (1 <= dim)%nat -> incl hours fit_hours ->
  (forall h, In h hours -> (2 <= length (rows_at fit_hours h errs))%nat /\
     forall j, (j < dim)%nat -> ~ constant_column (hour_data fit_hours errs h) (length (rows_at fit_hours h errs)) j) ->
  (i < length hours)%nat -> (i' < length hours)%nat -> i <> i' -> nth i hours 0%Z = nth i' hours 0%Z ->
  (forall cov shape p p', p <> p' -> rvs seed cov shape p <> rvs seed cov shape p') -> (forall u v, cdf u = cdf v -> u = v) ->
  exists s, copula_fit_sample m cdf fit_hours errs dim n_scen hours
              (seeded_draws rvs seed m fit_hours errs dim n_scen hours) = Some s /\
    forall j k, (j < dim)%nat -> (k < n_scen)%nat -> a_at s i j k <> a_at s i' j k.
Proof.
  intros rvs seed m cdf fh errs dim ns hours i i' Hs Hd Hf Hv Hi Hi' Ne Eh Hr Hc.
  rewrite (varying_steps_sample m cdf fh errs dim ns hours _ Hv).
  destruct (copula_sample_correct cdf fh dim ns hours (seeded_draws rvs seed m fh errs dim ns hours) Hs Hd Hf)
    as (a & rank & -> & _ & _ & _ & Hk & Ha).
  exists a. split; [reflexivity|]. intros j k Hj Hk'. rewrite !Ha by assumption. rewrite Eh. intros E. apply Hc in E. unfold seeded_draws in E. revert E. apply Hr.
  intros E. apply Ne. apply (Hk i Hi); auto. congruence.
Qed.
Lemma glasso_hour_right : forall hours, most_frequent hours (glasso_cv_hour hours) <-> most_frequent hours 0%Z.
Proof. intros hours. now rewrite glasso_hour_zero. Qed.
