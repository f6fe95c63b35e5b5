(** The loss of scenario trees. *)
From Coq Require Import List Bool Arith Reals Lra Lia.
From Verif Require Import Model.Stats Model.FourierEs Model.TreeBuild Model.TreeLoss Spec.CopulaFitSpec Spec.TreeBuildSpec Spec.TreeLossSpec
  Proof.FourierProof Proof.CopulaFitProof Proof.PicnnProof Proof.TreeBuildProof3.
Import ListNotations.
Local Open Scope R_scope.

Lemma min_below_le f n l : (l < n)%nat -> min_below f n <= f l.
Proof.
  induction n as [|n IH]; [lia|]. intros Hl. destruct n as [|n]; [replace l with 0%nat by lia; cbn; lra|].
  change (min_below f (S (S n))) with (Rmin (min_below f (S n)) (f (S n))). destruct (Nat.eq_dec l (S n)) as [->|]; [apply Rmin_r|].
  eapply Rle_trans; [apply Rmin_l|]. apply IH. lia.
Qed.
Lemma min_below_in f n : (0 < n)%nat -> exists l, (l < n)%nat /\ min_below f n = f l.
Proof.
  induction n as [|n IH]; [lia|]. intros _. destruct n as [|n]; [exists 0%nat; split; [lia|reflexivity]|].
  change (min_below f (S (S n))) with (Rmin (min_below f (S n)) (f (S n))). destruct IH as (l & Hl & E); [lia|].
  destruct (Rle_dec (min_below f (S n)) (f (S n))) as [H|H].
  - exists l. split; [lia|]. rewrite Rmin_left by exact H. exact E.
  - exists (S n). split; [lia|]. apply Rmin_right. lra.
Qed.
Lemma min_below_ext f g n : (forall l, (l < n)%nat -> f l = g l) -> min_below f n = min_below g n.
Proof.
  induction n as [|n IH]; intros H; [reflexivity|]. destruct n as [|n]; [cbn; apply H; lia|].
  change (Rmin (min_below f (S n)) (f (S n)) = Rmin (min_below g (S n)) (g (S n))). rewrite IH by (intros; apply H; lia). now rewrite H by lia.
Qed.
Lemma min_below_scal k f n : 0 <= k -> min_below (fun l => k * f l) n = k * min_below f n.
Proof.
  intros Hk. induction n as [|n IH]; [cbn; ring|]. destruct n as [|n]; [reflexivity|].
  change (Rmin (min_below (fun l => k * f l) (S n)) (k * f (S n)) = k * Rmin (min_below f (S n)) (f (S n))). rewrite IH.
  unfold Rmin. destruct (Rle_dec (k * min_below f (S n)) (k * f (S n))) as [A|A], (Rle_dec (min_below f (S n)) (f (S n))) as [B|B]; try reflexivity; try nra.
Qed.

Section Loss.
Context (T L N : nat) (idx : nat -> nat -> nat) (scens : nat -> nat -> R).
Notation D vals n l := (compute_distances T (fun t l => nth (idx t l) vals 0) (fun t => scens t n) l).
Notation loss := (metric_loss T L N idx scens).

Lemma distance_spec vals n l : D vals n l = path_distance T idx scens vals n l.
Proof. unfold compute_distances, path_distance, mean_of. reflexivity. Qed.
Lemma D_nonneg vals n l : (0 < T)%nat -> 0 <= D vals n l.
Proof.
  intros HT. unfold compute_distances. apply Rmult_le_pos; [apply rsum_nonneg; intros; rewrite <- Rsqr_pow2; apply Rle_0_sqr|]. left. apply Rinv_0_lt_compat, lt_0_INR, HT.
Qed.
Lemma D_zero vals n l : (0 < T)%nat -> D vals n l = 0 -> forall t, (t < T)%nat -> scens t n = nth (idx t l) vals 0.
Proof.
  intros HT E t Ht. unfold compute_distances in E. pose proof (lt_0_INR T HT).
  assert (Z : rsum (fun t => (scens t n - nth (idx t l) vals 0) ^ 2) T = 0).
  { apply (Rmult_eq_compat_r (INR T)) in E. unfold Rdiv in E. rewrite Rmult_assoc, Rinv_l, Rmult_1_r, Rmult_0_l in E by lra. exact E. }
  pose proof (rsum_zero (fun t => (scens t n - nth (idx t l) vals 0) ^ 2) T ltac:(intros; cbn beta; rewrite <- Rsqr_pow2; apply Rle_0_sqr) ltac:(lra) t Ht) as Q.
  cbn beta in Q. rewrite <- Rsqr_pow2 in Q. apply Rsqr_0_uniq in Q. lra.
Qed.

(** Weighted distances. *)
Definition weighted (w : nat -> nat -> R) (vals : list R) : R := rsum (fun n => rsum (fun l => w n l * D vals n l) L) N.
Lemma loss_below w vals : (forall n, (n < N)%nat -> (forall l, (l < L)%nat -> 0 <= w n l) /\ rsum (w n) L = 1) -> loss vals <= weighted w vals.
Proof.
  intros H. unfold metric_loss, weighted. apply rsum_le. intros n Hn. destruct (H n Hn) as [A B].
  rewrite <- (Rmult_1_r (min_below _ _)), <- B, <- rsum_scal. apply rsum_le. intros l Hl. rewrite Rmult_comm. apply Rmult_le_compat_l; [now apply A|].
  apply (min_below_le (compute_distances T (fun t l => nth (idx t l) vals 0) (fun t => scens t n))). exact Hl.
Qed.
Lemma loss_weighted shares vals : (0 < L)%nat -> tie_shares T L N idx scens shares -> loss vals = weighted (shares vals) vals.
Proof.
  intros HL H. unfold metric_loss, weighted. apply rsum_ext. intros n Hn. destruct (H vals n Hn) as (A & B & C). rewrite total_rsum in B.
  set (f := compute_distances T (fun t l => nth (idx t l) vals 0) (fun t => scens t n)).
  transitivity (rsum (fun l => min_below f L * shares vals n l) L); [rewrite rsum_scal, B; ring|]. apply rsum_ext. intros l Hl.
  destruct (Req_EM_T (shares vals n l) 0) as [E|E]; [rewrite E; ring|]. rewrite Rmult_comm. f_equal.
  destruct (C l Hl E) as [_ M]. destruct (min_below_in f L HL) as (l0 & Hl0 & E0). apply Rle_antisym; [apply min_below_le, Hl|]. rewrite E0. unfold f. rewrite !distance_spec. now apply M.
Qed.

Definition moved_vals (h : nat -> R) (vals vals' : list R) : Prop := forall i, nth i vals' 0 = nth i vals 0 - h i.
Definition grad_at (w : nat -> nat -> R) (vals : list R) (i : nat) : R :=
  rsum (fun n => rsum (fun l => w n l * rsum (fun t => if (idx t l =? i)%nat then 2 * (nth i vals 0 - scens t n) / INR T else 0) T) L) N.
Definition visits (w : nat -> nat -> R) (i : nat) : R := rsum (fun n => rsum (fun l => w n l * rsum (fun t => if (idx t l =? i)%nat then 1 else 0) T) L) N.
Lemma weighted_change w K h vals vals' : (0 < T)%nat -> (forall t l, (t < T)%nat -> (l < L)%nat -> (idx t l < K)%nat) -> moved_vals h vals vals' ->
  weighted w vals' - weighted w vals = rsum (fun i => h i * (h i * visits w i / INR T - grad_at w vals i)) K.
Proof.
  intros HT HK Hm. pose proof (lt_0_INR T HT) as PT.
  assert (P : forall n l, (l < L)%nat -> D vals' n l - D vals n l =
    rsum (fun i => (- h i) * rsum (fun t => if (idx t l =? i)%nat then 2 * (nth i vals 0 - scens t n) / INR T else 0) T + h i * h i / INR T * rsum (fun t => if (idx t l =? i)%nat then 1 else 0) T) K).
  { intros n l Hl. unfold compute_distances.
    transitivity (rsum (fun t => rsum (fun i => (- h i) * (if (idx t l =? i)%nat then 2 * (nth i vals 0 - scens t n) / INR T else 0) + h i * h i / INR T * (if (idx t l =? i)%nat then 1 else 0)) K) T).
    - replace (rsum (fun t => (scens t n - nth (idx t l) vals' 0) ^ 2) T / INR T - rsum (fun t => (scens t n - nth (idx t l) vals 0) ^ 2) T / INR T)
        with (/ INR T * rsum (fun t => (scens t n - nth (idx t l) vals' 0) ^ 2) T + (- / INR T) * rsum (fun t => (scens t n - nth (idx t l) vals 0) ^ 2) T) by (unfold Rdiv; ring).
      rewrite <- !rsum_scal, <- rsum_plus. apply rsum_ext. intros t Ht.
      rewrite (rsum_pick _ K (idx t l)); [|now apply HK|intros i _ Hi; destruct (Nat.eqb_spec (idx t l) i); [congruence|ring]].
      rewrite Nat.eqb_refl, Hm. field. lra.
    - rewrite rsum_swap. apply rsum_ext. intros i _. now rewrite rsum_plus, !rsum_scal. }
  unfold weighted.
  transitivity (rsum (fun n => rsum (fun l => w n l * (D vals' n l - D vals n l)) L) N).
  { transitivity (rsum (fun n => rsum (fun l => w n l * D vals' n l) L + (-1) * rsum (fun l => w n l * D vals n l) L) N).
    - rewrite rsum_plus, rsum_scal. ring.
    - apply rsum_ext. intros n _. rewrite <- rsum_scal, <- rsum_plus. apply rsum_ext. intros l _. ring. }
  transitivity (rsum (fun n => rsum (fun l => rsum (fun i => w n l * ((- h i) * rsum (fun t => if (idx t l =? i)%nat then 2 * (nth i vals 0 - scens t n) / INR T else 0) T + h i * h i / INR T * rsum (fun t => if (idx t l =? i)%nat then 1 else 0) T)) K) L) N).
  { apply rsum_ext. intros n _. apply rsum_ext. intros l Hl. rewrite P by exact Hl. now rewrite rsum_scal. }
  transitivity (rsum (fun n => rsum (fun i => rsum (fun l => w n l * ((- h i) * rsum (fun t => if (idx t l =? i)%nat then 2 * (nth i vals 0 - scens t n) / INR T else 0) T + h i * h i / INR T * rsum (fun t => if (idx t l =? i)%nat then 1 else 0) T)) L) K) N).
  { apply rsum_ext. intros n _. apply rsum_swap. }
  rewrite rsum_swap. apply rsum_ext. intros i _. unfold grad_at, visits.
  transitivity ((- h i) * rsum (fun n => rsum (fun l => w n l * rsum (fun t => if (idx t l =? i)%nat then 2 * (nth i vals 0 - scens t n) / INR T else 0) T) L) N
    + (h i * h i / INR T) * rsum (fun n => rsum (fun l => w n l * rsum (fun t => if (idx t l =? i)%nat then 1 else 0) T) L) N); [|unfold Rdiv; ring].
  rewrite <- !rsum_scal, <- rsum_plus. apply rsum_ext. intros n _. rewrite <- !rsum_scal, <- rsum_plus. apply rsum_ext. intros l _. ring.
Qed.

Lemma meets_once l i : (l < L)%nat -> once T L idx -> 0 <= rsum (fun t => if (idx t l =? i)%nat then 1 else 0) T <= 1.
Proof.
  intros Hl H. split; [apply rsum_nonneg; intros t _; destruct (_ =? _)%nat; lra|].
  assert (G : forall m, (m <= T)%nat -> rsum (fun t => if (idx t l =? i)%nat then 1 else 0) m <= 1); [|now apply G].
  induction m as [|m IH]; intros Hm; cbn [rsum]; [lra|]. destruct (Nat.eqb_spec (idx m l) i) as [E|E]; [|specialize (IH ltac:(lia)); lra].
  rewrite (rsum_ext _ (fun _ => 0)); [rewrite rsum_const; lra|]. intros t Ht. destruct (Nat.eqb_spec (idx t l) i) as [E'|]; [|reflexivity].
  exfalso. assert (t = m) by (apply (H t m l); [lia|lia|exact Hl|congruence]). lia.
Qed.
Lemma visits_bound w i : once T L idx -> (forall n, (n < N)%nat -> (forall l, (l < L)%nat -> 0 <= w n l) /\ rsum (w n) L = 1) -> 0 <= visits w i <= INR N.
Proof.
  intros Ho H. unfold visits. split.
  - apply rsum_nonneg. intros n Hn. apply rsum_nonneg. intros l Hl. apply Rmult_le_pos; [now apply H|]. now apply meets_once.
  - rewrite <- (Rmult_1_r (INR N)), <- rsum_const. apply rsum_le. intros n Hn. destruct (H n Hn) as [A B]. apply Rle_trans with (rsum (w n) L); [|right; exact B]. apply rsum_le. intros l Hl.
    rewrite <- (Rmult_1_r (w n l)) at 2. apply Rmult_le_compat_l; [now apply A|]. now apply meets_once.
Qed.
Definition step (shares : list R -> nat -> nat -> R) (r : R) (vals : list R) : list R :=
  map (fun p => fst p - snd p * r) (combine vals (loss_gradient T L N idx scens shares vals)).
Lemma step_nth shares r vals i : nth i (step shares r vals) 0 = nth i vals 0 - (if (i <? length vals)%nat then grad_at (shares vals) vals i * r else 0).
Proof.
  unfold step. set (G := loss_gradient T L N idx scens shares vals). assert (LG : length G = length vals) by (unfold G, loss_gradient; now rewrite map_length, seq_length).
  destruct (Nat.ltb_spec i (length vals)) as [Hi|Hi].
  - rewrite (nth_indep _ 0 (fst (0, 0) - snd (0, 0) * r)) by (rewrite map_length, combine_length; lia). rewrite (map_nth (fun p : R * R => fst p - snd p * r) (combine vals G) (0, 0)), combine_nth by (now symmetry). cbn [fst snd].
    f_equal. f_equal. unfold G, loss_gradient. fold (grad_at (shares vals) vals). change (nth i (map (grad_at (shares vals) vals) (seq 0 (length vals))) 0 = grad_at (shares vals) vals i).
    rewrite (nth_indep _ 0 (grad_at (shares vals) vals 0%nat)) by (rewrite map_length, seq_length; lia). rewrite map_nth, seq_nth by lia. reflexivity.
  - rewrite !nth_overflow by (try rewrite map_length, combine_length; lia). ring.
Qed.
Lemma step_descends shares r vals : (0 < T)%nat -> (0 < L)%nat -> once T L idx -> tie_shares T L N idx scens shares -> 0 <= r -> r * INR N <= INR T ->
  loss (step shares r vals) <= loss vals.
Proof.
  intros HT HL Ho Hs Hr HN. pose proof (lt_0_INR T HT) as PT.
  assert (Hw : forall n, (n < N)%nat -> (forall l, (l < L)%nat -> 0 <= shares vals n l) /\ rsum (shares vals n) L = 1).
  { intros n Hn. destruct (Hs vals n Hn) as (A & B & _). rewrite total_rsum in B. auto. }
  assert (HK : exists K, forall t l, (t < T)%nat -> (l < L)%nat -> (idx t l < K)%nat).
  { exists (S (fold_right Nat.max 0%nat (map (fun p => idx (fst p) (snd p)) (list_prod (seq 0 T) (seq 0 L))))). intros t l Ht Hl.
    assert (G : forall (l0 : list nat) a, In a l0 -> (a <= fold_right Nat.max 0 l0)%nat) by (induction l0 as [|b l0 IH]; intros a Ha; cbn; [contradiction|destruct Ha as [->|Ha]; [lia|specialize (IH a Ha); lia]]).
    apply Nat.lt_succ_r, G. apply in_map_iff. exists (t, l). split; [reflexivity|]. apply in_prod; apply in_seq; lia. }
  destruct HK as [K HK]. eapply Rle_trans; [apply (loss_below (shares vals)), Hw|]. rewrite (loss_weighted shares vals HL Hs).
  pose proof (weighted_change (shares vals) K _ vals (step shares r vals) HT HK (fun i => step_nth shares r vals i)) as E.
  enough (rsum (fun i => - ((if (i <? length vals)%nat then grad_at (shares vals) vals i * r else 0) * ((if (i <? length vals)%nat then grad_at (shares vals) vals i * r else 0) * visits (shares vals) i / INR T - grad_at (shares vals) vals i))) K >= 0).
  { rewrite (rsum_ext _ (fun i => (-1) * ((if (i <? length vals)%nat then grad_at (shares vals) vals i * r else 0) * ((if (i <? length vals)%nat then grad_at (shares vals) vals i * r else 0) * visits (shares vals) i / INR T - grad_at (shares vals) vals i)))) in H by (intros; ring).
    rewrite rsum_scal in H. lra. }
  apply Rle_ge, rsum_nonneg. intros i _. destruct (i <? length vals)%nat; [|lra]. set (g := grad_at (shares vals) vals i). destruct (visits_bound (shares vals) i Ho Hw) as [V0 V1]. set (v := visits (shares vals) i) in *.
  replace (- (g * r * (g * r * v / INR T - g))) with (Rsqr g * (r * (1 - r * v / INR T))) by (unfold Rsqr, Rdiv; ring).
  apply Rmult_le_pos; [apply Rle_0_sqr|]. apply Rmult_le_pos; [exact Hr|].
  assert (r * v <= INR T) by (eapply Rle_trans; [apply Rmult_le_compat_l; [exact Hr|exact V1]|exact HN]).
  assert (r * v / INR T <= 1); [|lra]. apply (Rmult_le_reg_r (INR T)); [exact PT|]. unfold Rdiv. rewrite Rmult_assoc, Rinv_l by lra. lra.
Qed.
End Loss.

Lemma loss_zero T L N idx scens vals : (0 < T)%nat -> (0 < L)%nat -> 0 <= metric_loss T L N idx scens vals /\
  (metric_loss T L N idx scens vals = 0 <-> forall n, (n < N)%nat -> on_tree T L idx scens vals n).
Proof.
  intros HT HL. assert (P : forall n, (n < N)%nat -> 0 <= min_below (compute_distances T (fun t l => nth (idx t l) vals 0) (fun t => scens t n)) L).
  { intros n _. destruct (min_below_in (compute_distances T (fun t l => nth (idx t l) vals 0) (fun t => scens t n)) L HL) as (l & _ & ->). now apply D_nonneg. }
  split; [now apply rsum_nonneg|]. split.
  - intros E n Hn. pose proof (rsum_zero _ N P (Req_le _ _ E) n Hn) as Z. cbn beta in Z.
    destruct (min_below_in (compute_distances T (fun t l => nth (idx t l) vals 0) (fun t => scens t n)) L HL) as (l & Hl & E'). rewrite E' in Z.
    exists l. split; [exact Hl|]. now apply D_zero.
  - intros H. unfold metric_loss. rewrite (rsum_ext _ (fun _ => 0)); [rewrite rsum_const; ring|]. intros n Hn. destruct (H n Hn) as (l & Hl & E).
    apply Rle_antisym; [|now apply P]. eapply Rle_trans; [apply (min_below_le _ L l Hl)|]. unfold compute_distances.
    rewrite (rsum_ext _ (fun _ => 0)); [rewrite rsum_const; unfold Rdiv; lra|]. intros t Ht. rewrite E by exact Ht. ring.
Qed.
Lemma loss_units T L N idx scens vals k b : (forall t l, (t < T)%nat -> (l < L)%nat -> (idx t l < length vals)%nat) ->
  metric_loss T L N idx (fun t n => k * scens t n + b) (map (fun v => k * v + b) vals) = k ^ 2 * metric_loss T L N idx scens vals.
Proof.
  intros HK. unfold metric_loss. rewrite <- rsum_scal. apply rsum_ext. intros n _. rewrite <- min_below_scal by (rewrite <- Rsqr_pow2; apply Rle_0_sqr).
  apply min_below_ext. intros l Hl. unfold compute_distances. unfold Rdiv. rewrite <- Rmult_assoc, <- rsum_scal. f_equal. apply rsum_ext. intros t Ht.
  rewrite (nth_indep _ 0 (k * 0 + b)) by (rewrite map_length; now apply HK). rewrite (map_nth (fun v => k * v + b)). ring.
Qed.
Lemma tree_descends T L N idx scens shares wide eval kmax base vals rate : (0 < T)%nat -> (0 < L)%nat -> once T L idx -> tie_shares T L N idx scens shares ->
  0 <= rate -> rate * INR N <= INR T ->
  metric_loss T L N idx scens (fst (fst (diff_tree (metric_loss T L N idx scens) (loss_gradient T L N idx scens shares) wide eval kmax base vals rate))) <= metric_loss T L N idx scens vals.
Proof.
  intros HT HL Ho Hs Hr HN. destruct (diff_tree_descends (metric_loss T L N idx scens) (loss_gradient T L N idx scens shares) wide eval kmax base vals rate) as (n & _ & _ & H). apply H.
  intros v. now apply (step_descends T L N idx scens shares rate v).
Qed.
Lemma default_descends T L N idx scens shares wide eval kmax base vals : (0 < T)%nat -> (0 < L)%nat -> once T L idx -> tie_shares T L N idx scens shares ->
  (0 < N <= 10 * T)%nat ->
  metric_loss T L N idx scens (fst (fst (diff_tree (metric_loss T L N idx scens) (loss_gradient T L N idx scens shares) wide eval kmax base vals (default_rate N)))) <= metric_loss T L N idx scens vals.
Proof.
  intros HT HL Ho Hs [H0 H1]. pose proof (lt_0_INR N H0). apply tree_descends; try assumption; unfold default_rate.
  - eapply Rle_trans; [|apply Rmax_r]. lra.
  - apply le_INR in H1. rewrite mult_INR in H1. replace (INR 10) with 10 in H1 by (cbn; lra). assert (1 <= INR T) by (apply (le_INR 1); lia).
    unfold Rmax. destruct (Rle_dec (1 / INR N) (1 / 10)); [lra|]. unfold Rdiv. rewrite Rmult_assoc, Rinv_l by lra. lra.
Qed.

(** One path: a tree without branches. *)
Section Path.
Context (T N : nat) (scens : nat -> nat -> R) (shares : list R -> nat -> nat -> R) (r : R).
Context (HT : (0 < T)%nat) (Hs : tie_shares T 1 N (fun t _ => t) scens shares) (HN : INR T < r * INR N).
Notation loss := (metric_loss T 1 N (fun t _ => t) scens).
Notation gradient := (loss_gradient T 1 N (fun t _ => t) scens shares).
Definition off (vals : list R) (i : nat) : R := INR N * nth i vals 0 - rsum (scens i) N.
Lemma share_one vals n : (n < N)%nat -> shares vals n 0%nat = 1.
Proof. intros Hn. destruct (Hs vals n Hn) as (_ & B & _). cbn in B. lra. Qed.
Lemma path_gradient vals i : (i < T)%nat -> grad_at T 1 N (fun t _ => t) scens (shares vals) vals i = 2 / INR T * off vals i.
Proof.
  intros Hi. pose proof (lt_0_INR T HT). unfold grad_at, off. rewrite (rsum_ext _ (fun n => 2 / INR T * (nth i vals 0 + (-1) * scens i n))).
  - rewrite rsum_scal, rsum_plus, rsum_scal, rsum_const. ring.
  - intros n Hn. cbn [rsum]. rewrite share_one by exact Hn. rewrite (rsum_pick _ T i Hi).
    + rewrite Nat.eqb_refl. field. lra.
    + intros t _ Ht. destruct (Nat.eqb_spec t i); [contradiction|reflexivity].
Qed.
Lemma path_visits vals i : (i < T)%nat -> visits T 1 N (fun t _ => t) (shares vals) i = INR N.
Proof.
  intros Hi. unfold visits. rewrite (rsum_ext _ (fun _ => 1)); [rewrite rsum_const; ring|]. intros n Hn. cbn [rsum]. rewrite share_one by exact Hn.
  rewrite (rsum_pick _ T i Hi); [rewrite Nat.eqb_refl; ring|]. intros t _ Ht. destruct (Nat.eqb_spec t i); [contradiction|reflexivity].
Qed.
Lemma path_step vals i : length vals = T -> (0 < N)%nat -> (i < T)%nat -> off vals i <> 0 ->
  loss vals < loss (step T 1 N (fun t _ => t) scens shares r vals) /\ length (step T 1 N (fun t _ => t) scens shares r vals) = T /\ off (step T 1 N (fun t _ => t) scens shares r vals) i <> 0.
Proof.
  intros Hl H0 Hi Ho. pose proof (lt_0_INR T HT) as PT. pose proof (lt_0_INR N H0) as PN. set (vals' := step T 1 N (fun t _ => t) scens shares r vals).
  assert (Pr : 0 < r) by (destruct (Rlt_dec 0 r) as [|X]; [assumption|exfalso; assert (r * INR N <= 0 * INR N) by (apply Rmult_le_compat_r; lra); lra]).
  assert (N1 : forall j, (j < T)%nat -> nth j vals' 0 = nth j vals 0 - 2 / INR T * off vals j * r).
  { intros j Hj. unfold vals'. rewrite step_nth, Hl. destruct (Nat.ltb_spec j T); [|lia]. now rewrite path_gradient. }
  split; [|split].
  - rewrite (loss_weighted T 1 N (fun t _ => t) scens shares vals ltac:(lia) Hs), (loss_weighted T 1 N (fun t _ => t) scens shares vals' ltac:(lia) Hs).
    assert (W : weighted T 1 N (fun t _ => t) scens (shares vals') vals' = weighted T 1 N (fun t _ => t) scens (shares vals) vals').
    { unfold weighted. apply rsum_ext. intros n Hn. cbn [rsum]. now rewrite !share_one. }
    rewrite W. pose proof (weighted_change T 1 N (fun t _ => t) scens (shares vals) T _ vals vals' HT ltac:(intros; assumption) (fun j => step_nth T 1 N (fun t _ => t) scens shares r vals j)) as E.
    rewrite (rsum_ext _ (fun j => (r * (r * INR N / INR T - 1)) * Rsqr (2 / INR T * off vals j))) in E.
    + rewrite rsum_scal in E. assert (C : 0 < r * (r * INR N / INR T - 1)).
      { apply Rmult_lt_0_compat; [exact Pr|]. assert (1 < r * INR N / INR T); [|lra]. apply (Rmult_lt_reg_r (INR T)); [exact PT|]. unfold Rdiv. rewrite Rmult_assoc, Rinv_l by lra. lra. }
      assert (S0 : 0 < rsum (fun j => Rsqr (2 / INR T * off vals j)) T).
      { apply Rnot_le_lt. intros Hle. pose proof (rsum_zero (fun j => Rsqr (2 / INR T * off vals j)) T ltac:(intros; apply Rle_0_sqr) Hle i Hi) as Z. cbn beta in Z. apply Rsqr_0_uniq in Z.
        apply Rmult_integral in Z. destruct Z as [Z|Z]; [|contradiction]. assert (0 < 2 / INR T) by (apply Rdiv_lt_0_compat; lra). lra. }
      pose proof (Rmult_lt_0_compat _ _ C S0). lra.
    + intros j Hj. rewrite Hl. destruct (Nat.ltb_spec j T); [|lia]. rewrite path_gradient, path_visits by exact Hj. unfold Rsqr, Rdiv. ring.
  - unfold vals', step. rewrite map_length, combine_length. unfold loss_gradient. rewrite map_length, seq_length. lia.
  - unfold off at 1. rewrite N1 by exact Hi. replace (INR N * (nth i vals 0 - 2 / INR T * off vals i * r) - rsum (scens i) N) with (off vals i * (1 - 2 * (r * INR N / INR T))).
    + intros Z. apply Rmult_integral in Z. destruct Z as [Z|Z]; [contradiction|]. assert (1 < r * INR N / INR T); [|lra]. apply (Rmult_lt_reg_r (INR T)); [exact PT|]. unfold Rdiv. rewrite Rmult_assoc, Rinv_l by lra. lra.
    + unfold off. field. lra.
Qed.
Lemma path_diverges n : forall vals i, length vals = T -> (0 < N)%nat -> (i < T)%nat -> off vals i <> 0 -> loss vals < loss (descend gradient r (S n) vals).
Proof.
  induction n as [|n IH]; intros vals i Hl H0 Hi Ho; destruct (path_step vals i Hl H0 Hi Ho) as (A & B & C); [exact A|].
  eapply Rlt_trans; [exact A|]. exact (IH _ i B H0 Hi C).
Qed.
End Path.
Lemma diff_tree_moves loss gradient wide eval kmax base vals rate : exists n, fst (fst (diff_tree loss gradient wide eval (S kmax) base vals rate)) = descend gradient rate (S n) vals.
Proof.
  unfold diff_tree. cbn [diff_loop].
  assert (Q : Stats.Rltb (loss vals) (loss vals) = false) by (unfold Stats.Rltb; destruct (Rlt_dec _ _); [lra|reflexivity]).
  destruct (0 mod eval =? 0)%nat; cbv zeta; [rewrite Q|].
  - destruct (diff_loop_steps loss gradient wide eval kmax 1 (wide (loss vals) (1 / 1000000)) (map (fun p => fst p - snd p * rate) (combine vals (gradient vals))) rate (loss vals)) as (n & _ & E).
    exists n. destruct (diff_loop _ _ _ _ _ _ _ _ _) as [v r]. cbn [fst] in *. exact E.
  - destruct (diff_loop_steps loss gradient wide eval kmax 1 true (map (fun p => fst p - snd p * rate) (combine vals (gradient vals))) rate (1 / 1000000)) as (n & _ & E).
    exists n. destruct (diff_loop _ _ _ _ _ _ _ _ _) as [v r]. cbn [fst] in *. exact E.
Qed.
Lemma default_diverges T N scens shares wide eval kmax base vals i : (0 < T)%nat -> tie_shares T 1 N (fun t _ => t) scens shares -> (10 * T < N)%nat ->
  length vals = T -> (i < T)%nat -> nth i vals 0 <> mean_of (scens i) N -> (0 < kmax)%nat ->
  metric_loss T 1 N (fun t _ => t) scens vals < metric_loss T 1 N (fun t _ => t) scens
    (fst (fst (diff_tree (metric_loss T 1 N (fun t _ => t) scens) (loss_gradient T 1 N (fun t _ => t) scens shares) wide eval kmax base vals (default_rate N)))).
Proof.
  intros HT Hs HN Hl Hi Hm Hk. destruct kmax as [|kmax]; [lia|]. destruct (diff_tree_moves (metric_loss T 1 N (fun t _ => t) scens) (loss_gradient T 1 N (fun t _ => t) scens shares) wide eval kmax base vals (default_rate N)) as (n & ->).
  assert (PN : 0 < INR N) by (apply lt_0_INR; lia). apply (path_diverges T N scens shares (default_rate N) HT Hs) with (i := i); try assumption; try lia.
  - apply lt_INR in HN. rewrite mult_INR in HN. replace (INR 10) with 10 in HN by (cbn; lra). assert (1 / 10 <= default_rate N) by apply Rmax_r.
    apply Rlt_le_trans with (1 / 10 * INR N); [lra|]. apply Rmult_le_compat_r; lra.
  - unfold off. intros Z. apply Hm. unfold mean_of. rewrite total_rsum. apply (Rmult_eq_reg_l (INR N)); [|lra]. unfold Rdiv. rewrite (Rmult_comm (rsum _ _)), <- Rmult_assoc, Rinv_r, Rmult_1_l by lra. lra.
Qed.
