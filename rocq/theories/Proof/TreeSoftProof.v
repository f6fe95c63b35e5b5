(** The smooth loss of scenario trees, and the numbers of nodes per time. *)
From Coq Require Import List Bool Arith Reals Lra Lia.
From Verif Require Import Model.Scenred Model.FourierEs Model.TreeBuild Model.TreeLoss Spec.CopulaFitSpec Spec.ScenredSpec Spec.TreeBuildSpec Spec.TreeLossSpec
  Proof.FourierProof Proof.CopulaFitProof Proof.PicnnProof Proof.TreeBuildProof Proof.TreeLossProof.
Import ListNotations.
Local Open Scope R_scope.

Lemma soft_weight_order a b : 0 <= a -> 0 <= b -> (exp (80 / (1 + a)) - exp (80 / (1 + b))) * (a - b) <= 0.
Proof.
  assert (M : forall x y, 0 <= x -> x <= y -> exp (80 / (1 + y)) <= exp (80 / (1 + x))).
  { intros x y Hx [H| ->]; [|lra]. apply Rlt_le, exp_increasing. unfold Rdiv. apply Rmult_lt_compat_l; [lra|]. apply Rinv_lt_contravar; [apply Rmult_lt_0_compat|]; lra. }
  intros Ha Hb. destruct (Rle_dec a b) as [H|H]; [pose proof (M a b Ha H)|pose proof (M b a Hb ltac:(lra))]; nra.
Qed.
Lemma rsum_pos f n : (0 < n)%nat -> (forall i, (i < n)%nat -> 0 < f i) -> 0 < rsum f n.
Proof.
  induction n as [|n IH]; [lia|]. intros _ H. cbn [rsum]. destruct n as [|n]; [cbn [rsum]; pose proof (H 0%nat ltac:(lia)); lra|].
  pose proof (IH ltac:(lia) ltac:(intros; apply H; lia)). pose proof (H (S n) ltac:(lia)). lra.
Qed.
(** Chebyshev's sum inequality. *)
Lemma chebyshev w d n : (forall i j, (i < n)%nat -> (j < n)%nat -> (w i - w j) * (d i - d j) <= 0) -> INR n * rsum (fun i => w i * d i) n <= rsum w n * rsum d n.
Proof.
  intros H.
  assert (E : rsum (fun i => rsum (fun j => (w i - w j) * (d i - d j)) n) n = 2 * (INR n * rsum (fun i => w i * d i) n - rsum w n * rsum d n)).
  { rewrite (rsum_ext _ (fun i => INR n * (w i * d i) + (- (w i) * rsum d n + (- rsum w n * d i + rsum (fun j => w j * d j) n)))).
    - rewrite !rsum_plus, !rsum_scal, rsum_const. rewrite (rsum_ext (fun i => - w i * rsum d n) (fun i => (- rsum d n) * w i)) by (intros; ring). rewrite rsum_scal. ring.
    - intros i _. rewrite (rsum_ext _ (fun j => w i * d i + ((- w i) * d j + ((- d i) * w j + w j * d j)))) by (intros; ring). rewrite !rsum_plus, !rsum_scal, rsum_const. ring. }
  assert (Q : rsum (fun i => rsum (fun j => (w i - w j) * (d i - d j)) n) n <= rsum (fun _ => 0) n).
  { apply rsum_le. intros i Hi. eapply Rle_trans; [apply rsum_le; intros j Hj; apply (H i j Hi Hj)|]. rewrite rsum_const. lra. }
  rewrite rsum_const in Q. lra.
Qed.
Section Soft.
Context (T L N : nat) (idx : nat -> nat -> nat) (scens : nat -> nat -> R) (vals : list R).
Notation d n := (compute_distances T (fun t l => nth (idx t l) vals 0) (fun t => scens t n)).
Notation e n := (fun l => exp (80 / (1 + d n l))).
Context (HT : (0 < T)%nat) (HL : (0 < L)%nat).
Lemma soft_mass n : 0 < rsum (e n) L.
Proof. apply rsum_pos; [exact HL|]. intros; apply exp_pos. Qed.
Lemma soft_weight n l : 0 < e n l / rsum (e n) L.
Proof. apply Rdiv_lt_0_compat; [apply exp_pos|apply soft_mass]. Qed.
Lemma soft_total n : rsum (fun l => e n l / rsum (e n) L) L = 1.
Proof.
  pose proof (soft_mass n). rewrite (rsum_ext _ (fun l => / rsum (e n) L * e n l)) by (intros; unfold Rdiv; ring). rewrite rsum_scal. apply Rinv_l. lra.
Qed.
Lemma soft_above : metric_loss T L N idx scens vals <= soft_loss T L N idx scens vals.
Proof.
  unfold metric_loss, soft_loss. apply rsum_le. intros n _. cbv zeta. set (m := min_below (d n) L).
  apply Rle_trans with (rsum (fun l => m * (e n l / rsum (e n) L)) L); [rewrite rsum_scal, soft_total; lra|]. apply rsum_le. intros l Hl.
  rewrite Rmult_comm. apply Rmult_le_compat_l; [apply Rlt_le, soft_weight|now apply min_below_le].
Qed.
Lemma soft_below : soft_loss T L N idx scens vals <= average_loss T L N idx scens vals.
Proof.
  unfold soft_loss, average_loss. apply (rsum_le _ (fun n => mean_of (path_distance T idx scens vals n) L) N). intros n _. cbv zeta. change (mean_of (path_distance T idx scens vals n) L) with (rsum (path_distance T idx scens vals n) L / INR L). pose proof (lt_0_INR L HL) as PL. pose proof (soft_mass n) as PM.
  rewrite (rsum_ext (path_distance T idx scens vals n) (d n)) by (intros; symmetry; apply distance_spec).
  rewrite (rsum_ext _ (fun l => / rsum (e n) L * (e n l * d n l))) by (intros; unfold Rdiv; ring). rewrite rsum_scal.
  apply (Rmult_le_reg_l (rsum (e n) L * INR L)); [now apply Rmult_lt_0_compat|].
  replace (rsum (e n) L * INR L * (/ rsum (e n) L * rsum (fun l => e n l * d n l) L)) with (INR L * rsum (fun l => e n l * d n l) L) by (field; lra).
  replace (rsum (e n) L * INR L * (rsum (d n) L / INR L)) with (rsum (e n) L * rsum (d n) L) by (field; lra).
  apply chebyshev. intros i j _ _. apply soft_weight_order; now apply D_nonneg.
Qed.
Lemma soft_zero_iff : soft_loss T L N idx scens vals = 0 <-> forall n l t, (n < N)%nat -> (l < L)%nat -> (t < T)%nat -> scens t n = nth (idx t l) vals 0.
Proof.
  assert (P : forall n l, 0 <= e n l / rsum (e n) L * d n l).
  { intros n l. apply Rmult_le_pos; [apply Rlt_le, soft_weight|now apply D_nonneg]. }
  split.
  - intros E n l t Hn Hl Ht.
    pose proof (rsum_zero _ N (fun n _ => rsum_nonneg _ L (fun l _ => P n l)) (Req_le _ _ E) n Hn) as Z. cbv beta in Z.
    pose proof (rsum_zero _ L (fun l _ => P n l) (Req_le _ _ Z) l Hl) as Y. cbv beta in Y. pose proof (soft_weight n l) as W.
    apply Rmult_integral in Y. destruct Y as [Y|Y]; [lra|]. now apply (D_zero T idx scens vals n l HT).
  - intros H. unfold soft_loss. rewrite (rsum_ext _ (fun _ => 0)); [rewrite rsum_const; ring|]. intros n Hn. cbv zeta. rewrite (rsum_ext _ (fun _ => 0)); [rewrite rsum_const; ring|].
    intros l Hl. replace (d n l) with 0; [ring|]. symmetry. unfold compute_distances. rewrite (rsum_ext _ (fun _ => 0)); [rewrite rsum_const; unfold Rdiv; ring|].
    intros t Ht. rewrite (H n l t) by assumption. ring.
Qed.
End Soft.
Lemma soft_between T L N idx scens vals : (0 < T)%nat -> (0 < L)%nat ->
  metric_loss T L N idx scens vals <= soft_loss T L N idx scens vals <= average_loss T L N idx scens vals.
Proof. intros HT HL. split; [now apply soft_above|now apply soft_below]. Qed.
Lemma soft_perfect T L N idx scens vals n : (0 < T)%nat -> (0 < L)%nat -> (forall m, (m < N)%nat -> on_tree T L idx scens vals m) -> (n < N)%nat ->
  (exists t l l', (t < T)%nat /\ (l < L)%nat /\ (l' < L)%nat /\ nth (idx t l) vals 0 <> nth (idx t l') vals 0) ->
  metric_loss T L N idx scens vals = 0 /\ 0 < soft_loss T L N idx scens vals.
Proof.
  intros HT HL H Hn (t & l & l' & Ht & Hl & Hl' & X). destruct (loss_zero T L N idx scens vals HT HL) as [_ Z]. assert (E : metric_loss T L N idx scens vals = 0) by now apply Z. split; [exact E|].
  destruct (soft_above T L N idx scens vals HL) as [A|A]; [lra|]. exfalso. apply X. rewrite E in A. symmetry in A. rewrite soft_zero_iff in A by assumption. rewrite <- (A n l t), <- (A n l' t) by assumption. reflexivity.
Qed.
Lemma soft_zero T L N idx scens vals : (0 < T)%nat -> (0 < L)%nat ->
  (soft_loss T L N idx scens vals = 0 <-> forall n l t, (n < N)%nat -> (l < L)%nat -> (t < T)%nat -> scens t n = nth (idx t l) vals 0).
Proof. intros HT HL. now apply soft_zero_iff. Qed.
