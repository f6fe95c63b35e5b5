(** The gradient of the loss of scenario trees. *)
From Coq Require Import List Bool Arith Reals Lra Lia.
From Verif Require Import Model.FourierEs Model.TreeBuild Model.TreeLoss Spec.CopulaFitSpec Spec.TreeBuildSpec Spec.TreeLossSpec
  Proof.FourierProof Proof.CopulaFitProof Proof.PicnnProof Proof.TreeLossProof.
Import ListNotations.
Local Open Scope R_scope.

Lemma loss_weighted_near T L N idx scens w vals : (0 < L)%nat ->
  (forall n, (n < N)%nat -> rsum (w n) L = 1 /\ forall l, (l < L)%nat -> w n l <> 0 -> nearest_path T L idx scens vals n l) ->
  metric_loss T L N idx scens vals = weighted T L N idx scens w vals.
Proof.
  intros HL H. unfold metric_loss, weighted. apply rsum_ext. intros n Hn. destruct (H n Hn) as (B & C).
  set (f := compute_distances T (fun t l => nth (idx t l) vals 0) (fun t => scens t n)).
  transitivity (rsum (fun l => min_below f L * w n l) L); [rewrite rsum_scal, B; ring|]. apply rsum_ext. intros l Hl.
  destruct (Req_EM_T (w n l) 0) as [E|E]; [rewrite E; ring|]. rewrite Rmult_comm. f_equal.
  destruct (C l Hl E) as [_ M]. destruct (min_below_in f L HL) as (l0 & Hl0 & E0). apply Rle_antisym; [apply min_below_le, Hl|]. rewrite E0. unfold f. rewrite !distance_spec. now apply M.
Qed.
Lemma bump_nth vals i d j : nth j (bump vals i d) 0 = nth j vals 0 - (if (j <? length vals)%nat && (j =? i)%nat then - d else 0).
Proof.
  unfold bump. set (f := fun j => nth j vals 0 + (if Nat.eqb j i then d else 0)). destruct (Nat.ltb_spec j (length vals)) as [H|H]; cbn [andb].
  - rewrite (nth_indep _ 0 (f 0%nat)) by (rewrite map_length, seq_length; lia). rewrite map_nth, seq_nth by lia. cbn [plus]. unfold f. destruct (Nat.eqb j i); ring.
  - rewrite !nth_overflow by (try rewrite map_length, seq_length; lia). ring.
Qed.
Lemma eventually_all (P : nat -> R -> Prop) n : (forall k, (k < n)%nat -> exists d, 0 < d /\ forall x, Rabs x < d -> P k x) -> exists d, 0 < d /\ forall x, Rabs x < d -> forall k, (k < n)%nat -> P k x.
Proof.
  induction n as [|n IH]; intros H; [exists 1; split; [lra|intros; lia]|]. destruct IH as (d1 & D1 & H1); [intros; apply H; lia|]. destruct (H n ltac:(lia)) as (d2 & D2 & H2).
  exists (Rmin d1 d2). split; [now apply Rmin_glb_lt|]. intros x Hx k Hk. destruct (Nat.eq_dec k n) as [->|]; [apply H2; eapply Rlt_le_trans; [exact Hx|apply Rmin_r]|apply H1; [eapply Rlt_le_trans; [exact Hx|apply Rmin_l]|lia]].
Qed.
Lemma square_poly (a e : nat -> R) d n : rsum (fun t => (a t - d * e t) ^ 2) n = rsum (fun t => a t ^ 2) n + (-2 * rsum (fun t => a t * e t) n) * d + rsum (fun t => e t ^ 2) n * d ^ 2.
Proof. induction n as [|n IH]; cbn [rsum]; [ring|]. rewrite IH. ring. Qed.
Lemma distance_poly T idx scens vals i n l : exists b c, forall d, path_distance T idx scens (bump vals i d) n l = path_distance T idx scens vals n l + b * d + c * d ^ 2.
Proof.
  set (e := fun t => if (idx t l <? length vals)%nat && (idx t l =? i)%nat then 1 else 0).
  exists ((-2 * rsum (fun t => (scens t n - nth (idx t l) vals 0) * e t) T) / INR T), (rsum (fun t => e t ^ 2) T / INR T). intros d. rewrite <- !distance_spec. unfold compute_distances.
  rewrite (rsum_ext (fun t => (scens t n - nth (idx t l) (bump vals i d) 0) ^ 2) (fun t => ((scens t n - nth (idx t l) vals 0) - d * e t) ^ 2)).
  - rewrite square_poly. unfold Rdiv. ring.
  - intros t _. rewrite bump_nth. unfold e. destruct (_ && _); ring.
Qed.
Lemma stays_positive a b c : 0 < a -> exists d, 0 < d /\ forall x, Rabs x < d -> 0 <= a + b * x + c * x ^ 2.
Proof.
  intros Ha. set (m := Rabs b + Rabs c + 1). assert (Hm : 0 < m) by (unfold m; pose proof (Rabs_pos b); pose proof (Rabs_pos c); lra).
  exists (Rmin 1 (a / m)). split; [apply Rmin_glb_lt; [lra|now apply Rdiv_lt_0_compat]|]. intros x Hx.
  assert (X1 : Rabs x < 1) by (eapply Rlt_le_trans; [exact Hx|apply Rmin_l]). assert (X2 : Rabs x < a / m) by (eapply Rlt_le_trans; [exact Hx|apply Rmin_r]).
  assert (X3 : Rabs x * m < a). { apply (Rmult_lt_compat_r m) in X2; [|exact Hm]. unfold Rdiv in X2. rewrite Rmult_assoc, Rinv_l, Rmult_1_r in X2 by lra. exact X2. }
  assert (B : Rabs (b * x + c * x ^ 2) <= Rabs x * m).
  { eapply Rle_trans; [apply Rabs_triang|]. rewrite !Rabs_mult, <- RPow_abs. unfold m. pose proof (Rabs_pos x). pose proof (Rabs_pos b). pose proof (Rabs_pos c).
    assert (Rabs c * Rabs x ^ 2 <= Rabs c * Rabs x). { apply Rmult_le_compat_l; [assumption|]. cbn. rewrite Rmult_1_r. rewrite <- (Rmult_1_r (Rabs x)) at 3. apply Rmult_le_compat_l; lra. }
    nra. }
  pose proof (Rle_abs (- (b * x + c * x ^ 2))) as A. rewrite Rabs_Ropp in A. lra.
Qed.
Lemma gradient_correct T L N idx scens shares vals i : (0 < T)%nat -> (0 < L)%nat -> tie_shares T L N idx scens shares -> no_ties T L N idx scens vals ->
  (forall t l, (t < T)%nat -> (l < L)%nat -> (idx t l < length vals)%nat) -> (i < length vals)%nat ->
  derivable_pt_lim (fun d => metric_loss T L N idx scens (bump vals i d)) 0 (nth i (loss_gradient T L N idx scens shares vals) 0).
Proof.
  intros HT HL Hs Hu HK Hi. pose proof (lt_0_INR T HT) as PT. set (w := shares vals).
  assert (Near : exists e, 0 < e /\ forall d, Rabs d < e -> forall n, (n < N)%nat -> forall l, (l < L)%nat -> w n l <> 0 -> nearest_path T L idx scens (bump vals i d) n l).
  { apply (eventually_all (fun n d => forall l, (l < L)%nat -> w n l <> 0 -> nearest_path T L idx scens (bump vals i d) n l) N). intros n Hn.
    destruct (Hu n Hn) as (l0 & Hl0 & U). destruct (Hs vals n Hn) as (_ & _ & C).
    assert (One : forall l, (l < L)%nat -> w n l <> 0 -> l = l0).
    { intros l Hl E. destruct (Nat.eq_dec l l0) as [|X]; [assumption|]. exfalso. specialize (U l Hl X). destruct (C l Hl E) as [_ M]. specialize (M l0 Hl0). lra. }
    destruct (eventually_all (fun l' d => path_distance T idx scens (bump vals i d) n l0 <= path_distance T idx scens (bump vals i d) n l') L) as (e & He & H).
    - intros l' Hl'. destruct (Nat.eq_dec l' l0) as [->|X]; [exists 1; split; [lra|intros; lra]|]. specialize (U l' Hl' X).
      destruct (distance_poly T idx scens vals i n l0) as (b0 & c0 & E0). destruct (distance_poly T idx scens vals i n l') as (b1 & c1 & E1).
      destruct (stays_positive (path_distance T idx scens vals n l' - path_distance T idx scens vals n l0) (b1 - b0) (c1 - c0) ltac:(lra)) as (e & He & Q).
      exists e. split; [exact He|]. intros d Hd. rewrite E0, E1. specialize (Q d Hd). lra.
    - exists e. split; [exact He|]. intros d Hd l Hl E. rewrite (One l Hl E). split; [exact Hl0|]. intros l' Hl'. now apply H. }
  destruct Near as (e & He & Near).
  assert (Hw : forall n, (n < N)%nat -> rsum (w n) L = 1) by (intros n Hn; destruct (Hs vals n Hn) as (_ & B & _); rewrite total_rsum in B; exact B).
  assert (LW : forall d, Rabs d < e -> metric_loss T L N idx scens (bump vals i d) = weighted T L N idx scens w (bump vals i d)).
  { intros d Hd. apply loss_weighted_near; [exact HL|]. intros n Hn. split; [now apply Hw|]. intros l Hl E. now apply Near. }
  set (G := grad_at T L N idx scens w vals i). set (W := visits T L N idx w i).
  assert (EG : nth i (loss_gradient T L N idx scens shares vals) 0 = G).
  { change (nth i (map (grad_at T L N idx scens (shares vals) vals) (seq 0 (length vals))) 0 = G).
    rewrite (nth_indep _ 0 (grad_at T L N idx scens (shares vals) vals 0%nat)) by (rewrite map_length, seq_length; lia). rewrite map_nth, seq_nth by lia. reflexivity. }
  assert (Ch : forall d, weighted T L N idx scens w (bump vals i d) - weighted T L N idx scens w vals = d * G + d * d * W / INR T).
  { intros d. rewrite (weighted_change T L N idx scens w (length vals) _ vals (bump vals i d) HT HK (fun j => bump_nth vals i d j)). rewrite (rsum_pick _ (length vals) i Hi).
    - destruct (Nat.ltb_spec i (length vals)); [|lia]. rewrite Nat.eqb_refl. cbn [andb]. fold G W. unfold Rdiv. ring.
    - intros j _ Hj. destruct (Nat.eqb_spec j i); [contradiction|]. rewrite andb_false_r. ring. }
  rewrite EG. intros eps Heps. assert (PW : 0 < Rabs W + 1) by (pose proof (Rabs_pos W); lra).
  assert (Pd : 0 < Rmin e (eps * INR T / (Rabs W + 1))) by (apply Rmin_glb_lt; [exact He|]; apply Rdiv_lt_0_compat; [apply Rmult_lt_0_compat; lra|exact PW]).
  exists (mkposreal _ Pd). intros h Hh Hd. cbn [pos] in Hd.
  assert (D1 : Rabs h < e) by (eapply Rlt_le_trans; [exact Hd|apply Rmin_l]). assert (D2 : Rabs h < eps * INR T / (Rabs W + 1)) by (eapply Rlt_le_trans; [exact Hd|apply Rmin_r]).
  rewrite Rplus_0_l, (LW h D1), (LW 0) by (rewrite Rabs_R0; exact He).
  replace ((weighted T L N idx scens w (bump vals i h) - weighted T L N idx scens w (bump vals i 0)) / h - G) with (h * W / INR T).
  - unfold Rdiv. rewrite !Rabs_mult, Rabs_inv, (Rabs_pos_eq (INR T)) by lra. apply (Rmult_lt_reg_r (INR T)); [exact PT|]. rewrite Rmult_assoc, Rinv_l, Rmult_1_r by lra.
    assert (D3 : Rabs h * (Rabs W + 1) < eps * INR T). { apply (Rmult_lt_compat_r (Rabs W + 1)) in D2; [|exact PW]. unfold Rdiv in D2. rewrite Rmult_assoc, Rinv_l, Rmult_1_r in D2 by lra. exact D2. }
    pose proof (Rabs_pos h). lra.
  - pose proof (Ch h) as C1. pose proof (Ch 0) as C0. assert (weighted T L N idx scens w (bump vals i h) - weighted T L N idx scens w (bump vals i 0) = h * G + h * h * W / INR T).
    { unfold Rdiv in C0. rewrite !Rmult_0_l in C0. lra. }
    rewrite H. field. split; lra.
Qed.
