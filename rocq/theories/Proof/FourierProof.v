From Coq Require Import Reals List Arith Bool Lia Lra ZArith.
From Verif Require Import Model.FourierEs Spec.FourierSpec Proof.SeriesProof.
Import ListNotations.
Local Open Scope R_scope.

(** ** Windows *)
Lemma window_last {V} (y w : list V) i : (0 < length w)%nat -> (i < length y)%nat ->
  window_at y w i = last_of (length w) (w ++ firstn (i + 1) y).
Proof.
  intros Hm Hi. unfold window_at, recent_history, last_of. set (m := length w) in *.
  set (start := (i + 1 - m)%nat).
  assert (Ly : length (firstn (i + 1 - start) (skipn start y)) = Nat.min (i + 1) m).
  { rewrite firstn_length, skipn_length. unfold start. lia. }
  rewrite app_length, (firstn_length_le y (n := i + 1)) by lia. fold m. replace (m + (i + 1) - m)%nat with (i + 1)%nat by lia.
  destruct (Nat.eqb_spec (length (firstn (i + 1 - start) (skipn start y))) m) as [E|E].
  - rewrite Ly in E. rewrite skipn_app. rewrite (skipn_all2 w) by (fold m; lia). cbn [app]. fold m. replace (i + 1 - m)%nat with start by reflexivity.
    rewrite firstn_skipn_comm. do 2 f_equal. unfold start. lia.
  - rewrite Ly in *. assert (K : (i + 1 < m)%nat) by lia. replace (Nat.min (i + 1) m) with (i + 1)%nat by lia.
    rewrite Nat.mod_small by lia. unfold start. replace (i + 1 - m)%nat with 0%nat by lia. rewrite Nat.sub_0_r. cbn [skipn].
    rewrite skipn_app. fold m. replace (i + 1 - m)%nat with 0%nat by lia. cbn [skipn]. f_equal.
    rewrite firstn_app. rewrite skipn_length. fold m. rewrite Nat.sub_diag. cbn [firstn]. rewrite app_nil_r. apply firstn_all2. rewrite skipn_length. fold m. lia.
Qed.
Lemma window_length {V} (y w : list V) i : (0 < length w)%nat -> (i < length y)%nat -> length (window_at y w i) = length w.
Proof. intros H1 H2. rewrite window_last by assumption. unfold last_of. rewrite skipn_length, app_length, firstn_length_le by lia. lia. Qed.

Lemma last_of_app {V} m (a b c : list V) : length a = m -> last_of m (last_of m (a ++ b) ++ c) = last_of m (a ++ b ++ c).
Proof.
  intros Ha. unfold last_of. rewrite !app_length, !skipn_length, !app_length, Ha.
  replace (m + length b - m)%nat with (length b) by lia.
  replace (m + length b - length b + length c - m)%nat with (length c) by lia.
  replace (m + (length b + length c) - m)%nat with (length b + length c)%nat by lia.
  rewrite app_assoc. rewrite (skipn_app (length b + length c)). rewrite app_length, Ha.
  rewrite skipn_app, skipn_length, app_length, Ha.
  f_equal.
  - assert (G : forall n k (l : list V), skipn n (skipn k l) = skipn (k + n) l).
    { clear. induction k as [|k IH]; intros l; [reflexivity|]. destruct l; cbn; [apply skipn_nil|apply IH]. }
    apply G.
  - f_equal. lia.
Qed.

(** Handing over the last window, the second part sees the windows of the whole. *)
Lemma window_chunks {V} (y z w : list V) i : (0 < length w)%nat -> y <> [] -> (i < length z)%nat ->
  window_at z (window_at y w (length y - 1)) i = window_at (y ++ z) w (length y + i).
Proof.
  intros Hm Hy Hi. assert (0 < length y)%nat by (destruct y; [congruence|cbn; lia]).
  rewrite window_last; [|rewrite window_length; lia|exact Hi]. rewrite window_length by lia.
  rewrite (window_last y) by lia. rewrite window_last by (rewrite ?app_length; lia).
  replace (length y - 1 + 1)%nat with (length y) by lia. rewrite firstn_all.
  rewrite firstn_app. rewrite (firstn_all2 y) by lia. replace (length y + i + 1 - length y)%nat with (i + 1)%nat by lia.
  now apply last_of_app.
Qed.

(** ** Sums *)
Lemma rsum_ext f g n : (forall i, (i < n)%nat -> f i = g i) -> rsum f n = rsum g n.
Proof. induction n as [|n IH]; intros H; [reflexivity|]. cbn [rsum]. rewrite IH, H by (auto; lia). reflexivity. Qed.
Lemma rsum_plus f g n : rsum (fun i => f i + g i) n = rsum f n + rsum g n.
Proof. induction n as [|n IH]; cbn [rsum]; [lra|]. rewrite IH. lra. Qed.
Lemma rsum_scal c f n : rsum (fun i => c * f i) n = c * rsum f n.
Proof. induction n as [|n IH]; cbn [rsum]; [lra|]. rewrite IH. lra. Qed.
Lemma rsum_const c n : rsum (fun _ => c) n = INR n * c.
Proof. induction n as [|n IH]; [cbn; lra|]. cbn [rsum]. rewrite IH, S_INR. lra. Qed.
Lemma rsum_swap f n m : rsum (fun i => rsum (fun j => f i j) m) n = rsum (fun j => rsum (fun i => f i j) n) m.
Proof.
  induction n as [|n IH]; cbn [rsum].
  - symmetry. rewrite rsum_const. lra.
  - rewrite IH, <- rsum_plus. reflexivity.
Qed.
Lemma rsum_pick f n k : (k < n)%nat -> (forall i, (i < n)%nat -> i <> k -> f i = 0) -> rsum f n = f k.
Proof.
  intros Hk H. induction n as [|n IH]; [lia|]. cbn [rsum]. destruct (Nat.eq_dec k n) as [->|Hn].
  - rewrite (rsum_ext _ (fun _ => 0)) by (intros i Hi; apply H; lia). rewrite rsum_const. lra.
  - rewrite IH by (lia || (intros; apply H; lia)). rewrite (H n) by lia. lra.
Qed.
Lemma rsum_telescope g n : rsum (fun i => g (S i) - g i) n = g n - g 0%nat.
Proof. induction n as [|n IH]; cbn [rsum]; [lra|]. rewrite IH. lra. Qed.

(** ** Trigonometric sums *)
Section Trig.
Context (m : nat) (Hm : (0 < m)%nat).
Let M := INR m.
Lemma Mpos : 0 < M.
Proof. apply lt_0_INR. exact Hm. Qed.
Definition theta (z : Z) : R := 2 * PI * IZR z / M.

Lemma half_nonzero z : (0 < Z.abs z < Z.of_nat m)%Z -> sin (theta z / 2) <> 0.
Proof.
  intros Hz. pose proof Mpos. unfold theta. replace (2 * PI * IZR z / M / 2) with (PI * IZR z / M) by (field; lra).
  assert (B : - M < IZR z < M /\ IZR z <> 0).
  { split; [|intros E; apply eq_IZR in E; lia]. unfold M. rewrite INR_IZR_INZ. rewrite <- opp_IZR. split; apply IZR_lt; lia. }
  pose proof PI_RGT_0. destruct B as [[B1 B2] B3].
  assert (D : PI * IZR z / M = PI * (IZR z / M)) by (field; lra). rewrite D.
  assert (-1 < IZR z / M < 1). { split; [apply Rmult_lt_reg_r with M|apply Rmult_lt_reg_r with M]; unfold Rdiv; try rewrite Rmult_assoc, Rinv_l by lra; lra. }
  assert (N : IZR z / M <> 0) by (intros E; apply B3; apply Rmult_integral in E; destruct E as [E|E]; [exact E|]; pose proof (Rinv_0_lt_compat M); lra).
  destruct (Rtotal_order (IZR z / M) 0) as [L|[L|L]]; [|lra|].
  - apply Rlt_not_eq. apply sin_lt_0_var; nra.
  - apply Rgt_not_eq. apply sin_gt_0; nra.
Qed.

Lemma angle_m z : INR m * theta z = 2 * IZR z * PI.
Proof. pose proof Mpos. unfold theta, M in *. field. lra. Qed.

Lemma sin_period_Z x k : sin (x + 2 * IZR k * PI) = sin x.
Proof.
  destruct (Z_le_dec 0 k) as [H|H].
  - replace (IZR k) with (INR (Z.to_nat k)) by (rewrite INR_IZR_INZ, Z2Nat.id; auto). apply sin_period.
  - rewrite <- (sin_period (x + 2 * IZR k * PI) (Z.to_nat (- k))). f_equal.
    rewrite INR_IZR_INZ, Z2Nat.id by lia. rewrite opp_IZR. ring.
Qed.
Lemma cos_period_Z x k : cos (x + 2 * IZR k * PI) = cos x.
Proof.
  destruct (Z_le_dec 0 k) as [H|H].
  - replace (IZR k) with (INR (Z.to_nat k)) by (rewrite INR_IZR_INZ, Z2Nat.id; auto). apply cos_period.
  - rewrite <- (cos_period (x + 2 * IZR k * PI) (Z.to_nat (- k))). f_equal.
    rewrite INR_IZR_INZ, Z2Nat.id by lia. rewrite opp_IZR. ring.
Qed.

Lemma cos_sum z s : (0 < Z.abs z < Z.of_nat m)%Z -> rsum (fun r => cos (INR (s + r) * theta z)) m = 0.
Proof.
  intros Hz. pose proof (half_nonzero z Hz) as Hn. apply Rmult_eq_reg_l with (2 * sin (theta z / 2)); [|lra].
  rewrite Rmult_0_r, <- rsum_scal.
  rewrite (rsum_ext _ (fun r => (fun k => sin (INR (s + k) * theta z - theta z / 2)) (S r) - (fun k => sin (INR (s + k) * theta z - theta z / 2)) r)).
  - rewrite (rsum_telescope (fun k => sin (INR (s + k) * theta z - theta z / 2))). rewrite !plus_INR.
    replace ((INR s + INR m) * theta z - theta z / 2) with (INR s * theta z - theta z / 2 + 2 * IZR z * PI) by (rewrite <- angle_m; ring).
    rewrite sin_period_Z. replace ((INR s + INR 0) * theta z) with (INR s * theta z) by (cbn; ring). lra.
  - intros r _. cbn beta. rewrite Nat.add_succ_r, S_INR. set (a := INR (s + r) * theta z).
    replace ((INR (s + r) + 1) * theta z - theta z / 2) with (a + theta z / 2) by (unfold a; field).
    rewrite sin_plus, sin_minus. ring.
Qed.
Lemma sin_sum z s : (Z.abs z < Z.of_nat m)%Z -> rsum (fun r => sin (INR (s + r) * theta z)) m = 0.
Proof.
  intros Hz. destruct (Z.eq_dec z 0) as [->|Hz0].
  { rewrite (rsum_ext _ (fun _ => 0)); [rewrite rsum_const; lra|]. intros r _. unfold theta. replace (INR (s + r) * (2 * PI * 0 / M)) with 0 by (unfold Rdiv; ring). apply sin_0. }
  pose proof (half_nonzero z ltac:(lia)) as Hn. apply Rmult_eq_reg_l with (2 * sin (theta z / 2)); [|lra].
  rewrite Rmult_0_r, <- rsum_scal.
  rewrite (rsum_ext _ (fun r => -1 * ((fun k => cos (INR (s + k) * theta z - theta z / 2)) (S r) - (fun k => cos (INR (s + k) * theta z - theta z / 2)) r))).
  - rewrite rsum_scal. rewrite (rsum_telescope (fun k => cos (INR (s + k) * theta z - theta z / 2))). rewrite !plus_INR.
    replace ((INR s + INR m) * theta z - theta z / 2) with (INR s * theta z - theta z / 2 + 2 * IZR z * PI) by (rewrite <- angle_m; ring).
    rewrite cos_period_Z. replace ((INR s + INR 0) * theta z) with (INR s * theta z) by (cbn; ring). lra.
  - intros r _. cbn beta. rewrite Nat.add_succ_r, S_INR. set (a := INR (s + r) * theta z).
    replace ((INR (s + r) + 1) * theta z - theta z / 2) with (a + theta z / 2) by (unfold a; field).
    rewrite cos_plus, cos_minus. ring.
Qed.
Lemma cos_sum0 s : rsum (fun r => cos (INR (s + r) * theta 0)) m = M.
Proof.
  rewrite (rsum_ext _ (fun _ => 1)); [rewrite rsum_const; unfold M; lra|]. intros r _. unfold theta. replace (INR (s + r) * (2 * PI * 0 / M)) with 0 by (unfold Rdiv; ring). apply cos_0.
Qed.

(** Columns. *)
Definition wave (j : nat) (t : nat) : R :=
  match j with O => 1 / sqrt 2 | _ => let a := INR t * theta (Z.of_nat ((j + 1) / 2)) in if Nat.odd j then sin a else cos a end.
Lemma basis_wave t j : basis m t j = sqrt (2 / M) * wave j t.
Proof.
  pose proof Mpos. unfold basis, wave. fold M. destruct j as [|j]; [reflexivity|]. cbn zeta. f_equal.
  replace (INR t * theta (Z.of_nat ((S j + 1) / 2))) with (2 * PI * INR ((S j + 1) / 2) * INR t / M); [reflexivity|].
  unfold theta. rewrite <- INR_IZR_INZ. field. lra.
Qed.
Lemma theta_add a b : theta (a + b) = theta a + theta b.
Proof. pose proof Mpos. unfold theta. rewrite plus_IZR. field. lra. Qed.
Lemma theta_sub a b : theta (a - b) = theta a - theta b.
Proof. pose proof Mpos. unfold theta. rewrite minus_IZR. field. lra. Qed.

Lemma sqrt2_sq : 1 / sqrt 2 * (1 / sqrt 2) = 1 / 2.
Proof. pose proof (sqrt_lt_R0 2 ltac:(lra)). pose proof (sqrt_sqrt 2 ltac:(lra)). unfold Rdiv. rewrite !Rmult_1_l. rewrite <- Rinv_mult. rewrite H0. lra. Qed.

Lemma wave_products (h i j s : nat) : (2 * h < m)%nat -> (i < 2 * h + 1)%nat -> (j < 2 * h + 1)%nat ->
  rsum (fun r => wave i (s + r) * wave j (s + r)) m = if (i =? j)%nat then M / 2 else 0.
Proof.
  intros Hh Hi Hj.
  assert (Hk : forall i, (0 < i < 2 * h + 1)%nat -> (1 <= (i + 1) / 2 <= h)%nat /\ (Nat.odd i = true -> i = 2 * ((i + 1) / 2) - 1)%nat /\ (Nat.odd i = false -> i = 2 * ((i + 1) / 2))%nat).
  { clear. intros i Hi. destruct (Nat.Even_or_Odd i) as [[q ->]|[q ->]].
    - replace (2 * q + 1)%nat with (1 + q * 2)%nat by lia. rewrite Nat.div_add by lia. cbn [Nat.div Nat.divmod fst Nat.add].
      replace (Nat.odd (2 * q)) with false by (symmetry; rewrite Nat.odd_mul; reflexivity). repeat split; try lia; discriminate.
    - replace (2 * q + 1 + 1)%nat with ((q + 1) * 2)%nat by lia. rewrite Nat.div_mul by lia.
      replace (Nat.odd (2 * q + 1)) with true by (symmetry; rewrite Nat.odd_add, Nat.odd_mul; reflexivity). repeat split; try lia; discriminate. }
  assert (C0 : forall k, (1 <= k <= h)%nat -> (0 < Z.abs (Z.of_nat k) < Z.of_nat m)%Z) by (intros; lia).
  destruct i as [|i']; destruct j as [|j'].
  - cbn [Nat.eqb]. rewrite (rsum_ext _ (fun _ => 1 / 2)) by (intros; cbn [wave]; apply sqrt2_sq). rewrite rsum_const. fold M. field.
  - cbn [Nat.eqb]. destruct (Hk (S j') ltac:(lia)) as [K _]. cbn [wave]. cbn zeta. rewrite rsum_scal. destruct (Nat.odd (S j')); [rewrite sin_sum by lia|rewrite cos_sum by now apply C0]; ring.
  - cbn [Nat.eqb]. destruct (Hk (S i') ltac:(lia)) as [K _]. rewrite (rsum_ext _ (fun r => wave 0 (s + r) * wave (S i') (s + r))) by (intros; ring).
    cbn [wave]. cbn zeta. rewrite rsum_scal. destruct (Nat.odd (S i')); [rewrite sin_sum by lia|rewrite cos_sum by now apply C0]; ring.
  - set (i := S i') in *. set (j := S j') in *.
    destruct (Hk i ltac:(lia)) as (Ki & Oi & Ei). destruct (Hk j ltac:(lia)) as (Kj & Oj & Ej).
    set (a := Z.of_nat ((i + 1) / 2)). set (b := Z.of_nat ((j + 1) / 2)).
    assert (Wi : forall t, wave i t = if Nat.odd i then sin (INR t * theta a) else cos (INR t * theta a)) by reflexivity.
    assert (Wj : forall t, wave j t = if Nat.odd j then sin (INR t * theta b) else cos (INR t * theta b)) by reflexivity.
    rewrite (rsum_ext _ (fun r => (if Nat.odd i then sin (INR (s + r) * theta a) else cos (INR (s + r) * theta a)) * (if Nat.odd j then sin (INR (s + r) * theta b) else cos (INR (s + r) * theta b)))) by (intros; now rewrite Wi, Wj).
    assert (Dm : forall t, INR t * theta (a - b) = INR t * theta a - INR t * theta b) by (intros; rewrite theta_sub; ring).
    assert (Dp : forall t, INR t * theta (a + b) = INR t * theta a + INR t * theta b) by (intros; rewrite theta_add; ring).
    assert (Sp : rsum (fun r => cos (INR (s + r) * theta (a + b))) m = 0) by (apply cos_sum; lia).
    assert (Tp : rsum (fun r => sin (INR (s + r) * theta (a + b))) m = 0) by (apply sin_sum; lia).
    assert (Tm : rsum (fun r => sin (INR (s + r) * theta (a - b))) m = 0) by (apply sin_sum; lia).
    destruct (Nat.eqb_spec i j) as [E|E].
    + assert (Eb : b = a) by (unfold a, b; now rewrite E). clearbody a b. subst b. rewrite <- E in *.
      assert (Sm : rsum (fun r => cos (INR (s + r) * theta (a - a))) m = M) by (rewrite Z.sub_diag; apply cos_sum0).
      destruct (Nat.odd i).
      * rewrite (rsum_ext _ (fun r => (/ 2) * cos (INR (s + r) * theta (a - a)) + (- / 2) * cos (INR (s + r) * theta (a + a)))).
        { rewrite rsum_plus, !rsum_scal, Sm, Sp. field. }
        intros r _. rewrite Dm, Dp, cos_minus, cos_plus. lra.
      * rewrite (rsum_ext _ (fun r => (/ 2) * cos (INR (s + r) * theta (a - a)) + (/ 2) * cos (INR (s + r) * theta (a + a)))).
        { rewrite rsum_plus, !rsum_scal, Sm, Sp. field. }
        intros r _. rewrite Dm, Dp, cos_minus, cos_plus. lra.
    + destruct (Nat.odd i) eqn:Hoi, (Nat.odd j) eqn:Hoj.
      * assert (Sm : rsum (fun r => cos (INR (s + r) * theta (a - b))) m = 0) by (apply cos_sum; specialize (Oi eq_refl); specialize (Oj eq_refl); lia).
        rewrite (rsum_ext _ (fun r => (/ 2) * cos (INR (s + r) * theta (a - b)) + (- / 2) * cos (INR (s + r) * theta (a + b)))).
        { rewrite rsum_plus, !rsum_scal, Sm, Sp. ring. }
        intros r _. rewrite Dm, Dp, cos_minus, cos_plus. lra.
      * rewrite (rsum_ext _ (fun r => (/ 2) * sin (INR (s + r) * theta (a + b)) + (/ 2) * sin (INR (s + r) * theta (a - b)))).
        { rewrite rsum_plus, !rsum_scal, Tm, Tp. ring. }
        intros r _. rewrite Dm, Dp, sin_minus, sin_plus. lra.
      * rewrite (rsum_ext _ (fun r => (/ 2) * sin (INR (s + r) * theta (a + b)) + (- / 2) * sin (INR (s + r) * theta (a - b)))).
        { rewrite rsum_plus, !rsum_scal, Tm, Tp. ring. }
        intros r _. rewrite Dm, Dp, sin_minus, sin_plus. lra.
      * assert (Sm : rsum (fun r => cos (INR (s + r) * theta (a - b))) m = 0) by (apply cos_sum; specialize (Ei eq_refl); specialize (Ej eq_refl); lia).
        rewrite (rsum_ext _ (fun r => (/ 2) * cos (INR (s + r) * theta (a - b)) + (/ 2) * cos (INR (s + r) * theta (a + b)))).
        { rewrite rsum_plus, !rsum_scal, Sm, Sp. ring. }
        intros r _. rewrite Dm, Dp, cos_minus, cos_plus. lra.
Qed.

Lemma wave_period j t : wave j (t + m) = wave j t.
Proof.
  destruct j as [|j]; [reflexivity|]. cbn [wave]. cbn zeta. rewrite plus_INR, Rmult_plus_distr_r, angle_m.
  destruct (Nat.odd (S j)); [apply sin_period_Z|apply cos_period_Z].
Qed.
End Trig.

Lemma basis_orthonormal m h s i j : (2 * h < m)%nat -> (i < 2 * h + 1)%nat -> (j < 2 * h + 1)%nat ->
  rsum (fun r => basis m (s + r) i * basis m (s + r) j) m = if (i =? j)%nat then 1 else 0.
Proof.
  intros Hh Hi Hj. assert (Hm : (0 < m)%nat) by lia. pose proof (Mpos m Hm) as P.
  rewrite (rsum_ext _ (fun r => 2 / INR m * (wave m i (s + r) * wave m j (s + r)))).
  - rewrite rsum_scal, (wave_products m Hm h) by assumption. destruct (i =? j)%nat; [field; lra|ring].
  - intros r _. rewrite !(basis_wave m Hm). pose proof (sqrt_sqrt (2 / INR m)) as E.
    assert (0 <= 2 / INR m) by (apply Rmult_le_pos; [lra|apply Rlt_le, Rinv_0_lt_compat; lra]). specialize (E H). rewrite <- E at 3. ring.
Qed.
Lemma basis_period m t j : (0 < m)%nat -> basis m (t + m) j = basis m t j.
Proof. intros Hm. rewrite !(basis_wave m Hm). now rewrite wave_period. Qed.
Lemma basis_mod m t j : (0 < m)%nat -> basis m (t mod m) j = basis m t j.
Proof.
  intros Hm. rewrite (Nat.div_mod t m) at 2 by lia. generalize (t / m)%nat (t mod m)%nat. intros q r.
  induction q as [|q IH]; [f_equal; lia|]. rewrite IH. replace (m * S q + r)%nat with (m * q + r + m)%nat by lia. now rewrite basis_period.
Qed.
