From Coq Require Import Reals Bool Lra.
From Verif Require Import Model.Stats Model.Activations Spec.ActivationsSpec Proof.StatsProof.
Local Open Scope R_scope.

Lemma Rltb_spec' a b : Rltb a b = true <-> a < b.
Proof. unfold Rltb. destruct (Rlt_dec a b); split; intros; congruence || assumption || lra. Qed.
Lemma Rleb_t a b : a <= b -> Rleb a b = true. Proof. apply Rleb_spec. Qed.
Lemma Rleb_f a b : b < a -> Rleb a b = false.
Proof. intros H. destruct (Rleb a b) eqn:E; [apply Rleb_spec in E; lra|reflexivity]. Qed.
Lemma Rltb_t a b : a < b -> Rltb a b = true. Proof. apply Rltb_spec'. Qed.
Lemma Rltb_f a b : b <= a -> Rltb a b = false.
Proof. intros H. destruct (Rltb a b) eqn:E; [apply Rltb_spec' in E; lra|reflexivity]. Qed.
Ltac dec := repeat first [rewrite Rleb_t by lra | rewrite Rleb_f by lra | rewrite Rltb_t by lra | rewrite Rltb_f by lra].

Lemma tiny_pos : 0 < tiny. Proof. unfold tiny. apply Rinv_0_lt_compat. apply pow_lt. lra. Qed.
Lemma tiny_small : tiny < 1. Proof. unfold tiny. rewrite <- Rinv_1 at 1. apply Rinv_lt_contravar; [|lra]. rewrite Rmult_1_l. apply pow_lt. lra. Qed.
Lemma slope_pos k : 0 < k -> 0 < slope k. Proof. intros. unfold slope. apply Rdiv_lt_0_compat; lra. Qed.
Lemma join k : 0 < k -> slope k * k + intercept k = ln (k + 1). Proof. intros. unfold intercept. lra. Qed.
Lemma ln_pos v : 1 < v -> 0 < ln v. Proof. intros. rewrite <- ln_1. apply ln_increasing; lra. Qed.
Lemma ln_le v w : 0 < v -> v <= w -> ln v <= ln w. Proof. intros H [L| ->]; [left; now apply ln_increasing|lra]. Qed.

(** linloglin piece by piece *)
Lemma lll_first k x : 0 < k -> x < - k -> linloglin k x = slope k * x - intercept k.
Proof. intros. unfold linloglin. dec. cbn [mask]. ring. Qed.
Lemma lll_second k x : 0 < k -> - k <= x < 0 -> linloglin k x = - ln (Rmax (- x) tiny + 1).
Proof. intros. unfold linloglin, clip. dec. cbn [mask]. ring. Qed.
Lemma lll_third k x : 0 < k -> 0 <= x < k -> linloglin k x = ln (Rmax x tiny + 1).
Proof. intros. unfold linloglin, clip. dec. cbn [mask]. ring. Qed.
Lemma lll_fourth k x : 0 < k -> k <= x -> linloglin k x = slope k * x + intercept k.
Proof. intros. unfold linloglin. dec. cbn [mask]. ring. Qed.
Lemma inv_left k y : 0 < k -> y <= - ln (k + 1) -> linloglin_inverse k y = (y + intercept k) / slope k.
Proof.
  intros Hk Hy. pose proof (join k Hk). pose proof (ln_pos (k + 1) ltac:(lra)). unfold linloglin_inverse.
  rewrite (Rleb_t y (slope k * - k - intercept k)) by lra. rewrite (Rleb_f (slope k * k + intercept k) y) by lra. cbn [mask]. ring.
Qed.
Lemma inv_right k y : 0 < k -> ln (k + 1) <= y -> linloglin_inverse k y = (y - intercept k) / slope k.
Proof.
  intros Hk Hy. pose proof (join k Hk). pose proof (ln_pos (k + 1) ltac:(lra)). unfold linloglin_inverse.
  rewrite (Rleb_f y (slope k * - k - intercept k)) by lra. rewrite (Rleb_t (slope k * k + intercept k) y) by lra. cbn [mask]. ring.
Qed.
Lemma inv_mid_neg k y : 0 < k -> - ln (k + 1) < y < 0 -> linloglin_inverse k y = 1 - exp (- y).
Proof.
  intros Hk Hy. pose proof (join k Hk). unfold linloglin_inverse.
  rewrite (Rleb_f y (slope k * - k - intercept k)) by lra. rewrite (Rleb_f (slope k * k + intercept k) y) by lra. dec. cbn [mask]. ring.
Qed.
Lemma inv_mid_pos k y : 0 < k -> 0 <= y < ln (k + 1) -> linloglin_inverse k y = exp y - 1.
Proof.
  intros Hk Hy. pose proof (join k Hk). unfold linloglin_inverse.
  rewrite (Rleb_f y (slope k * - k - intercept k)) by lra. rewrite (Rleb_f (slope k * k + intercept k) y) by lra. dec. cbn [mask]. ring.
Qed.

Lemma linloglin_undone k x : 0 < k -> tiny <= Rabs x -> linloglin_inverse k (linloglin k x) = x.
Proof.
  intros Hk Hx. pose proof (slope_pos k Hk) as Hs. pose proof (join k Hk) as J. pose proof tiny_pos as T.
  destruct (Rlt_le_dec x (- k)) as [H1|H1].
  { rewrite lll_first by assumption. rewrite inv_left; [field; lra|assumption|].
    assert (slope k * x <= slope k * - k) by (apply Rmult_le_compat_l; lra). lra. }
  destruct (Rlt_le_dec x 0) as [H2|H2].
  { rewrite Rabs_left in Hx by lra. rewrite lll_second by lra. rewrite Rmax_left by lra.
    destruct H1 as [H1| <-].
    - rewrite inv_mid_neg; [|assumption|].
      + rewrite Ropp_involutive, exp_ln by lra. ring.
      + assert (ln (- x + 1) < ln (k + 1)) by (apply ln_increasing; lra). pose proof (ln_pos (- x + 1) ltac:(lra)). lra.
    - rewrite Ropp_involutive. rewrite inv_left by lra. rewrite <- J. field. lra. }
  rewrite Rabs_right in Hx by lra.
  destruct (Rlt_le_dec x k) as [H3|H3].
  { rewrite lll_third by lra. rewrite Rmax_left by lra. rewrite inv_mid_pos; [|assumption|].
    - rewrite exp_ln by lra. ring.
    - assert (ln (x + 1) < ln (k + 1)) by (apply ln_increasing; lra). pose proof (ln_pos (x + 1) ltac:(lra)). lra. }
  rewrite lll_fourth by assumption. rewrite inv_right; [field; lra|assumption|].
  assert (slope k * k <= slope k * x) by (apply Rmult_le_compat_l; lra). lra.
Qed.

(** Inside the clipped interval the value is the one at its end. *)
Lemma lll_flat_pos k x : tiny < k -> 0 <= x <= tiny -> linloglin k x = linloglin k tiny.
Proof. intros Hk Hx. pose proof tiny_pos. rewrite !lll_third by lra. now rewrite (Rmax_right x), Rmax_left by lra. Qed.
Lemma lll_flat_neg k x : tiny < k -> - tiny <= x < 0 -> linloglin k x = linloglin k (- tiny).
Proof. intros Hk Hx. pose proof tiny_pos. rewrite !lll_second by lra. now rewrite (Rmax_right (- x)), Ropp_involutive, Rmax_left by lra. Qed.
Lemma linloglin_nearly_undone k x : tiny < k -> Rabs (linloglin_inverse k (linloglin k x) - x) <= / 10 ^ 12.
Proof.
  intros Hk. pose proof tiny_pos as T. fold tiny. destruct (Rle_lt_dec tiny (Rabs x)) as [H|H].
  - rewrite linloglin_undone by lra. unfold Rminus. rewrite Rplus_opp_r, Rabs_R0. lra.
  - destruct (Rlt_le_dec x 0) as [N|N].
    + rewrite Rabs_left in H by exact N. rewrite lll_flat_neg by lra. rewrite linloglin_undone; [|lra|rewrite Rabs_left by lra; lra].
      rewrite Rabs_left1 by lra. lra.
    + rewrite Rabs_right in H by lra. rewrite lll_flat_pos by lra. rewrite linloglin_undone; [|lra|rewrite Rabs_right by lra; lra].
      rewrite Rabs_right by lra. lra.
Qed.
Lemma linloglin_flat : linloglin 10 0 = linloglin 10 (/ 10 ^ 12).
Proof. fold tiny. pose proof tiny_pos. pose proof tiny_small. apply lll_flat_pos; lra. Qed.

Lemma max_mono a b t : a <= b -> Rmax a t <= Rmax b t.
Proof. intros. apply Rle_max_compat_r. assumption. Qed.
Lemma linloglin_nondecreasing k : tiny <= k -> nondecreasing (linloglin k).
Proof.
  intros Hk x y H. pose proof tiny_pos as T. assert (0 < k) as Hk0 by lra. pose proof (slope_pos k Hk0) as Hs. pose proof (join k Hk0) as J. pose proof (ln_pos (k + 1) ltac:(lra)) as L.
  assert (M : forall u v, u <= v -> slope k * u <= slope k * v) by (intros; apply Rmult_le_compat_l; lra).
  assert (P1 : forall x, x < - k -> linloglin k x <= - ln (k + 1)). { intros u Hu. rewrite lll_first by assumption. specialize (M u (- k) ltac:(lra)). lra. }
  assert (P2 : forall x, - k <= x < 0 -> - ln (k + 1) <= linloglin k x <= 0).
  { intros u Hu. rewrite lll_second by assumption. pose proof (Rmax_r (- u) tiny). assert (Rmax (- u) tiny <= k) by (apply Rmax_lub; lra).
    pose proof (ln_le (Rmax (- u) tiny + 1) (k + 1) ltac:(lra) ltac:(lra)). pose proof (ln_pos (Rmax (- u) tiny + 1) ltac:(lra)). lra. }
  assert (P3 : forall x, 0 <= x < k -> 0 <= linloglin k x <= ln (k + 1)).
  { intros u Hu. rewrite lll_third by assumption. pose proof (Rmax_r u tiny). assert (Rmax u tiny <= k) by (apply Rmax_lub; lra).
    pose proof (ln_le (Rmax u tiny + 1) (k + 1) ltac:(lra) ltac:(lra)). pose proof (ln_pos (Rmax u tiny + 1) ltac:(lra)). lra. }
  assert (P4 : forall x, k <= x -> ln (k + 1) <= linloglin k x). { intros u Hu. rewrite lll_fourth by assumption. specialize (M k u Hu). lra. }
  destruct (Rlt_le_dec x (- k)) as [X1|X1].
  { pose proof (P1 x X1). destruct (Rlt_le_dec y (- k)) as [Y1|Y1]; [rewrite !lll_first by assumption; specialize (M x y H); lra|].
    destruct (Rlt_le_dec y 0); [pose proof (P2 y ltac:(lra)); lra|]. destruct (Rlt_le_dec y k); [pose proof (P3 y ltac:(lra)); lra|pose proof (P4 y ltac:(lra)); lra]. }
  destruct (Rlt_le_dec x 0) as [X2|X2].
  { pose proof (P2 x ltac:(lra)). destruct (Rlt_le_dec y 0).
    - rewrite !lll_second by lra. apply Ropp_le_contravar. apply ln_le; [pose proof (Rmax_r (- y) tiny); lra|]. pose proof (max_mono (- y) (- x) tiny ltac:(lra)). lra.
    - destruct (Rlt_le_dec y k); [pose proof (P3 y ltac:(lra)); lra|pose proof (P4 y ltac:(lra)); lra]. }
  destruct (Rlt_le_dec x k) as [X3|X3].
  { pose proof (P3 x ltac:(lra)). destruct (Rlt_le_dec y k); [|pose proof (P4 y ltac:(lra)); lra].
    rewrite !lll_third by lra. apply ln_le; [pose proof (Rmax_r x tiny); lra|]. pose proof (max_mono x y tiny ltac:(lra)). lra. }
  rewrite !lll_fourth by lra. specialize (M x y H). lra.
Qed.
Lemma linloglin_increasing k : / 10 ^ 12 <= k -> increasing_on (fun x => / 10 ^ 12 <= Rabs x) (linloglin k).
Proof.
  intros Hk x y Hx Hy H. fold tiny in *. pose proof tiny_pos. destruct (linloglin_nondecreasing k Hk x y ltac:(lra)) as [L|E]; [exact L|exfalso].
  pose proof (linloglin_undone k x ltac:(lra) Hx) as Ux. rewrite E, linloglin_undone in Ux by lra. lra.
Qed.

(** invcondiff *)
Lemma exp_12_bound : exp 12 <= 10 ^ 12.
Proof.
  replace 12 with (1 + 1 + 1 + 1 + 1 + 1 + 1 + 1 + 1 + 1 + 1 + 1) by lra. rewrite !exp_plus.
  assert (0 < exp 1 <= 10). { split; [apply exp_pos|]. pose proof exp_le_3. lra. }
  replace (exp 1 * exp 1 * exp 1 * exp 1 * exp 1 * exp 1 * exp 1 * exp 1 * exp 1 * exp 1 * exp 1 * exp 1) with (exp 1 ^ 12) by ring.
  apply pow_incr. lra.
Qed.
Lemma tiny_below : tiny <= exp (-12).
Proof. unfold tiny. replace (-12) with (- (12)) by lra. rewrite exp_Ropp. apply Rinv_le_contravar; [apply exp_pos|apply exp_12_bound]. Qed.
Section IC.
Context (a c : R) (Ha : exp (-12) <= a) (Hc : 0 < c).
Let b := a * c. Let k := a * c * (1 - ln a).
Lemma a_pos : 0 < a. Proof. pose proof (exp_pos (-12)). lra. Qed.
Lemma b_pos : 0 < b. Proof. unfold b. apply Rmult_lt_0_compat; [apply a_pos|exact Hc]. Qed.
Lemma tiny_a : tiny <= a. Proof. pose proof tiny_below. lra. Qed.
Lemma bk : b * ln a + k = a * c. Proof. unfold b, k. ring. Qed.
Lemma ic_left x : x < - a -> invcondiff a c x = - b * ln (- x) - k.
Proof. intros. pose proof a_pos. pose proof tiny_a. unfold invcondiff, clip. rewrite (Rmax_left (- x)) by lra. dec. cbn [mask andb]. unfold b, k. ring. Qed.
Lemma ic_mid x : - a <= x <= a -> invcondiff a c x = c * x.
Proof. intros. pose proof a_pos. unfold invcondiff. dec. cbn [mask andb]. ring. Qed.
Lemma ic_right x : a < x -> invcondiff a c x = b * ln x + k.
Proof. intros. pose proof a_pos. pose proof tiny_a. unfold invcondiff, clip. rewrite (Rmax_left x) by lra. dec. cbn [mask andb]. unfold b, k. ring. Qed.
Lemma ici_left y : y < - (a * c) -> invcondiff_inverse a c y = - safe_exp (- (y + k) / b).
Proof.
  intros H. assert (B : 0 < a * c) by exact b_pos. unfold invcondiff_inverse. cbv zeta. fold k. fold b.
  replace (b * ln a + k) with (a * c) by (subst b k; ring). replace (- b * ln a - k) with (- (a * c)) by (subst b k; ring).
  rewrite (Rltb_t y (- (a * c))) by lra. rewrite (Rltb_f (a * c) y) by lra. cbn [mask andb negb]. ring.
Qed.
Lemma ici_right y : a * c < y -> invcondiff_inverse a c y = safe_exp ((y - k) / b).
Proof.
  intros H. assert (B : 0 < a * c) by exact b_pos. unfold invcondiff_inverse. cbv zeta. fold k. fold b.
  replace (b * ln a + k) with (a * c) by (subst b k; ring). replace (- b * ln a - k) with (- (a * c)) by (subst b k; ring).
  rewrite (Rltb_f y (- (a * c))) by lra. rewrite (Rltb_t (a * c) y) by lra. cbn [mask andb negb]. ring.
Qed.
Lemma ici_mid y : - (a * c) <= y <= a * c -> invcondiff_inverse a c y = y / c.
Proof.
  intros H. assert (B : 0 < a * c) by exact b_pos. unfold invcondiff_inverse. cbv zeta. fold k. fold b.
  replace (b * ln a + k) with (a * c) by (subst b k; ring). replace (- b * ln a - k) with (- (a * c)) by (subst b k; ring).
  rewrite (Rltb_f y (- (a * c))) by lra. rewrite (Rltb_f (a * c) y) by lra. cbn [mask andb negb]. ring.
Qed.
Lemma ln_a_lower : -12 <= ln a.
Proof. rewrite <- (ln_exp (-12)). apply ln_le; [apply exp_pos|exact Ha]. Qed.
Lemma safe_exp_ln v : a <= v <= exp 12 -> safe_exp (ln v) = v.
Proof.
  intros H. pose proof a_pos. pose proof ln_a_lower. pose proof (ln_le a v ltac:(lra) ltac:(lra)).
  assert (ln v <= 12) by (rewrite <- (ln_exp 12); apply ln_le; lra). unfold safe_exp. rewrite Rmax_left, Rmin_left by lra. apply exp_ln. lra.
Qed.
Lemma ic_round x : Rabs x <= exp 12 -> invcondiff_inverse a c (invcondiff a c x) = x.
Proof.
  intros Hx. pose proof a_pos as A. pose proof b_pos as B. pose proof bk as E. assert (Hb : b <> 0) by lra.
  destruct (Rlt_le_dec x (- a)) as [H|H].
  - rewrite Rabs_left in Hx by lra. rewrite ic_left by exact H. assert (ln a < ln (- x)) by (apply ln_increasing; lra).
    assert (b * ln a < b * ln (- x)) by (apply Rmult_lt_compat_l; lra). rewrite ici_left by lra.
    replace (- (- b * ln (- x) - k + k) / b) with (ln (- x)) by (field; exact Hb). rewrite safe_exp_ln by lra. ring.
  - destruct (Rlt_le_dec a x) as [H'|H'].
    + rewrite Rabs_right in Hx by lra. rewrite ic_right by exact H'. assert (ln a < ln x) by (apply ln_increasing; lra).
      assert (b * ln a < b * ln x) by (apply Rmult_lt_compat_l; lra). rewrite ici_right by lra.
      replace ((b * ln x + k - k) / b) with (ln x) by (field; exact Hb). apply safe_exp_ln. lra.
    + rewrite ic_mid by lra. rewrite ici_mid; [field; lra|]. split.
      * replace (- (a * c)) with (c * - a) by ring. apply Rmult_le_compat_l; lra.
      * rewrite (Rmult_comm a). apply Rmult_le_compat_l; lra.
Qed.
Lemma ic_clipped x : exp 12 < x -> a < x -> invcondiff_inverse a c (invcondiff a c x) = exp 12.
Proof.
  intros Hx Hxa. pose proof a_pos as A. pose proof b_pos as B. pose proof bk as E. assert (Hb : b <> 0) by lra.
  rewrite ic_right by exact Hxa. assert (ln a < ln x) by (apply ln_increasing; lra). assert (b * ln a < b * ln x) by (apply Rmult_lt_compat_l; lra).
  rewrite ici_right by lra. replace ((b * ln x + k - k) / b) with (ln x) by (field; exact Hb).
  assert (12 < ln x) by (rewrite <- (ln_exp 12); apply ln_increasing; [apply exp_pos|exact Hx]). unfold safe_exp. rewrite Rmax_left, Rmin_right by lra. reflexivity.
Qed.
Lemma ic_incr x y : x < y -> invcondiff a c x < invcondiff a c y.
Proof.
  intros H. pose proof a_pos as A. pose proof b_pos as B. pose proof bk as E.
  assert (L : forall u v, 0 < u -> u < v -> b * ln u < b * ln v) by (intros; apply Rmult_lt_compat_l; [exact B|now apply ln_increasing]).
  assert (P1 : forall u, u < - a -> invcondiff a c u < - (a * c)). { intros u Hu. rewrite ic_left by exact Hu. specialize (L a (- u) A ltac:(lra)). lra. }
  assert (P3 : forall u, a < u -> a * c < invcondiff a c u). { intros u Hu. rewrite ic_right by exact Hu. specialize (L a u A Hu). lra. }
  assert (P2 : forall u, - a <= u <= a -> - (a * c) <= invcondiff a c u <= a * c).
  { intros u Hu. rewrite ic_mid by exact Hu. split; [replace (- (a * c)) with (c * - a) by ring|rewrite (Rmult_comm a)]; apply Rmult_le_compat_l; lra. }
  destruct (Rlt_le_dec x (- a)) as [X|X].
  - destruct (Rlt_le_dec y (- a)) as [Y|Y]; [rewrite !ic_left by assumption; specialize (L (- y) (- x) ltac:(lra) ltac:(lra)); lra|].
    pose proof (P1 x X). destruct (Rlt_le_dec a y) as [Y'|Y']; [pose proof (P3 y Y'); unfold b in B; lra|pose proof (P2 y ltac:(lra)); lra].
  - destruct (Rlt_le_dec a x) as [X'|X']; [rewrite !ic_right by lra; specialize (L x y ltac:(lra) H); lra|].
    destruct (Rlt_le_dec a y) as [Y'|Y']; [pose proof (P2 x ltac:(lra)); pose proof (P3 y Y'); lra|].
    rewrite !ic_mid by lra. apply Rmult_lt_compat_l; assumption.
Qed.
End IC.
Lemma invcondiff_undone a c x : exp (-12) <= a -> 0 < c -> Rabs x <= exp 12 -> invcondiff_inverse a c (invcondiff a c x) = x.
Proof. intros. now apply ic_round. Qed.
Lemma invcondiff_increasing a c : exp (-12) <= a -> 0 < c -> increasing_on (fun _ => True) (invcondiff a c).
Proof. intros Ha Hc x y _ _. now apply ic_incr. Qed.
Lemma exp12_big : 1 < exp 12. Proof. rewrite <- exp_0. apply exp_increasing. lra. Qed.
Lemma exp_m12 : exp (-12) <= 1. Proof. rewrite <- exp_0. left. apply exp_increasing. lra. Qed.
Lemma invcondiff_not_undone x : exp 12 < x -> invcondiff_inverse 1 1 (invcondiff 1 1 x) <> x.
Proof. intros H. pose proof exp12_big. rewrite ic_clipped; try lra. apply exp_m12. Qed.

(** leaky relu *)
Lemma leaky_undone s x : 0 < s -> leaky_relu_inverse s (leaky_relu s x) = x.
Proof.
  intros Hs. unfold leaky_relu, leaky_relu_inverse. destruct (Rle_lt_dec 0 x) as [H|H]; [rewrite !(Rleb_t 0 x) by exact H; reflexivity|].
  rewrite (Rleb_f 0 x) by exact H. assert (s * x < 0) by (rewrite <- (Rmult_0_r s); apply Rmult_lt_compat_l; assumption).
  rewrite Rleb_f by assumption. field. lra.
Qed.
Lemma leaky_wrong_slope : exists x, leaky_relu_inverse (1 / 100) (leaky_relu (1 / 10) x) <> x.
Proof. exists (-1). unfold leaky_relu, leaky_relu_inverse. rewrite (Rleb_f 0 (-1)) by lra. rewrite Rleb_f by lra. lra. Qed.
(** softplus *)
Lemma softplus_pos x : 0 < softplus x. Proof. unfold softplus. apply ln_pos. pose proof (exp_pos x). lra. Qed.
Lemma exp_softplus x : exp (softplus x) - 1 = exp x.
Proof. unfold softplus. pose proof (exp_pos x). rewrite exp_ln by lra. ring. Qed.
Lemma softplus_undone x : / 10 ^ 6 <= softplus x <= 20 -> softplus_inverse (softplus x) = x.
Proof.
  intros H. unfold softplus_inverse, inverse_softplus. rewrite Rmax_right by lra. rewrite Rltb_f by lra. rewrite exp_softplus. apply ln_exp.
Qed.
Lemma softplus_large x : 20 < softplus x -> softplus_inverse (softplus x) = softplus x /\ 0 < softplus x - x <= exp (- x).
Proof.
  intros H. assert (Rmax (/ 10 ^ 6) (softplus x) = softplus x) as E.
  { apply Rmax_right. assert (/ 10 ^ 6 <= 1). { rewrite <- Rinv_1. apply Rinv_le_contravar; lra. } lra. }
  unfold softplus_inverse, inverse_softplus. rewrite E, Rltb_t by exact H. split; [reflexivity|].
  unfold softplus in *. assert (ln (1 + exp x) - x = ln (1 + exp (- x))) as ->.
  { replace (ln (1 + exp x) - x) with (ln (1 + exp x) + ln (exp (- x))) by (rewrite ln_exp; ring).
    rewrite <- ln_mult by (pose proof (exp_pos x); pose proof (exp_pos (- x)); lra). f_equal. rewrite Rmult_plus_distr_r, <- exp_plus, Rplus_opp_r, exp_0. ring. }
  pose proof (exp_pos (- x)). split; [apply ln_pos; lra|].
  pose proof (exp_ineq1 (exp (- x)) ltac:(lra)). apply Rle_trans with (ln (exp (exp (- x)))); [apply ln_le; lra|rewrite ln_exp; lra].
Qed.
Lemma softplus_small x x' : softplus x < / 10 ^ 6 -> softplus x' < / 10 ^ 6 -> softplus_inverse (softplus x) = softplus_inverse (softplus x').
Proof. intros H H'. unfold softplus_inverse. rewrite !Rmax_left by lra. reflexivity. Qed.

(** The layer's inverse for each activation. *)
Lemma identity_not_undone s x : 1 < x <= 13 -> invert_activation s Identity (activate Identity x) <> Some x.
Proof.
  intros H. cbn. assert (invcondiff_inverse 1 1 x <> x); [|congruence].
  rewrite ici_right by (try apply exp_m12; lra). rewrite ln_1. replace ((x - 1 * 1 * (1 - 0)) / (1 * 1)) with (x - 1) by field.
  unfold safe_exp. rewrite Rmax_left, Rmin_left by lra. pose proof (exp_ineq1 (x - 1) ltac:(lra)). lra.
Qed.
Lemma inverse_not_undone s x : 2 < x <= 13 -> invert_activation s InvcondiffInverse (activate InvcondiffInverse x) <> Some x.
Proof.
  intros H. cbn. assert (E : forall y, 1 < y -> invcondiff_inverse 1 1 y = safe_exp (y - 1)).
  { intros y Hy. rewrite ici_right by (try apply exp_m12; lra). rewrite ln_1. f_equal. field. }
  assert (invcondiff_inverse 1 1 (invcondiff_inverse 1 1 x) <> x); [|congruence].
  assert (E1 : invcondiff_inverse 1 1 x = exp (x - 1)). { rewrite E by lra. unfold safe_exp. rewrite Rmax_left, Rmin_left by lra. reflexivity. }
  pose proof (exp_ineq1 (x - 1) ltac:(lra)) as I. rewrite E1. rewrite E by lra. unfold safe_exp. rewrite Rmax_left by lra.
  destruct (Rle_lt_dec (exp (x - 1) - 1) 12) as [L|L].
  - rewrite Rmin_left by lra. pose proof (exp_ineq1 (exp (x - 1) - 1) ltac:(lra)). lra.
  - rewrite Rmin_right by lra. pose proof (exp_ineq1 12 ltac:(lra)). 
    assert (exp 12 > 13). { lra. } lra.
Qed.
