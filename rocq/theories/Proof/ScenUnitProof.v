(** Copulas and scenarios in another unit. *)
From Coq Require Import List ZArith Bool Arith Reals Lra Lia FunctionalExtensionality.
From Verif Require Import Model.Series Model.Subsample Model.Stats Model.Quantiles Model.Metrics Model.FourierEs Model.ScenGen Model.CopulaFit
  Spec.CopulaFitSpec Spec.ScenUnitSpec Proof.FourierProof Proof.CopulaFitProof Proof.UnitsProof2.
Import ListNotations.
Local Open Scope R_scope.

Lemma rescaled_length k b row : length (rescaled k b row) = length row.
Proof. unfold rescaled. now rewrite map_length, seq_length. Qed.
Lemma rescaled_nth k b row j : (j < length row)%nat -> nth j (rescaled k b row) 0 = k j * nth j row 0 + b j.
Proof.
  intros Hj. unfold rescaled. rewrite (nth_indep _ 0 (k 0%nat * nth 0 row 0 + b 0%nat)) by (rewrite map_length, seq_length; lia).
  rewrite (map_nth (fun j => k j * nth j row 0 + b j)), seq_nth by lia. reflexivity.
Qed.

Section Factors.
Context (xs xs' : nat -> nat -> R) (n dim : nat) (k b : nat -> R).
Context (Hx : forall r j, (r < n)%nat -> (j < dim)%nat -> xs' r j = k j * xs r j + b j) (Hk : forall i j, (i < dim)%nat -> (j < dim)%nat -> 0 < k i * k j).

Lemma deviation_factor r j : (r < n)%nat -> (j < dim)%nat -> deviation xs' n r j = k j * deviation xs n r j.
Proof.
  intros Hr Hj. unfold deviation, average. rewrite Hx by assumption. rewrite (rsum_ext (fun r => xs' r j) (fun r => k j * xs r j + b j)) by (intros; now apply Hx).
  rewrite rsum_plus, rsum_scal, rsum_const. assert (0 < INR n) by (apply lt_0_INR; lia). field. lra.
Qed.
Lemma cov_factor d i j : (i < dim)%nat -> (j < dim)%nat -> cov_est d xs' n i j = k i * k j * cov_est d xs n i j.
Proof.
  intros Hi Hj. unfold cov_est. rewrite (rsum_ext _ (fun r => (k i * k j) * (deviation xs n r i * deviation xs n r j))).
  - rewrite rsum_scal. unfold Rdiv. ring.
  - intros r Hr. rewrite !deviation_factor by assumption. ring.
Qed.
Lemma k_nonzero i : (i < dim)%nat -> k i <> 0.
Proof. intros Hi E. pose proof (Hk i i Hi Hi). rewrite E in H. lra. Qed.
Lemma sqrt_factor d i : (i < dim)%nat -> 0 < cov_est d xs n i i -> sqrt (cov_est d xs' n i i) = Rabs (k i) * sqrt (cov_est d xs n i i).
Proof.
  intros Hi Hp. rewrite cov_factor by assumption. rewrite sqrt_mult_alt by (left; now apply Hk). f_equal. change (k i * k i) with (Rsqr (k i)). apply sqrt_Rsqr_abs.
Qed.
Lemma positive_factor d i : (i < dim)%nat -> (0 < cov_est d xs n i i <-> 0 < cov_est d xs' n i i).
Proof.
  intros Hi. rewrite cov_factor by assumption. pose proof (Hk i i Hi Hi). split; intros P; [now apply Rmult_lt_0_compat|].
  apply (Rmult_lt_reg_l (k i * k i)); [assumption|lra].
Qed.
Lemma abs_product i j : (i < dim)%nat -> (j < dim)%nat -> Rabs (k i) * Rabs (k j) = k i * k j.
Proof. intros Hi Hj. rewrite <- Rabs_mult. apply Rabs_pos_eq. left. now apply Hk. Qed.
Lemma ratio_factor d i j : (i < dim)%nat -> (j < dim)%nat -> 0 < cov_est d xs n i i -> 0 < cov_est d xs n j j ->
  cov_est d xs' n i j / sqrt (cov_est d xs' n i i) / sqrt (cov_est d xs' n j j) = cov_est d xs n i j / sqrt (cov_est d xs n i i) / sqrt (cov_est d xs n j j).
Proof.
  intros Hi Hj Pi Pj. rewrite !sqrt_factor, (cov_factor d i j) by assumption. rewrite <- (abs_product i j Hi Hj).
  pose proof (sqrt_lt_R0 _ Pi). pose proof (sqrt_lt_R0 _ Pj). pose proof (Rabs_no_R0 _ (k_nonzero i Hi)). pose proof (Rabs_no_R0 _ (k_nonzero j Hj)). field. lra.
Qed.
Lemma vanilla_factor i j : (i < dim)%nat -> (j < dim)%nat -> corr_vanilla xs' n i j = corr_vanilla xs n i j.
Proof.
  intros Hi Hj. unfold corr_vanilla. destruct (n <=? 1)%nat; [reflexivity|].
  pose proof (positive_factor 1 i Hi) as Qi. pose proof (positive_factor 1 j Hj) as Qj.
  destruct (Rlt_dec 0 (cov_est 1 xs n i i)) as [Pi|Pi], (Rlt_dec 0 (cov_est 1 xs' n i i)) as [Pi'|Pi']; try tauto.
  destruct (Rlt_dec 0 (cov_est 1 xs n j j)) as [Pj|Pj], (Rlt_dec 0 (cov_est 1 xs' n j j)) as [Pj'|Pj']; try tauto.
  now rewrite ratio_factor by assumption.
Qed.
Definition spread : R := rsum (fun a => cov_est 0 xs n a a) dim.
Lemma spread_factor : rsum (fun a => cov_est 0 xs' n a a) dim = rsum (fun a => k a * k a * cov_est 0 xs n a a) dim.
Proof. apply rsum_ext. intros a Ha. now apply cov_factor. Qed.
Lemma shrunk_factor_off i j : (i < dim)%nat -> (j < dim)%nat -> i <> j -> corr_shrunk xs' n dim i j = corr_shrunk xs n dim i j.
Proof.
  intros Hi Hj Hij. unfold corr_shrunk.
  pose proof (positive_factor 0 i Hi) as Qi. pose proof (positive_factor 0 j Hj) as Qj.
  destruct (Rlt_dec 0 (cov_est 0 xs n i i)) as [Pi|Pi], (Rlt_dec 0 (cov_est 0 xs' n i i)) as [Pi'|Pi']; try tauto.
  destruct (Rlt_dec 0 (cov_est 0 xs n j j)) as [Pj|Pj], (Rlt_dec 0 (cov_est 0 xs' n j j)) as [Pj'|Pj']; try tauto.
  destruct (Nat.eqb_spec i j); [contradiction|]. f_equal. rewrite !Rplus_0_r.
  pose proof (ratio_factor 0 i j Hi Hj Pi Pj) as E. pose proof (sqrt_lt_R0 _ Pi). pose proof (sqrt_lt_R0 _ Pj). pose proof (sqrt_lt_R0 _ Pi'). pose proof (sqrt_lt_R0 _ Pj').
  transitivity (9 / 10 * (cov_est 0 xs' n i j / sqrt (cov_est 0 xs' n i i) / sqrt (cov_est 0 xs' n j j))); [field; lra|]. rewrite E. field. lra.
Qed.
Lemma shrunk_factor_diag i : (i < dim)%nat -> 0 < cov_est 0 xs n i i ->
  (corr_shrunk xs' n dim i i = corr_shrunk xs n dim i i <-> rsum (fun a => (k a * k a - k i * k i) * cov_est 0 xs n a a) dim = 0).
Proof.
  intros Hi Pi. unfold corr_shrunk. pose proof (proj1 (positive_factor 0 i Hi) Pi) as Pi'.
  destruct (Rlt_dec 0 (cov_est 0 xs n i i)) as [_|]; [|contradiction]. destruct (Rlt_dec 0 (cov_est 0 xs' n i i)) as [_|]; [|contradiction].
  rewrite Nat.eqb_refl, !sqrt_sqrt by lra. rewrite spread_factor, (cov_factor 0 i i Hi Hi).
  rewrite (rsum_ext (fun a => (k a * k a - k i * k i) * cov_est 0 xs n a a) (fun a => k a * k a * cov_est 0 xs n a a + (- (k i * k i)) * cov_est 0 xs n a a)) by (intros; ring).
  rewrite rsum_plus, rsum_scal. set (s' := rsum (fun a => k a * k a * cov_est 0 xs n a a) dim). set (s := rsum (fun k0 => cov_est 0 xs n k0 k0) dim). set (v := cov_est 0 xs n i i) in *.
  assert (Hd : 0 < INR dim) by (apply lt_0_INR; lia). pose proof (Hk i i Hi Hi) as K.
  assert (X : (9 / 10 * (k i * k i * v) + 1 / 10 * (s' / INR dim)) / (k i * k i * v) - (9 / 10 * v + 1 / 10 * (s / INR dim)) / v = (s' + - (k i * k i) * s) / (10 * INR dim * (k i * k i) * v)).
  { pose proof (k_nonzero i Hi). field. repeat split; lra. }
  split; intros E.
  - injection E as E. assert (Z : (s' + - (k i * k i) * s) / (10 * INR dim * (k i * k i) * v) = 0) by lra.
    assert (D : 0 < 10 * INR dim * (k i * k i) * v) by (apply Rmult_lt_0_compat; [apply Rmult_lt_0_compat; [lra|exact K]|exact Pi]).
    apply (Rmult_eq_compat_r (10 * INR dim * (k i * k i) * v)) in Z. unfold Rdiv in Z. rewrite Rmult_assoc, Rinv_l, Rmult_1_r, Rmult_0_l in Z by lra. exact Z.
  - f_equal. rewrite E in X. assert (Z0 : forall d, 0 / d = 0) by (intros; unfold Rdiv; ring). rewrite Z0 in X. lra.
Qed.
End Factors.

Lemma hour_data_rescaled hours errs h k b dim r j : Forall (fun row => length row = dim) errs -> (r < length (Quantiles.rows_at hours h errs))%nat -> (j < dim)%nat ->
  hour_data hours (map (rescaled k b) errs) h r j = k j * hour_data hours errs h r j + b j.
Proof.
  intros Hl Hr Hj. unfold hour_data. rewrite rows_at_map. change (@nil R) with (rescaled k b []) at 1. rewrite map_nth. apply rescaled_nth.
  assert (Hin : In (nth r (Quantiles.rows_at hours h errs) []) (Quantiles.rows_at hours h errs)) by (apply nth_In; exact Hr).
  unfold Quantiles.rows_at in Hin. apply in_map_iff in Hin. destruct Hin as ((h0 & row) & E & Hin). cbn in E. apply filter_In in Hin. destruct Hin as [Hin _]. apply in_combine_r in Hin.
  rewrite Forall_forall in Hl. unfold Quantiles.rows_at. rewrite <- E. rewrite (Hl row Hin). exact Hj.
Qed.
Lemma copula_rescaled m hours errs dim k b h i j : Forall (fun row => length row = dim) errs -> (i < dim)%nat -> (j < dim)%nat ->
  (forall a c, (a < dim)%nat -> (c < dim)%nat -> 0 < k a * k c) -> (m = Vanilla \/ i <> j \/ forall a, (a < dim)%nat -> k a = k i) ->
  hour_cov m hours (map (rescaled k b) errs) dim h i j = hour_cov m hours errs dim h i j.
Proof.
  intros Hl Hi Hj Hk Hm. unfold hour_cov. rewrite rows_at_map, map_length. set (n := length (Quantiles.rows_at hours h errs)).
  pose proof (hour_data_rescaled hours errs h k b dim) as HX.
  assert (Hx : forall r j, (r < n)%nat -> (j < dim)%nat -> hour_data hours (map (rescaled k b) errs) h r j = k j * hour_data hours errs h r j + b j) by (intros; now apply HX).
  destruct m; cbn [corr_est]; [now apply (vanilla_factor _ _ n dim k b)|].
  destruct (Nat.eq_dec i j) as [<-|Hij]; [|now apply (shrunk_factor_off _ _ n dim k b)].
  destruct Hm as [Q|[Q|Q]]; [discriminate|congruence|].
  destruct (Rlt_dec 0 (cov_est 0 (hour_data hours errs h) n i i)) as [P|P].
  - apply (shrunk_factor_diag _ _ n dim k b Hx Hk i Hi P). rewrite (rsum_ext _ (fun _ => 0)) by (intros a Ha; rewrite (Q a Ha); ring). rewrite rsum_const. ring.
  - unfold corr_shrunk. destruct (Rlt_dec 0 (cov_est 0 (hour_data hours errs h) n i i)); [contradiction|].
    destruct (Rlt_dec 0 (cov_est 0 (hour_data hours (map (rescaled k b) errs) h) n i i)) as [P'|]; [|reflexivity].
    exfalso. apply P. apply (positive_factor _ _ n dim k b Hx Hk 0 i Hi). exact P'.
Qed.
Lemma shrunk_rescaled hours errs dim k b h i : Forall (fun row => length row = dim) errs -> (i < dim)%nat ->
  (forall a c, (a < dim)%nat -> (c < dim)%nat -> 0 < k a * k c) -> 
  let n := length (Quantiles.rows_at hours h errs) in let var := variance (hour_data hours errs h) n in
  (0 < n)%nat -> 0 < var i ->
  (hour_cov Shrunk hours (map (rescaled k b) errs) dim h i i = hour_cov Shrunk hours errs dim h i i <->
   total (fun a => (k a * k a - k i * k i) * var a) dim = 0).
Proof.
  intros Hl Hi Hk n var Hn Hv. unfold hour_cov. rewrite rows_at_map, map_length. fold n. cbn [corr_est].
  assert (Hx : forall r j, (r < n)%nat -> (j < dim)%nat -> hour_data hours (map (rescaled k b) errs) h r j = k j * hour_data hours errs h r j + b j) by (intros; now apply hour_data_rescaled with (dim := dim)).
  assert (V : forall a, cov_est 0 (hour_data hours errs h) n a a = var a).
  { intros a. unfold var. rewrite variance_dot by exact Hn. rewrite cov_est_dot. f_equal. ring. }
  rewrite (shrunk_factor_diag _ _ n dim k b Hx Hk i Hi) by now rewrite V. rewrite (total_rsum (fun a => (k a * k a - k i * k i) * var a) dim).
  rewrite (rsum_ext (fun a => (k a * k a - k i * k i) * cov_est 0 (hour_data hours errs h) n a a) (fun a => (k a * k a - k i * k i) * var a)) by (intros a _; now rewrite V). reflexivity.
Qed.

Definition moved_point (k d : R) (p : R * R) : R * R := (fst p, k * snd p + d).
Lemma insert_moved k d p l : insert_point (moved_point k d p) (map (moved_point k d) l) = map (moved_point k d) (insert_point p l).
Proof. induction l as [|a l IH]; cbn; [reflexivity|]. destruct (Rle_dec (fst p) (fst a)); cbn; [reflexivity|]. now rewrite IH. Qed.
Lemma sort_moved k d l : sort_points (map (moved_point k d) l) = map (moved_point k d) (sort_points l).
Proof. unfold sort_points. induction l as [|a l IH]; cbn; [reflexivity|]. now rewrite IH, insert_moved. Qed.
Lemma combine_moved k d (q v : list R) : combine q (map (fun x => k * x + d) v) = map (moved_point k d) (combine q v).
Proof. revert v; induction q as [|a q IH]; intros [|b v]; cbn; [reflexivity..|]. now rewrite IH. Qed.
Lemma line_moved k d a b x : line (moved_point k d a) (moved_point k d b) x = k * line a b x + d.
Proof. unfold line, moved_point, Rdiv. cbn. ring. Qed.
Lemma interp_moved q values k d x : interp1d q (map (fun v => k * v + d) values) x = option_map (fun v => k * v + d) (interp1d q values x).
Proof.
  unfold interp1d. rewrite combine_moved, sort_moved, map_length. set (pts := sort_points (combine q values)).
  destruct (Nat.ltb_spec (length pts) 2) as [|H]; [reflexivity|]. cbn [option_map]. f_equal. rewrite map_map. cbn [moved_point fst].
  set (hi := cell_index (map (fun x0 : R * R => fst x0) pts) x).
  assert (Hh : (hi < length pts)%nat).
  { unfold hi, cell_index. rewrite map_length. lia. }
  change (map fst pts) with (map (fun x0 : R * R => fst x0) pts). fold hi.
  rewrite !(nth_indep (map (moved_point k d) pts) (0, 0) (moved_point k d (0, 0))) by (rewrite map_length; lia). rewrite !map_nth. apply line_moved.
Qed.

Lemma times_rescaled k row : map (Rmult k) row = rescaled (fun _ => k) (fun _ => 0) row.
Proof.
  apply (nth_ext _ _ 0 0); [now rewrite rescaled_length, map_length|]. intros j Hj. rewrite map_length in Hj. rewrite rescaled_nth by exact Hj.
  rewrite (nth_indep _ 0 (k * 0)) by now rewrite map_length. rewrite (map_nth (Rmult k)). ring.
Qed.
Lemma finite_matrix_ext dim f g : (forall i j, (i < dim)%nat -> (j < dim)%nat -> f i j = g i j) -> finite_matrix dim f = finite_matrix dim g.
Proof.
  intros H. unfold finite_matrix.
  assert (F : forall l (p q : nat -> bool), (forall x, In x l -> p x = q x) -> forallb p l = forallb q l).
  { induction l as [|a l IH]; intros p q E; cbn; [reflexivity|]. rewrite (E a) by (now left). f_equal. apply IH. intros x Hx. apply E. now right. }
  apply F. intros i Hi. apply F. intros j Hj. apply in_seq in Hi. apply in_seq in Hj. now rewrite H by lia.
Qed.
Lemma scenarios_units rvs seed m cdf fit_hours errs q_vect additional init nz steps n_scen hours quantiles k d n scen :
  (forall seed f g shape at_, (forall i j, (i < steps)%nat -> (j < steps)%nat -> f i j = g i j) -> rvs seed f shape at_ = rvs seed g shape at_) ->
  Forall (fun row => length row = steps) errs -> 0 < k -> (additional = true -> init <> None) ->
  seeded_scenarios rvs seed m cdf fit_hours errs q_vect additional init nz steps n_scen hours quantiles = Some (n, scen) ->
  exists scen', seeded_scenarios rvs seed m cdf fit_hours (map (map (Rmult k)) errs) q_vect additional (option_map (map (fun v => k * v + d)) init) nz steps n_scen hours
                  (fun i j => map (fun v => k * v + d) (quantiles i j)) = Some (n, scen') /\
    forall i j s, (i < length hours)%nat ->
      scen' i j s = option_map (fun v => k * v + d + (1 - k) * (n_normal nz i j s / 1000000000 + (if additional && (j =? 0)%nat then n_uniform nz i s / 1000000 else 0))) (scen i j s).
Proof.
  intros Hr Hl Hk Ha. unfold seeded_scenarios, copula_fit_sample.
  assert (C : forall h i j, (i < steps)%nat -> (j < steps)%nat -> hour_cov m fit_hours (map (map (Rmult k)) errs) steps h i j = hour_cov m fit_hours errs steps h i j).
  { intros h i j Hi Hj. rewrite (map_ext _ _ (times_rescaled k)). apply copula_rescaled; try assumption.
    - intros. now apply Rmult_lt_0_compat.
    - right. right. reflexivity. }
  assert (D : seeded_draws rvs seed m fit_hours (map (map (Rmult k)) errs) steps n_scen hours = seeded_draws rvs seed m fit_hours errs steps n_scen hours).
  { apply functional_extensionality. intros h. apply functional_extensionality. intros at_. unfold seeded_draws. apply Hr. intros. now apply C. }
  rewrite D.
  assert (F : forallb (fun h => finite_matrix steps (hour_cov m fit_hours (map (map (Rmult k)) errs) steps h)) (unique_hours hours) =
              forallb (fun h => finite_matrix steps (hour_cov m fit_hours errs steps h)) (unique_hours hours)).
  { f_equal. apply functional_extensionality. intros h. apply finite_matrix_ext. intros. now apply C. }
  rewrite F. destruct (forallb (fun h => finite_matrix steps (hour_cov m fit_hours errs steps h)) (unique_hours hours)); [|intros Q; discriminate Q]. destruct (copula_sample _ _ _ _ _ _) as [samples|]; [|intros Q; discriminate Q].
  unfold sample_scenarios. destruct additional.
  - destruct init as [l|]; [|now specialize (Ha eq_refl)]. cbn [option_map]. rewrite map_length. destruct (Nat.eqb_spec (length l) (length hours)) as [El|]; [|intros Q; discriminate Q].
    intros Q. injection Q as <- <-. eexists. split; [reflexivity|]. intros i j s Hi. destruct j as [|j']; cbn [Nat.eqb andb].
    + cbn [option_map]. f_equal. rewrite (nth_indep _ 0 (k * 0 + d)) by (rewrite map_length; lia). rewrite (map_nth (fun v => k * v + d)). unfold Rdiv. ring.
    + rewrite interp_moved. destruct (interp1d _ _ _); cbn [option_map]; [|reflexivity]. f_equal. unfold Rdiv. ring.
  - intros Q. injection Q as <- <-. eexists. split; [reflexivity|]. intros i j s Hi. cbn [andb]. rewrite interp_moved. destruct (interp1d _ _ _); cbn [option_map]; [|reflexivity]. f_equal. unfold Rdiv. ring.
Qed.
Lemma scenarios_offset rvs seed m cdf fit_hours errs q_vect additional init nz steps n_scen hours quantiles d n scen :
  (additional = true -> init <> None) ->
  seeded_scenarios rvs seed m cdf fit_hours errs q_vect additional init nz steps n_scen hours quantiles = Some (n, scen) ->
  exists scen', seeded_scenarios rvs seed m cdf fit_hours errs q_vect additional (option_map (map (Rplus d)) init) nz steps n_scen hours
                  (fun i j => map (Rplus d) (quantiles i j)) = Some (n, scen') /\
    forall i j s, (i < length hours)%nat -> scen' i j s = option_map (Rplus d) (scen i j s).
Proof.
  intros Ha. unfold seeded_scenarios. destruct (copula_fit_sample _ _ _ _ _ _ _ _) as [samples|]; [|intros Q; discriminate Q].
  assert (P : forall l, map (Rplus d) l = map (fun v => 1 * v + d) l) by (intros; apply map_ext; intros; ring).
  unfold sample_scenarios. destruct additional.
  - destruct init as [l|]; [|now specialize (Ha eq_refl)]. cbn [option_map]. rewrite map_length. destruct (Nat.eqb_spec (length l) (length hours)) as [El|]; [|intros Q; discriminate Q].
    intros Q. injection Q as <- <-. eexists. split; [reflexivity|]. intros i j s Hi. destruct j as [|j'].
    + cbn [option_map]. f_equal. rewrite (nth_indep _ 0 (d + 0)) by (rewrite map_length; lia). rewrite (map_nth (Rplus d)). ring.
    + rewrite P, interp_moved. destruct (interp1d _ _ _); cbn [option_map]; [|reflexivity]. f_equal. ring.
  - intros Q. injection Q as <- <-. eexists. split; [reflexivity|]. intros i j s Hi. cbv beta. rewrite P, interp_moved. destruct (interp1d _ _ _); cbn [option_map]; [|reflexivity]. f_equal. ring.
Qed.

Lemma largest_square (k : nat -> R) dim : (0 < dim)%nat -> exists i, (i < dim)%nat /\ forall a, (a < dim)%nat -> k a * k a <= k i * k i.
Proof.
  induction dim as [|dim IH]; [lia|]. intros _. destruct dim as [|dim].
  - exists 0%nat. split; [lia|]. intros a Ha. replace a with 0%nat by lia. lra.
  - destruct IH as (i & Hi & M); [lia|]. destruct (Rle_dec (k (S dim) * k (S dim)) (k i * k i)) as [L|L].
    + exists i. split; [lia|]. intros a Ha. destruct (Nat.eq_dec a (S dim)) as [->|]; [exact L|apply M; lia].
    + exists (S dim). split; [lia|]. intros a Ha. destruct (Nat.eq_dec a (S dim)) as [->|]; [lra|]. specialize (M a ltac:(lia)). lra.
Qed.
Lemma total_nonpos (f : nat -> R) n : (forall a, (a < n)%nat -> f a <= 0) -> total f n <= 0 /\ (total f n = 0 -> forall a, (a < n)%nat -> f a = 0).
Proof.
  induction n as [|n IH]; intros H; cbn [total]; [split; [lra|intros; lia]|]. destruct IH as [I1 I2]; [intros; apply H; lia|]. pose proof (H n ltac:(lia)). split; [lra|].
  intros E a Ha. assert (total f n = 0) by lra. assert (f n = 0) by lra. destruct (Nat.eq_dec a n) as [->|]; [assumption|]. apply I2; [assumption|lia].
Qed.
Lemma shrunk_one_unit hours errs dim k b h : Forall (fun row => length row = dim) errs ->
  (forall a c, (a < dim)%nat -> (c < dim)%nat -> 0 < k a * k c) -> 
  (0 < length (Quantiles.rows_at hours h errs))%nat -> (forall a, (a < dim)%nat -> 0 < variance (hour_data hours errs h) (length (Quantiles.rows_at hours h errs)) a) ->
  ((forall i j, (i < dim)%nat -> (j < dim)%nat -> hour_cov Shrunk hours (map (rescaled k b) errs) dim h i j = hour_cov Shrunk hours errs dim h i j) <->
   forall a c, (a < dim)%nat -> (c < dim)%nat -> k a = k c).
Proof.
  intros Hl Hk Hn Hv. split.
  - intros H. destruct dim as [|dim]; [intros; lia|]. destruct (largest_square k (S dim)) as (i & Hi & M); [lia|].
    pose proof (proj1 (shrunk_rescaled hours errs (S dim) k b h i Hl Hi Hk Hn (Hv i Hi)) (H i i Hi Hi)) as Z.
    match type of Z with total ?f _ = 0 => assert (N : forall a, (a < S dim)%nat -> f a <= 0) end.
    2: {pose proof (proj2 (total_nonpos _ (S dim) N) Z) as Y. clear Z. rename Y into Z.
      assert (A : forall a, (a < S dim)%nat -> k a = k i).
      { intros a Ha. specialize (Z a Ha). cbn beta in Z. pose proof (Hv a Ha). pose proof (Hk a i Ha Hi). pose proof (Hk a a Ha Ha). pose proof (Hk i i Hi Hi).
        apply Rmult_integral in Z. destruct Z as [Z|Z]; [|lra].
        assert (F : (k a - k i) * (k a + k i) = 0) by lra. apply Rmult_integral in F. destruct F as [F|F]; [lra|].
        exfalso. assert (k a = - k i) by lra. rewrite H4 in H1. lra. }
      intros a c Ha Hc. now rewrite (A a Ha), (A c Hc). }
    intros a Ha. cbn beta. specialize (M a Ha). pose proof (Hv a Ha). rewrite <- (Rmult_0_l (variance (hour_data hours errs h) (length (Quantiles.rows_at hours h errs)) a)). apply Rmult_le_compat_r; lra.
  - intros E i j Hi Hj. apply copula_rescaled; try assumption. right. right. intros a Ha. now apply E.
Qed.
Lemma scenarios_unit_noise rvs seed m cdf fit_hours errs q_vect init nz steps n_scen hours quantiles k d n scen i j s v :
  (forall seed f g shape at_, (forall i j, (i < steps)%nat -> (j < steps)%nat -> f i j = g i j) -> rvs seed f shape at_ = rvs seed g shape at_) ->
  Forall (fun row => length row = steps) errs -> 0 < k ->
  seeded_scenarios rvs seed m cdf fit_hours errs q_vect false init nz steps n_scen hours quantiles = Some (n, scen) ->
  (i < length hours)%nat -> scen i j s = Some v ->
  exists scen', seeded_scenarios rvs seed m cdf fit_hours (map (map (Rmult k)) errs) q_vect false (option_map (map (fun v => k * v + d)) init) nz steps n_scen hours
                  (fun i j => map (fun v => k * v + d) (quantiles i j)) = Some (n, scen') /\
    (scen' i j s = Some (k * v + d) <-> k = 1 \/ n_normal nz i j s = 0).
Proof.
  intros Hr Hl Hk Hs Hi Hv. destruct (scenarios_units rvs seed m cdf fit_hours errs q_vect false init nz steps n_scen hours quantiles k d n scen Hr Hl Hk ltac:(discriminate) Hs) as (scen' & E & F).
  exists scen'. split; [exact E|]. rewrite (F i j s Hi), Hv. cbn [option_map andb]. split.
  - intros Q. injection Q as Q. assert (Z : (1 - k) * n_normal nz i j s = 0) by lra. apply Rmult_integral in Z. destruct Z; [left|right]; lra.
  - intros [->|Z]; [f_equal; lra|rewrite Z; f_equal; lra].
Qed.
