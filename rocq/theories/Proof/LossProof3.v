From Coq Require Import List Reals Lra Lia Arith Bool Permutation.
From Verif Require Import Model.Stats Model.Subsample Model.Quantiles Model.Losses Model.Gaussian Spec.LossSpec Proof.StatsProof Proof.SubsampleProof Proof.LossProof.
Import ListNotations.
Local Open Scope R_scope.

(** C143. *)
Lemma lognormal_constant (y : list R) (m s : R) : y <> [] -> Forall (fun v => 0 < v) y -> 0 < m -> s <> 0 ->
  lognormal_loss (everywhere y m) y (everywhere y s) =
  Some ((variance (map ln y) + (ln m - average (map ln y)) * (ln m - average (map ln y))) / Rabs s + ln (Rabs s)).
Proof.
  intros N P M S.
  rewrite <- (normal_constant (map ln y) (ln m) (Rabs s)) by (try (destruct y; easy); apply Rabs_pos_lt, S).
  unfold lognormal_loss, normal_loss. f_equal. clear N. induction y as [|v y IH]; [reflexivity|]. inversion P; subst.
  change (everywhere (v :: y) m) with (m :: everywhere y m). change (everywhere (v :: y) s) with (s :: everywhere y s).
  cbn [map]. change (everywhere (ln v :: map ln y) (ln m)) with (ln m :: everywhere (map ln y) (ln m)).
  change (everywhere (ln v :: map ln y) (Rabs s)) with (Rabs s :: everywhere (map ln y) (Rabs s)).
  cbn [combine]. rewrite !map2_c. cbn [fst snd]. f_equal; [|apply IH; easy].
  unfold lognormal_cell, normal_cell. destruct (Req_EM_T s 0) as [|_]; [easy|].
  rewrite (proj2 (StatsProof.Rltb_spec 0 m) M), (proj2 (StatsProof.Rltb_spec 0 v)), (proj2 (StatsProof.Rltb_spec 0 (Rabs s))) by (easy || apply Rabs_pos_lt, S).
  cbn [andb]. replace (sqrt (Rabs s) ^ 2) with (Rabs s) by (rewrite <- (sqrt_def (Rabs s)) at 1 by apply Rabs_pos; ring). reflexivity.
Qed.
Lemma median_below (erfinv : R -> R) (m s : R) : erfinv 0 = 0 -> 0 < m -> s <> 0 -> structured_lognormal erfinv m s (1 / 2) < m.
Proof.
  intros E M S. unfold structured_lognormal. replace (2 * (1 / 2) - 1) with 0 by lra. replace (2 * (1 - 1 / 2) - 1) with 0 by lra. rewrite E, !Rmult_0_r, !Rplus_0_r.
  set (e := exp (log_mu m (sqrt (Rabs s)))).
  assert (e < m) as K.
  { unfold e, log_mu. replace (sqrt (Rabs s) ^ 2) with (Rabs s) by (rewrite <- (sqrt_def (Rabs s)) at 1 by apply Rabs_pos; ring).
    pose proof (Rabs_pos_lt s S) as A. assert (0 < m * m) by (apply Rmult_lt_0_compat; easy).
    assert (m < sqrt (Rabs s + m ^ 2)) as Q by (rewrite <- (sqrt_pow2 m) at 1 by lra; apply sqrt_lt_1; lra).
    rewrite exp_ln by (apply Rdiv_lt_0_compat; lra).
    apply (Rmult_lt_reg_r (sqrt (Rabs s + m ^ 2))); [lra|]. unfold Rdiv. rewrite Rmult_assoc, Rinv_l by lra.
    pose proof (Rmult_lt_compat_l m _ _ M Q). lra. }
  unfold sign. destruct (Rltb s 0) eqn:C1.
  - rewrite (proj2 (StatsProof.Rltb_spec (-1) 0)) by lra. destruct (Rltb 0 (-1)) eqn:D; [apply StatsProof.Rltb_spec in D; lra|]. lra.
  - destruct (Rltb 0 s) eqn:C2.
    + rewrite (proj2 (StatsProof.Rltb_spec 0 1)) by lra. destruct (Rltb 1 0) eqn:D; [apply StatsProof.Rltb_spec in D; lra|]. lra.
    + exfalso. apply S. destruct (Rtotal_order s 0) as [H | [H | H]]; [apply StatsProof.Rltb_spec in H; congruence | easy | apply StatsProof.Rltb_spec in H; congruence].
Qed.
Lemma lognormal_fitted (y : list R) (m s l : R) : y <> [] -> Forall (fun v => 0 < v) y -> 0 < variance (map ln y) ->
  0 < m -> s <> 0 -> lognormal_loss (everywhere y m) y (everywhere y s) = Some l ->
  ((forall m' s' l', lognormal_loss (everywhere y m') y (everywhere y s') = Some l' -> l <= l') <->
   m = exp (average (map ln y)) /\ Rabs s = variance (map ln y)).
Proof.
  intros N P V M S E. rewrite lognormal_constant in E by easy. injection E as <-.
  set (A := average (map ln y)) in *. set (W := variance (map ln y)) in *.
  pose proof (Rle_0_sqr (ln m - A)) as B. unfold Rsqr in B. pose proof (Rabs_pos_lt s S) as As.
  destruct (score_minimum W (Rabs s) _ V As B) as [LB EQ]. split.
  - intro H. specialize (H (exp A) W). rewrite lognormal_constant in H by (easy || apply exp_pos || (apply Rgt_not_eq, V)).
    fold A W in H. rewrite ln_exp, (Rabs_right W) in H by lra. specialize (H _ eq_refl).
    replace ((W + (A - A) * (A - A)) / W) with 1 in H by (field; lra).
    destruct EQ as [Z Sg]; [lra|]. split; [|easy]. apply Rmult_integral in Z. rewrite <- (exp_ln m M). f_equal. lra.
  - intros [-> Sg] m' s' l' E'. destruct (Rlt_dec 0 m') as [M'|M'].
    + destruct (Req_EM_T s' 0) as [-> | S'].
      * exfalso. destruct y as [|v y]; [easy|]. change (everywhere (v :: y) m') with (m' :: everywhere y m') in E'.
        change (everywhere (v :: y) 0) with (0 :: everywhere y 0) in E'. unfold lognormal_loss, mean_loss in E'. cbn [combine] in E'. rewrite map2_c in E'.
        unfold lognormal_cell in E'. destruct (Req_EM_T 0 0) as [_|]; [|easy]. cbn [all_some] in E'. discriminate.
      * rewrite lognormal_constant in E' by easy. injection E' as <-. fold A W. rewrite Sg, ln_exp.
        pose proof (Rle_0_sqr (ln m' - A)) as B'. unfold Rsqr in B'. destruct (score_minimum W (Rabs s') _ V (Rabs_pos_lt s' S') B') as [LB' _].
        replace ((W + (A - A) * (A - A)) / W) with 1 by (field; lra). exact LB'.
    + exfalso. destruct y as [|v y]; [easy|]. change (everywhere (v :: y) m') with (m' :: everywhere y m') in E'.
      change (everywhere (v :: y) s') with (s' :: everywhere y s') in E'. unfold lognormal_loss, mean_loss in E'. cbn [combine] in E'. rewrite map2_c in E'.
      unfold lognormal_cell at 1 in E'. cbn [fst snd] in E'.
      destruct (Rltb 0 m') eqn:D; [apply StatsProof.Rltb_spec in D; easy|]. destruct (Req_EM_T s' 0); cbn [andb all_some] in E'; discriminate.
Qed.
Lemma lognormal_negative (y_hat y s : list R) (v : R) : length y_hat = length y -> length s = length y -> In v y -> v <= 0 -> lognormal_loss y_hat y s = None.
Proof.
  intros L1 L2 I V. unfold lognormal_loss, mean_loss. rewrite all_some_none; [reflexivity|].
  revert y_hat s L1 L2 I. induction y as [|w y IH]; intros [|a y_hat] [|b s] L1 L2 I; try easy. cbn [combine]. rewrite map2_c. cbn [fst snd].
  destruct I as [-> | I].
  - left. unfold lognormal_cell. destruct (Req_EM_T b 0); [reflexivity|].
    destruct (Rltb 0 v) eqn:D; [apply StatsProof.Rltb_spec in D; lra|]. rewrite andb_false_r. reflexivity.
  - right. apply IH; cbn [length] in *; (lia || easy).
Qed.
Lemma likelihood_median (erfinv : R -> R) (y : list R) (m s l : R) : erfinv 0 = 0 -> y <> [] -> Forall (fun v => 0 < v) y -> 0 < variance (map ln y) ->
  0 < m -> s <> 0 -> lognormal_loss (everywhere y m) y (everywhere y s) = Some l ->
  (forall m' s' l', lognormal_loss (everywhere y m') y (everywhere y s') = Some l' -> l <= l') ->
  m = exp (average (map ln y)) /\ structured_lognormal erfinv m s (1 / 2) < exp (average (map ln y)).
Proof.
  intros E N P V M S L H. destruct (proj1 (lognormal_fitted y m s l N P V M S L) H) as [K _]. split; [exact K|].
  rewrite <- K. apply median_below; easy.
Qed.
Lemma crps_median (erfinv : R -> R) (m s : R) : erfinv 0 = 0 -> s <> 0 -> structured_lognormal erfinv m s (1 / 2) = exp (crps_mu m s).
Proof.
  intros E S. unfold structured_lognormal. replace (2 * (1 / 2) - 1) with 0 by lra. replace (2 * (1 - 1 / 2) - 1) with 0 by lra. rewrite E, !Rmult_0_r, !Rplus_0_r.
  replace (crps_mu m s) with (log_mu m (sqrt (Rabs s))) by (unfold crps_mu, log_mu; replace (sqrt (Rabs s) ^ 2) with (Rabs s) by (rewrite <- (sqrt_def (Rabs s)) at 1 by apply Rabs_pos; ring); reflexivity).
  unfold sign. destruct (Rltb s 0) eqn:C1.
  - rewrite (proj2 (StatsProof.Rltb_spec (-1) 0)) by lra. destruct (Rltb 0 (-1)) eqn:D; [apply StatsProof.Rltb_spec in D; lra|]. lra.
  - destruct (Rltb 0 s) eqn:C2.
    + rewrite (proj2 (StatsProof.Rltb_spec 0 1)) by lra. destruct (Rltb 1 0) eqn:D; [apply StatsProof.Rltb_spec in D; lra|]. lra.
    + exfalso. apply S. destruct (Rtotal_order s 0) as [H | [H | H]]; [apply StatsProof.Rltb_spec in H; congruence | easy | apply StatsProof.Rltb_spec in H; congruence].
Qed.
(** The distribution the ranked score works with has the forecast as mean. *)
Lemma crps_mean (m s : R) : m <> 0 -> exp (crps_mu m s + ln (1 + Rabs s / m ^ 2) / 2) = Rabs m.
Proof.
  intro M. assert (0 < m ^ 2) as P by (apply pow2_gt_0; easy). pose proof (Rabs_pos s) as A.
  rewrite exp_plus. unfold crps_mu.
  assert (0 < sqrt (Rabs s + m ^ 2)) as Q by (apply sqrt_lt_R0; lra).
  rewrite exp_ln by (apply Rdiv_lt_0_compat; lra).
  replace (exp (ln (1 + Rabs s / m ^ 2) / 2)) with (sqrt (1 + Rabs s / m ^ 2)).
  2:{ assert (0 < 1 + Rabs s / m ^ 2) as T by (assert (0 <= Rabs s / m ^ 2) by (apply Rmult_le_pos; [easy | left; apply Rinv_0_lt_compat; easy]); lra).
      apply sqrt_lem_1; [lra | left; apply exp_pos|]. rewrite <- exp_plus.
      replace (ln (1 + Rabs s / m ^ 2) / 2 + ln (1 + Rabs s / m ^ 2) / 2) with (ln (1 + Rabs s / m ^ 2)) by field. apply exp_ln, T. }
  replace (1 + Rabs s / m ^ 2) with ((Rabs s + m ^ 2) / m ^ 2) by (field; easy).
  rewrite sqrt_div_alt by easy. replace (sqrt (m ^ 2)) with (Rabs m) by (rewrite <- sqrt_Rsqr_abs; f_equal; unfold Rsqr; ring).
  replace (m ^ 2) with (Rabs m * Rabs m) at 1 by (rewrite <- (pow2_abs m); ring). field.
  split; [apply Rabs_no_R0; easy | lra].
Qed.

(** C146. *)
Lemma sum_nonneg_zero (l : list R) : Forall (fun v => 0 <= v) l -> 0 <= fold_right Rplus 0 l /\ (fold_right Rplus 0 l = 0 <-> Forall (fun v => v = 0) l).
Proof.
  induction l as [|a l IH]; intro H; [cbn; split; [lra | split; [constructor | reflexivity]]|]. inversion H; subst. destruct (IH H3) as [A B]. cbn [fold_right].
  split; [lra|]. split.
  - intro E. constructor; [lra | apply B; lra].
  - intro F. inversion F; subst. rewrite (proj2 B) by easy. lra.
Qed.
Lemma jmean_zero (l : list R) : l <> [] -> Forall (fun v => 0 <= v) l -> 0 <= jmean l /\ (jmean l = 0 <-> Forall (fun v => v = 0) l).
Proof.
  intros N F. destruct (sum_nonneg_zero l F) as [A B]. pose proof (lenR l N) as L. unfold jmean. split.
  - apply Rmult_le_pos; [easy | left; apply Rinv_0_lt_compat; easy].
  - rewrite <- B. split; intro H.
    + apply (f_equal (fun t => t * INR (length l))) in H. unfold Rdiv in H. rewrite Rmult_assoc, Rinv_l in H; lra.
    + rewrite H. unfold Rdiv. ring.
Qed.
Lemma in_map2 {A B C} (f : A -> B -> C) la lb c da db : length la = length lb ->
  (In c (map2 f la lb) <-> exists i, (i < length la)%nat /\ c = f (nth i la da) (nth i lb db)).
Proof.
  intro L. unfold map2. rewrite in_map_iff. split.
  - intros ([a b] & <- & I). apply (In_nth _ _ (da, db)) in I as (i & Hi & E). rewrite combine_length in Hi. rewrite combine_nth in E by easy.
    injection E as <- <-. exists i. split; [lia | reflexivity].
  - intros (i & Hi & ->). exists (nth i la da, nth i lb db). split; [reflexivity|]. rewrite <- combine_nth by easy. apply nth_In. rewrite combine_length. lia.
Qed.
Lemma nth_transpose width m o c : (o < width)%nat -> (c < length m)%nat -> nth c (nth o (transpose width m) []) 0 = nth o (nth c m []) 0.
Proof.
  intros O C. unfold transpose. rewrite (nth_indep _ [] (map (fun row => nth o row 0) m)) by (rewrite map_length, seq_length; easy).
  rewrite (nth_indep _ _ (map (fun row => nth 0 row 0) m)) by (rewrite map_length, seq_length; easy).
  rewrite (map_nth (fun j => map (fun row => nth j row 0) m) (seq 0 width) 0%nat o). rewrite seq_nth by easy.
  rewrite (nth_indep _ 0 (nth (0 + o) [] 0)) by (rewrite map_length; easy).
  rewrite (map_nth (fun row => nth (0 + o) row 0)). reflexivity.
Qed.
Lemma causal_zero (causes : list (list bool)) (targets : nat) (jacobians : list (list (list R))) :
  causes <> [] -> (0 < targets)%nat -> jacobians <> [] ->
  (forall row, In row causes -> length row = targets) ->
  (forall j, In j jacobians -> length j = targets /\ forall row, In row j -> length row = length causes) ->
  0 <= causal_penalty causes targets jacobians /\
  (causal_penalty causes targets jacobians = 0 <->
   forall j control target, In j jacobians -> (control < length causes)%nat -> (target < targets)%nat ->
     nth target (nth control causes []) true = false -> nth control (nth target j []) 0 = 0).
Proof.
  intros NC NT NJ HC HJ.
  assert (forall j, In j jacobians -> 0 <= sensitivity_penalty j (transpose targets (mask causes)) /\
    (sensitivity_penalty j (transpose targets (mask causes)) = 0 <-> forall control target, (control < length causes)%nat -> (target < targets)%nat ->
     nth target (nth control causes []) true = false -> nth control (nth target j []) 0 = 0)) as K.
  { intros j I. destruct (HJ j I) as [LJ RJ]. unfold sensitivity_penalty.
    set (cells := concat (map2 (map2 (fun j v => Rabs (j * v))) j (transpose targets (mask causes)))).
    assert (length (transpose targets (mask causes)) = targets) as LT by (unfold transpose; rewrite map_length, seq_length; reflexivity).
    assert (forall o, (o < targets)%nat -> length (nth o (transpose targets (mask causes)) []) = length causes) as LR.
    { intros o O. unfold transpose. rewrite (nth_indep _ [] (map (fun row => nth 0 row 0) (mask causes))) by (rewrite map_length, seq_length; easy).
      rewrite (map_nth (fun j => map (fun row => nth j row 0) (mask causes)) (seq 0 targets) 0%nat o). rewrite map_length. unfold mask. rewrite map_length. reflexivity. }
    assert (forall v, In v cells <-> exists o c, (o < targets)%nat /\ (c < length causes)%nat /\ v = Rabs (nth c (nth o j []) 0 * nth o (nth c (mask causes) []) 0)) as CE.
    { intro v. unfold cells. rewrite in_concat. split.
      - intros (r & Ir & Iv). apply (in_map2 _ _ _ _ [] []) in Ir; [|lia]. destruct Ir as (o & O & ->).
        assert (length (nth o j []) = length causes) as Lo by (apply RJ, nth_In; easy).
        apply (in_map2 _ _ _ _ 0 0) in Iv; [|rewrite LR, Lo by lia; reflexivity]. destruct Iv as (c & C & ->).
        exists o, c. split; [lia|]. split; [lia|]. rewrite nth_transpose; [reflexivity | lia | unfold mask; rewrite map_length; lia].
      - intros (o & c & O & C & ->). assert (length (nth o j []) = length causes) as Lo by (apply RJ, nth_In; lia).
        exists (map2 (fun j v => Rabs (j * v)) (nth o j []) (nth o (transpose targets (mask causes)) [])). split.
        + apply (in_map2 _ _ _ _ [] []); [lia|]. exists o. split; [lia | reflexivity].
        + apply (in_map2 _ _ _ _ 0 0); [rewrite LR, Lo by lia; reflexivity|]. exists c. split; [lia|]. rewrite nth_transpose; [reflexivity | lia | unfold mask; rewrite map_length; lia]. }
    assert (cells <> []) as CN.
    { intro Z. assert (0 < length causes)%nat as LC by (destruct causes; [easy | cbn [length]; lia]).
      assert (In (Rabs (nth 0 (nth 0 j []) 0 * nth 0 (nth 0 (mask causes) []) 0)) cells) as B by (apply CE; exists 0%nat, 0%nat; easy).
      rewrite Z in B. easy. }
    assert (Forall (fun v => 0 <= v) cells) as CP.
    { apply Forall_forall. intros v Iv. apply CE in Iv as (o & c & _ & _ & ->). apply Rabs_pos. }
    destruct (jmean_zero cells CN CP) as [A B]. split; [exact A|]. rewrite B, Forall_forall.
    assert (forall o c, (o < targets)%nat -> (c < length causes)%nat -> nth o (nth c (mask causes) []) 0 = if nth o (nth c causes []) true then 0 else 1) as MK.
    { intros o c O C. unfold mask. set (g := fun c : bool => if c then 0 else 1). change (nth c (map (map g) causes) []) with (nth c (map (map g) causes) (map g [])).
      rewrite (map_nth (map g)). transitivity (g (nth o (nth c causes []) true)); [|reflexivity]. rewrite <- (map_nth g). apply nth_indep. rewrite map_length, HC by (apply nth_In; easy). easy. }
    split.
    - intros H c o C O F. specialize (H (Rabs (nth c (nth o j []) 0 * nth o (nth c (mask causes) []) 0))).
      rewrite MK, F in H by easy. rewrite Rmult_1_r in H.
      destruct (Req_dec (nth c (nth o j []) 0) 0) as [|Z]; [easy|]. apply Rabs_no_R0 in Z. exfalso. apply Z, H.
      apply CE. exists o, c. rewrite MK, F by easy. rewrite Rmult_1_r. easy.
    - intros H v Iv. apply CE in Iv as (o & c & O & C & ->). rewrite MK by easy.
      destruct (nth o (nth c causes []) true) eqn:F; [rewrite Rmult_0_r; apply Rabs_R0|]. rewrite (H c o C O F), Rmult_0_l. apply Rabs_R0. }
  unfold causal_penalty. destruct (jmean_zero (map (fun j => sensitivity_penalty j (transpose targets (mask causes))) jacobians)) as [A B].
  - destruct jacobians; easy.
  - apply Forall_forall. intros v I. apply in_map_iff in I as (j & <- & I). apply K, I.
  - split; [exact A|]. rewrite B, Forall_forall. split.
    + intros H j c o I. apply K; [easy|]. apply H, in_map_iff. exists j. easy.
    + intros H v I. apply in_map_iff in I as (j & <- & I). apply K; [easy|]. intros c o. apply H, I.
Qed.
Lemma causal_convex (k : kind) (d : distribution) : trained_with Convex true true k d = Some (CausalLikelihood, k, Normal).
Proof. reflexivity. Qed.
Lemma causal_deterministic (k : kind) (d : distribution) : trained_with Convex false true k d = None.
Proof. reflexivity. Qed.
Lemma causal_ignored (n : network) (probabilistic : bool) (k : kind) (d : distribution) : n <> Convex -> trained_with n probabilistic true k d = trained_with n probabilistic false k d.
Proof. intro H. destruct n; try reflexivity. congruence. Qed.
Lemma requested_used (n : network) (k : kind) (d : distribution) : n <> FeedForward -> n <> Recurrent -> n <> Invertible -> exists l, trained_with n true false k d = Some (l, k, d).
Proof. intros A B C. destruct n; try congruence; eexists; reflexivity. Qed.
Lemma requested_ignored (k : kind) (d : distribution) :
  trained_with FeedForward true false k d = trained_with FeedForward true false MaximumLikelihood Normal /\
  trained_with Recurrent true false k d = trained_with Recurrent true false MaximumLikelihood Normal /\
  trained_with Convex true true k d = trained_with Convex true true k Normal /\
  trained_with Invertible true false k d = trained_with Invertible false false k d.
Proof. repeat split; reflexivity. Qed.
