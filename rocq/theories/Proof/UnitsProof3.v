(** Scores under changes of units. *)
From Coq Require Import List ZArith Reals Arith Lia Lra Bool.
From Verif Require Import Model.Stats Model.Series Model.Subsample Model.Quantiles Model.HoltWinters Model.Metrics Spec.UnitsSpec Proof.UnitsProof2.
Import ListNotations.
Local Open Scope R_scope.

Lemma present_in c l : present_values (map (in_units c) l) = map (Rmult c) (present_values l).
Proof. unfold present_values. induction l as [|[v|] l IH]; cbn; [reflexivity| |exact IH]. now rewrite <- IH. Qed.
Lemma Rsum_scaled c l : Rsum (map (Rmult c) l) = c * Rsum l.
Proof. unfold Rsum. induction l as [|a l IH]; cbn; [ring|]. rewrite IH. ring. Qed.
Lemma nanmean_in c l : nanmean (map (in_units c) l) = in_units c (nanmean l).
Proof.
  unfold nanmean. rewrite present_in. destruct (present_values l) as [|a r] eqn:E; [reflexivity|]. rewrite <- E.
  destruct (present_values l); [discriminate|]. cbn [map]. change (c * r0 :: map (Rmult c) l0) with (map (Rmult c) (r0 :: l0)).
  rewrite Rsum_scaled, map_length. cbn [in_units]. f_equal. unfold Rdiv. ring.
Qed.
Lemma nanmean_eq (f g : nat -> option R) l : (forall i, f i = g i) -> nanmean (map f l) = nanmean (map g l).
Proof. intros H. f_equal. now apply map_ext. Qed.
Lemma group_mean_in c labels r k f g : (forall i j, g i j = in_units c (f i j)) ->
  group_mean labels (Frame r k g) = scores_in c (group_mean labels (Frame r k f)).
Proof.
  intros H. unfold group_mean, scores_in. rewrite map_map. apply map_ext. intros a. cbn [fst snd f_cols f_at]. f_equal. rewrite map_map.
  apply map_ext. intros j. rewrite <- nanmean_in, map_map. apply nanmean_eq. intros i. apply H.
Qed.
Lemma aggregate_in c n agg r k f g : (forall i j, g i j = in_units c (f i j)) ->
  aggregate n agg (Frame r k g) = option_map (scores_in c) (aggregate n agg (Frame r k f)).
Proof.
  intros H. unfold aggregate. destruct (_ =? 0)%nat; [cbn; f_equal; now apply group_mean_in|]. cbn [f_cols].
  destruct (_ =? _)%nat; [|reflexivity]. cbn. f_equal. apply group_mean_in. intros i j. apply H.
Qed.
Lemma in_one x : in_units 1 x = x.
Proof. destruct x; cbn; [f_equal; ring|reflexivity]. Qed.
Lemma scores_in_one t : scores_in 1 t = t.
Proof.
  unfold scores_in. rewrite <- (map_id t) at 2. apply map_ext. intros [g r]. cbn. f_equal. rewrite <- (map_id r) at 2. apply map_ext. apply in_one.
Qed.
Lemma aggregate_same n agg r k f g : (forall i j, g i j = f i j) -> aggregate n agg (Frame r k g) = aggregate n agg (Frame r k f).
Proof.
  intros H. rewrite (aggregate_in 1 n agg r k f g); [destruct (aggregate _ _ _); cbn; [now rewrite scores_in_one|reflexivity]|].
  intros i j. now rewrite in_one.
Qed.

Lemma err_in c x t i j : f_at (err (frame_in c x) (frame_in c t)) i j = in_units c (f_at (err x t) i j).
Proof. cbn. destruct (f_at x i j), (f_at t i j); cbn; try reflexivity. f_equal. ring. Qed.
Lemma err_moved d x t i j : f_at (err (frame_moved d x) (frame_moved d t)) i j = f_at (err x t) i j.
Proof. cbn. destruct (f_at x i j), (f_at t i j); cbn; try reflexivity. f_equal. ring. Qed.
Lemma roots_in c t : 0 <= c -> (forall r, In r t -> forall v, In (Some v) (snd r) -> 0 <= v) ->
  map_table sqrt (scores_in (c * c) t) = scores_in c (map_table sqrt t).
Proof.
  intros H P. unfold map_table, scores_in. rewrite !map_map. apply map_ext_in. intros [g r] Hr. cbn [fst snd]. f_equal. rewrite !map_map.
  apply map_ext_in. intros [v|] Hv; [|reflexivity]. cbn. f_equal. rewrite sqrt_mult, sqrt_square; [reflexivity|exact H|nra|exact (P _ Hr v Hv)].
Qed.
Lemma Rsum_nonneg l : Forall (fun v => 0 <= v) l -> 0 <= Rsum l.
Proof. intros H. unfold Rsum. induction H; cbn; lra. Qed.
Lemma nanmean_nonneg l : (forall v, In (Some v) l -> 0 <= v) -> forall m, nanmean l = Some m -> 0 <= m.
Proof.
  intros H m E. unfold nanmean in E. assert (F : Forall (fun v => 0 <= v) (present_values l)).
  { apply Forall_forall. intros v Hv. unfold present_values in Hv. apply in_flat_map in Hv. destruct Hv as ([w|] & Hw & Hv); [|destruct Hv]. destruct Hv as [<-|[]]. now apply H. }
  destruct (present_values l) as [|a r]; [discriminate|]. injection E as <-. apply Rmult_le_pos; [exact (Rsum_nonneg (a :: r) F)|].
  left. apply Rinv_0_lt_compat. apply (lt_0_INR (length (a :: r))). cbn. lia.
Qed.
Lemma group_mean_nonneg labels f : (forall i j v, f_at f i j = Some v -> 0 <= v) ->
  forall r, In r (group_mean labels f) -> forall v, In (Some v) (snd r) -> 0 <= v.
Proof.
  intros H r Hr v Hv. unfold group_mean in Hr. apply in_map_iff in Hr. destruct Hr as (g & <- & _). cbn [snd] in Hv.
  apply in_map_iff in Hv. destruct Hv as (j & E & _). revert E. apply nanmean_nonneg. intros w Hw. apply in_map_iff in Hw.
  destruct Hw as (i & E & _). now apply H in E.
Qed.
Lemma aggregate_nonneg n agg f t : (forall i j v, f_at f i j = Some v -> 0 <= v) -> aggregate n agg f = Some t ->
  forall r, In r t -> forall v, In (Some v) (snd r) -> 0 <= v.
Proof.
  intros H E. unfold aggregate in E. destruct (_ =? 0)%nat; [injection E as <-; now apply group_mean_nonneg|].
  destruct (_ =? _)%nat; [|discriminate]. injection E as <-. apply group_mean_nonneg. intros i j. apply H.
Qed.
Lemma squares_nonneg x t i j v : f_at (squerr x t) i j = Some v -> 0 <= v.
Proof. cbn. destruct (lift2 _ _ _) as [e|]; [|discriminate]. cbn. intros E. injection E as <-. nra. Qed.

(** Root mean squared errors have the unit of the data. *)
Lemma rmse_units : forall c x t agg, rmse (frame_in c x) (frame_in c t) agg = option_map (scores_in (Rabs c)) (rmse x t agg).
Proof.
  intros c x t agg. unfold rmse. cbn [frame_in f_rows]. unfold squerr at 1. cbn [f_rows f_cols frame_in].
  rewrite (aggregate_in (c * c) _ _ _ _ (fun i j => option_map (fun e => e * e) (f_at (err x t) i j))).
  - fold (squerr x t). destruct (aggregate _ _ _) as [tb|] eqn:E; [|reflexivity]. cbn [option_map]. f_equal.
    replace (c * c) with (Rabs c * Rabs c) by (rewrite <- Rabs_mult; apply Rabs_right; nra).
    apply roots_in; [apply Rabs_pos|]. eapply aggregate_nonneg; [|exact E]. intros i j v. apply squares_nonneg.
  - intros i j. rewrite err_in. destruct (f_at (err x t) i j); [|reflexivity]. cbn [in_units option_map]. f_equal. ring.
Qed.
Lemma rmse_moved : forall d x t agg, rmse (frame_moved d x) (frame_moved d t) agg = rmse x t agg.
Proof.
  intros d x t agg. unfold rmse. cbn [frame_moved f_rows]. unfold squerr at 1. cbn [f_rows f_cols frame_moved].
  rewrite (aggregate_same _ _ _ _ (fun i j => option_map (fun e => e * e) (f_at (err x t) i j))); [reflexivity|].
  intros i j. now rewrite err_moved.
Qed.

(** Quantile scores, their mean and the coverages. *)
Lemma level_error_in c q t a i j : level_error (array_in c q) (frame_in c t) a i j = in_units c (level_error q t a i j).
Proof. unfold level_error. cbn. destruct (a_dim1 q =? f_cols t)%nat; destruct (f_at t i j); cbn; try reflexivity; f_equal; ring. Qed.
Lemma level_error_moved d q t a i j : level_error (array_moved d q) (frame_moved d t) a i j = level_error q t a i j.
Proof. unfold level_error. cbn. destruct (a_dim1 q =? f_cols t)%nat; destruct (f_at t i j); cbn; try reflexivity; f_equal; ring. Qed.
Lemma indicator_in c e : 0 < c -> indicator (in_units c e) = indicator e.
Proof.
  intros H. destruct e as [v|]; [|reflexivity]. cbn. unfold Rltb. destruct (Rlt_dec 0 v), (Rlt_dec 0 (c * v)); try reflexivity; exfalso; nra.
Qed.
Lemma level_scores_in c q t agg a alpha : 0 < c ->
  level_scores (array_in c q) (frame_in c t) agg a alpha
  = option_map (fun sr => (scores_in c (fst sr), snd sr)) (level_scores q t agg a alpha).
Proof.
  intros H. unfold level_scores. change (f_rows (frame_in c t)) with (f_rows t). change (f_cols (frame_in c t)) with (f_cols t).
  rewrite (aggregate_same _ _ _ _ (fun i j => Some (indicator (level_error q t a i j)))
             (fun i j => Some (indicator (level_error (array_in c q) (frame_in c t) a i j)))) by (intros i j; now rewrite level_error_in, indicator_in).
  rewrite (aggregate_in c _ _ _ _ (fun i j => option_map (fun e => (indicator (level_error q t a i j) - alpha) * e) (level_error q t a i j))
             (fun i j => option_map (fun e => (indicator (level_error (array_in c q) (frame_in c t) a i j) - alpha) * e)
                           (level_error (array_in c q) (frame_in c t) a i j))).
  - destruct (aggregate _ _ _) as [t0|]; destruct (aggregate _ _ _) as [t1|]; reflexivity.
  - intros i j. rewrite level_error_in, indicator_in by exact H. destruct (level_error q t a i j); [|reflexivity]. cbn [in_units option_map]. f_equal. ring.
Qed.
Lemma level_scores_moved d q t agg a alpha : level_scores (array_moved d q) (frame_moved d t) agg a alpha = level_scores q t agg a alpha.
Proof.
  unfold level_scores. change (f_rows (frame_moved d t)) with (f_rows t). change (f_cols (frame_moved d t)) with (f_cols t).
  rewrite (aggregate_same _ _ _ _ (fun i j => Some (indicator (level_error q t a i j)))
             (fun i j => Some (indicator (level_error (array_moved d q) (frame_moved d t) a i j)))) by (intros i j; now rewrite level_error_moved).
  rewrite (aggregate_same _ _ _ _ (fun i j => option_map (fun e => (indicator (level_error q t a i j) - alpha) * e) (level_error q t a i j))
             (fun i j => option_map (fun e => (indicator (level_error (array_moved d q) (frame_moved d t) a i j) - alpha) * e)
                           (level_error (array_moved d q) (frame_moved d t) a i j))) by (intros i j; now rewrite level_error_moved).
  reflexivity.
Qed.
Lemma all_some_map {A B} (f : A -> B) l : all_some (map (option_map f) l) = option_map (map f) (all_some l).
Proof. induction l as [|[a|] l IH]; try reflexivity. cbn. rewrite IH. now destruct (all_some l). Qed.
Lemma scores_units : forall c q t alphas agg, 0 < c ->
  quantile_scores (array_in c q) (frame_in c t) alphas agg
  = option_map (map (fun l => (fst l, (scores_in c (fst (snd l)), snd (snd l))))) (quantile_scores q t alphas agg).
Proof.
  intros c q t alphas agg H. unfold quantile_scores. change (n_quantiles (array_in c q) (frame_in c t)) with (n_quantiles q t).
  destruct (_ <? _)%nat; [reflexivity|]. change (f_rows (frame_in c t)) with (f_rows t). rewrite <- all_some_map, map_map. f_equal. apply map_ext. intros k.
  rewrite level_scores_in by exact H. now destruct (level_scores q t _ k _).
Qed.
Lemma scores_moved : forall d q t alphas agg, quantile_scores (array_moved d q) (frame_moved d t) alphas agg = quantile_scores q t alphas agg.
Proof.
  intros d q t alphas agg. unfold quantile_scores. change (n_quantiles (array_moved d q) (frame_moved d t)) with (n_quantiles q t).
  destruct (_ <? _)%nat; [reflexivity|]. change (f_rows (frame_moved d t)) with (f_rows t). f_equal. apply map_ext. intros k.
  now rewrite level_scores_moved.
Qed.
Lemma entry_in c t g j : Metrics.entry (scores_in c t) g j = in_units c (Metrics.entry t g j).
Proof.
  unfold Metrics.entry, scores_in. induction t as [|[a r] t IH]; [reflexivity|]. cbn [map find fst snd].
  destruct (Z.eqb a g); [|exact IH]. cbn [snd]. change (@None R) with (in_units c None) at 1. apply map_nth.
Qed.
Lemma map_scores (G G' : Z * list (option R) -> Z * list (option R)) c t :
  (forall r, G (fst r, map (in_units c) (snd r)) = (fst (G' r), map (in_units c) (snd (G' r)))) -> map G (scores_in c t) = scores_in c (map G' t).
Proof. intros H. unfold scores_in. rewrite !map_map. apply map_ext. exact H. Qed.
Lemma crps_scaled_frames : forall c q t alphas agg, 0 < c -> crps (array_in c q) (frame_in c t) alphas agg = option_map (scores_in c) (crps q t alphas agg).
Proof.
  intros c q t alphas agg H. unfold crps. rewrite scores_units by exact H. destruct (quantile_scores q t alphas agg) as [[|[a [s0 r0]] l]|]; try reflexivity.
  cbn [option_map]. f_equal. cbn [map fst snd]. apply map_scores. intros [g row]. cbn [fst snd]. f_equal.
  rewrite map_length, map_map. apply map_ext. intros j. rewrite <- nanmean_in. cbn [map fst snd]. rewrite entry_in, !map_map. do 2 f_equal.
  apply map_ext. intros p. cbn [fst snd]. apply entry_in.
Qed.
Lemma crps_moved : forall d q t alphas agg, crps (array_moved d q) (frame_moved d t) alphas agg = crps q t alphas agg.
Proof. intros. unfold crps. now rewrite scores_moved. Qed.
Lemma reliability_units : forall c d q t alphas agg get_score, 0 < c ->
  reliability (array_in c q) (frame_in c t) alphas agg get_score = reliability q t alphas agg get_score /\
  reliability (array_moved d q) (frame_moved d t) alphas agg get_score = reliability q t alphas agg get_score.
Proof.
  intros c d q t alphas agg gs H. unfold reliability. rewrite scores_moved, scores_units by exact H. split; [|reflexivity].
  destruct (quantile_scores q t alphas agg) as [l|]; [|reflexivity]. cbn [option_map]. f_equal. rewrite map_map. apply map_ext. now intros [a [s r]].
Qed.

(** One forecast of one value. *)
Lemma one_group f v : f_rows f = 1%nat -> f_cols f = 1%nat -> f_at f 0%nat 0%nat = Some v -> aggregate 1 (agg_or_ones 1 None) f = Some [(1%Z, [Some v])].
Proof.
  intros R C E. unfold aggregate, chose_axis, agg_or_ones. cbn [repeat length Nat.eqb]. unfold group_mean. cbn -[nanmean]. rewrite C. cbn -[nanmean].
  rewrite E. unfold nanmean. cbn. repeat f_equal. field.
Qed.
Lemma mape_one v w : mape (Frame 1 1 (fun _ _ => Some v)) (Frame 1 1 (fun _ _ => Some w)) None = Some [(1%Z, [Some (Rabs (v - w) / (Rabs w + 1 / 100000))])].
Proof.
  unfold mape. cbn [f_rows f_cols]. apply one_group; try reflexivity. cbn. f_equal. unfold Rdiv. rewrite Rabs_mult. f_equal.
  apply Rabs_right. left. apply Rle_ge || idtac. apply Rinv_0_lt_compat. pose proof (Rabs_pos w). lra.
Qed.
Lemma nmae_one v w : nmae (Frame 1 1 (fun _ _ => Some v)) (Frame 1 1 (fun _ _ => Some w)) None false = Some [(1%Z, [Some (Rabs (v - w) / (Rabs w + / 1000000000000))])].
Proof.
  unfold nmae. cbn [f_rows f_cols]. apply one_group; try reflexivity. cbn [f_at err lift2]. unfold row_level, nmae_offset. cbn -[tiny]. f_equal.
  unfold tiny. replace ((Rabs w + 0) / 1 + / 1000000000000) with (Rabs w + / 1000000000000) by field. unfold Rdiv. rewrite Rabs_mult. f_equal.
  apply Rabs_right. left. apply Rinv_0_lt_compat. pose proof (Rabs_pos w). pose proof (Rinv_0_lt_compat 1000000000000 ltac:(lra)). lra.
Qed.
Lemma scaled_ratio c e b o : 0 < c -> c <> 1 -> 0 < e -> 0 <= b -> 0 < o -> c * e / (c * b + o) <> e / (b + o).
Proof.
  intros Hc H1 He Hb Ho E. assert (A : c * e * (b + o) = e * (c * b + o)).
  { apply (Rmult_eq_reg_r (/ (c * b + o) * / (b + o))).
    - assert (c * b + o <> 0) by nra. replace (c * e * (b + o) * (/ (c * b + o) * / (b + o))) with (c * e / (c * b + o)) by (field; split; [lra|nra]).
      rewrite E. field. split; [nra|lra].
    - apply Rmult_integral_contrapositive; split; apply Rinv_neq_0_compat; nra. }
  assert (B : (c - 1) * (e * o) = 0) by nra. apply Rmult_integral in B. destruct B; nra.
Qed.
Lemma mape_depends : forall c v w, 0 < c -> c <> 1 -> v <> w ->
  mape (frame_in c (Frame 1 1 (fun _ _ => Some v))) (frame_in c (Frame 1 1 (fun _ _ => Some w))) None
  <> mape (Frame 1 1 (fun _ _ => Some v)) (Frame 1 1 (fun _ _ => Some w)) None.
Proof.
  intros c v w Hc H1 Hv. unfold frame_in. cbn [f_rows f_cols f_at in_units]. rewrite !mape_one. intros E. injection E as E.
  rewrite <- Rmult_minus_distr_l, !Rabs_mult, (Rabs_right c) in E by lra. revert E. apply scaled_ratio; try assumption; [|apply Rabs_pos|lra].
  apply Rabs_pos_lt. lra.
Qed.
Lemma nmae_depends : forall c v w, 0 < c -> c <> 1 -> v <> w ->
  nmae (frame_in c (Frame 1 1 (fun _ _ => Some v))) (frame_in c (Frame 1 1 (fun _ _ => Some w))) None false
  <> nmae (Frame 1 1 (fun _ _ => Some v)) (Frame 1 1 (fun _ _ => Some w)) None false.
Proof.
  intros c v w Hc H1 Hv. unfold frame_in. cbn [f_rows f_cols f_at in_units]. rewrite !nmae_one. intros E. injection E as E.
  rewrite <- Rmult_minus_distr_l, !Rabs_mult, (Rabs_right c) in E by lra. revert E. apply scaled_ratio; try assumption; [|apply Rabs_pos|apply Rinv_0_lt_compat; lra].
  apply Rabs_pos_lt. lra.
Qed.
