From Coq Require Import List ZArith Bool Arith Lia Reals Lra Sorted.
From Verif Require Import Model.Series Model.Subsample Model.Stats Model.Quantiles Model.Metrics
  Spec.StatsSpec Spec.MetricsSpec Proof.SeriesProof Proof.SubsampleProof Proof.StatsProof Proof.QuantilesProof.
Import ListNotations.
Local Open Scope R_scope.

(** * Sums and means *)
Lemma total_cons a l : total (a :: l) = a + total l.
Proof. reflexivity. Qed.
Lemma total_map_nonneg {A} (f : A -> R) l : (forall a, In a l -> 0 <= f a) -> 0 <= total (map f l).
Proof. induction l as [|a l IH]; cbn; intros H; [lra|]. assert (0 <= f a) by (apply H; auto). assert (0 <= total (map f l)) by (apply IH; auto). unfold total in *. lra. Qed.
Lemma total_map_zero {A} (f : A -> R) l : (forall a, In a l -> 0 <= f a) -> total (map f l) = 0 <-> Forall (fun a => f a = 0) l.
Proof.
  induction l as [|a l IH]; intros H; [split; auto|].
  assert (0 <= f a) by (apply H; cbn; auto).
  assert (Hl : forall b, In b l -> 0 <= f b) by (intros; apply H; cbn; auto).
  assert (0 <= total (map f l)) by (apply total_map_nonneg, Hl).
  change (total (map f (a :: l))) with (f a + total (map f l)).
  split; intros E.
  - assert (f a = 0) by lra. assert (total (map f l) = 0) by lra. constructor; auto. apply IH; auto.
  - inversion E; subst. rewrite (proj2 (IH Hl)) by assumption. lra.
Qed.
Lemma total_app l1 l2 : total (l1 ++ l2) = total l1 + total l2.
Proof. induction l1 as [|a l1 IH]; cbn [app]; rewrite ?total_cons; [cbn; lra|]. rewrite IH. lra. Qed.
Lemma total_map_le {A} (f g : A -> R) l : (forall a, In a l -> f a <= g a) -> total (map f l) <= total (map g l).
Proof. induction l as [|a l IH]; cbn; intros H; [lra|]. assert (f a <= g a) by auto. assert (total (map f l) <= total (map g l)) by auto. unfold total in *. lra. Qed.
Lemma total_map_add {A} (f g : A -> R) l : total (map (fun a => f a + g a) l) = total (map f l) + total (map g l).
Proof. induction l as [|a l IH]; cbn [map]; rewrite ?total_cons; [cbn; lra|]. rewrite IH. lra. Qed.
Lemma total_map_scal {A} (c : R) (f : A -> R) l : total (map (fun a => c * f a) l) = c * total (map f l).
Proof. induction l as [|a l IH]; cbn [map]; rewrite ?total_cons; [cbn; lra|]. rewrite IH. lra. Qed.
Lemma total_const {A} (c : R) (l : list A) : total (map (fun _ => c) l) = c * INR (length l).
Proof. induction l as [|a l IH]; [cbn; lra|]. cbn [map length]. rewrite S_INR. change (total (c :: map (fun _ => c) l)) with (c + total (map (fun _ => c) l)). rewrite IH. lra. Qed.
Lemma total_indicator {A} (p : A -> bool) l : total (map (fun a => if p a then 1 else 0) l) = INR (length (filter p l)).
Proof.
  induction l as [|a l IH]; [reflexivity|]. cbn [map filter].
  change (total ((if p a then 1 else 0) :: map (fun a => if p a then 1 else 0) l)) with ((if p a then 1 else 0) + total (map (fun a => if p a then 1 else 0) l)).
  rewrite IH. destruct (p a); cbn [length]; rewrite ?S_INR; lra.
Qed.
Lemma INR_len_pos {A} (l : list A) : l <> [] -> 0 < INR (length l).
Proof. destruct l; [congruence|]. intros _. cbn [length]. rewrite S_INR. pose proof (pos_INR (length l)). lra. Qed.

Lemma mean_of_nonneg {A} (f : A -> R) l v : (forall a, In a l -> 0 <= f a) -> mean_of f l (Some v) -> 0 <= v.
Proof.
  intros H [Hn E]. pose proof (INR_len_pos l Hn). pose proof (total_map_nonneg f l H).
  destruct (Rle_dec 0 v); auto. nra.
Qed.
Lemma mean_of_zero {A} (f : A -> R) l v : (forall a, In a l -> 0 <= f a) -> mean_of f l (Some v) ->
  v = 0 <-> Forall (fun a => f a = 0) l.
Proof.
  intros H [Hn E]. pose proof (INR_len_pos l Hn). rewrite <- (total_map_zero f l H), <- E. split; intros Z.
  - subst v. lra.
  - apply Rmult_integral in Z. destruct Z; lra.
Qed.

(** * Grouping *)
Definition opt_list (o : option R) : list R := match o with Some v => [v] | None => [] end.
Lemma present_group {A} (h : A -> option R) (p : A -> bool) l :
  present_values (map h (filter p l)) = flat_map (fun i => if p i then opt_list (h i) else []) l.
Proof.
  unfold present_values. induction l as [|a l IH]; [reflexivity|]. cbn. destruct (p a); cbn; rewrite IH; [|reflexivity].
  destruct (h a); reflexivity.
Qed.
Lemma flat_map_map {A B C} (f : A -> B) (g : C -> list A) (l : list C) : flat_map (fun i => map f (g i)) l = map f (flat_map g l).
Proof. induction l; cbn; [reflexivity|]. rewrite map_app, IHl. reflexivity. Qed.
Lemma flat_map_eq {A B} (f g : A -> list B) l : (forall a, In a l -> f a = g a) -> flat_map f l = flat_map g l.
Proof. induction l; cbn; intros; [reflexivity|]. rewrite H, IHl; auto. Qed.

Lemma nanmean_mean {A} (f : A -> R) (l : list A) (vs : list (option R)) :
  present_values vs = map f l -> mean_of f l (nanmean vs).
Proof.
  intros E. unfold nanmean. rewrite E. destruct l as [|a l]; [reflexivity|].
  cbn [map]. split; [discriminate|]. change (f a :: map f l) with (map f (a :: l)). rewrite map_length.
  pose proof (INR_len_pos (a :: l)). unfold total, Rsum. field. apply Rgt_not_eq, H. discriminate.
Qed.

Lemma entry_group_mean labels f g j : In g labels -> (j < f_cols f)%nat ->
  entry (group_mean labels f) g j = nanmean (map (fun i => f_at f i j) (group_rows labels g)).
Proof.
  intros Hg Hj. unfold entry, group_mean.
  assert (F : forall us, In g us -> find (fun r : Z * list (option R) => (fst r =? g)%Z)
      (map (fun g0 => (g0, map (fun j0 => nanmean (map (fun i => f_at f i j0) (group_rows labels g0))) (seq 0 (f_cols f)))) us) =
      Some (g, map (fun j0 => nanmean (map (fun i => f_at f i j0) (group_rows labels g))) (seq 0 (f_cols f)))).
  { induction us as [|u us IH]; [contradiction|]. intros Hin. cbn. destruct (Z.eqb_spec u g) as [->|Hne]; [reflexivity|].
    apply IH. destruct Hin; congruence. }
  rewrite F by (apply unique_hours_in, Hg). cbn [snd]. rewrite nth_map_seq by exact Hj. reflexivity.
Qed.
Lemma map_table_entry h t g j : entry (map_table h t) g j = option_map h (entry t g j).
Proof.
  unfold entry, map_table.
  induction t as [|[g' r] t IH]; [reflexivity|]. cbn. destruct (g' =? g)%Z; [|exact IH]. cbn.
  clear. revert j. induction r as [|a r IH]; destruct j; cbn; auto.
Qed.
Lemma eqb_dec {A} (a b : Z) (x y : A) : (if (a =? b)%Z then x else y) = (if Z.eq_dec a b then x else y).
Proof. destruct (Z.eqb_spec a b), (Z.eq_dec a b); congruence. Qed.

Lemma group_mean_labels labels f : map fst (group_mean labels f) = unique_hours labels.
Proof. unfold group_mean. rewrite map_map. apply map_id. Qed.
Lemma map_table_labels h t : map fst (map_table h t) = map fst t.
Proof. unfold map_table. rewrite map_map. reflexivity. Qed.
Lemma labels_listed labels (tbl : table) : map fst tbl = unique_hours labels -> listed labels (map fst tbl).
Proof. intros ->. split; [apply unique_hours_sorted|]. intros; apply unique_hours_in. Qed.

Lemma flat_map_group {A} ax labels g k (items : nat * nat -> list A) :
  flat_map items (group_cells ax labels g k) =
  flat_map (fun i => if Z.eq_dec (nth i labels 0%Z) g then items (cell_of ax i k) else []) (seq 0 (length labels)).
Proof.
  unfold group_cells. generalize (seq 0 (length labels)). induction l as [|i l IH]; [reflexivity|]. cbn [flat_map].
  rewrite flat_map_app, IH. destruct (Z.eq_dec _ _); cbn; rewrite ?app_nil_r; reflexivity.
Qed.
Lemma group_cells_in ax labels t g k c : grouped ax labels t -> (k < other_size ax t)%nat -> In c (group_cells ax labels g k) ->
  (fst c < f_rows t)%nat /\ (snd c < f_cols t)%nat.
Proof.
  intros [Hl _] Hk Hc. unfold group_cells in Hc. apply in_flat_map in Hc as (i & Hi & Hc). apply in_seq in Hi.
  destruct (Z.eq_dec _ _); [|contradiction]. destruct Hc as [<-|[]].
  destruct ax; cbn in *; lia.
Qed.
Lemma group_cells_nonempty ax labels g k : In g labels -> group_cells ax labels g k <> [].
Proof.
  intros Hg E. destruct (In_nth labels g 0%Z Hg) as (i & Hi & Hn).
  assert (In (cell_of ax i k) (group_cells ax labels g k)); [|rewrite E in *; contradiction].
  apply in_flat_map. exists i. split; [apply in_seq; lia|]. destruct (Z.eq_dec _ _); [cbn; auto|congruence].
Qed.

(** A group's mean, for cells that are a function of items. *)
Lemma group_mean_items {A} labels f (items : nat -> list A) (h : A -> R) g j :
  In g labels -> (j < f_cols f)%nat -> (forall i, (i < length labels)%nat -> opt_list (f_at f i j) = map h (items i)) ->
  mean_of h (flat_map (fun i => if Z.eq_dec (nth i labels 0%Z) g then items i else []) (seq 0 (length labels)))
    (entry (group_mean labels f) g j).
Proof.
  intros Hg Hj Hc. rewrite entry_group_mean by auto. apply nanmean_mean. unfold group_rows. rewrite present_group, <- flat_map_map.
  apply flat_map_eq. intros i Hi. apply in_seq in Hi. rewrite eqb_dec. destruct (Z.eq_dec _ _); [apply Hc; lia|reflexivity].
Qed.

Lemma aggregate_rows n agg f : length agg = n -> aggregate n agg f = Some (group_mean agg f).
Proof. intros <-. unfold aggregate, chose_axis. rewrite Nat.eqb_refl. reflexivity. Qed.
Lemma aggregate_cols n agg f : length agg <> n -> length agg = f_cols f -> aggregate n agg f = Some (group_mean agg (transpose f)).
Proof.
  intros H E. unfold aggregate, chose_axis. destruct (Nat.eqb_spec n (length agg)); [congruence|]. cbn [Nat.eqb].
  rewrite E, Nat.eqb_refl. reflexivity.
Qed.
Definition on_axis (ax : axis) (labels : list Z) (f : frame) : table :=
  match ax with over_rows => group_mean labels f | over_columns => group_mean labels (transpose f) end.
Lemma aggregate_axis ax labels f n : n = f_rows f -> grouped ax labels f -> aggregate n labels f = Some (on_axis ax labels f).
Proof.
  intros -> [Hl Hd]. destruct ax; cbn in *; [apply aggregate_rows, Hl|]. apply aggregate_cols; [|exact Hl]. specialize (Hd eq_refl). congruence.
Qed.
Lemma on_axis_listed ax labels f : listed labels (map fst (on_axis ax labels f)).
Proof. apply labels_listed. destruct ax; apply group_mean_labels. Qed.
Lemma on_axis_mean {A} ax labels f (items : nat * nat -> list A) (h : A -> R) g k :
  grouped ax labels f -> In g labels -> (k < other_size ax f)%nat ->
  (forall i j, (i < f_rows f)%nat -> (j < f_cols f)%nat -> opt_list (f_at f i j) = map h (items (i, j))) ->
  mean_of h (flat_map items (group_cells ax labels g k)) (entry (on_axis ax labels f) g k).
Proof.
  intros [Hl _] Hg Hk Hc. rewrite flat_map_group. destruct ax; cbn [on_axis cell_of] in *; apply group_mean_items; auto; cbn in *; intros; apply Hc; lia.
Qed.

(** * rmse *)
Definition sqd (p : R * R) : R := (fst p - snd p) * (fst p - snd p).
Lemma sqd_nonneg p : 0 <= sqd p.
Proof. apply Rle_0_sqr. Qed.
Lemma sqd_zero p : sqd p = 0 <-> fst p = snd p.
Proof. unfold sqd. split; intros H; [|rewrite H; lra]. apply Rmult_integral in H. destruct H; lra. Qed.
Lemma rms_of_mean l v : mean_of sqd l v -> root_mean_square l (option_map sqrt v).
Proof.
  destruct v as [v|]; cbn; [|auto]. intros [Hn E]. split; [auto|]. split; [apply sqrt_pos|].
  assert (0 <= v) by (apply (mean_of_nonneg sqd l v); [intros; apply sqd_nonneg|split; auto]).
  rewrite sqrt_sqrt by assumption. exact E.
Qed.
Lemma rms_zero l v : root_mean_square l (Some v) -> v = 0 <-> perfect l.
Proof.
  cbn. intros (Hn & Hp & E). pose proof (INR_len_pos l Hn). unfold perfect.
  change (fun p : R * R => (fst p - snd p) * (fst p - snd p)) with sqd in E.
  assert (Hs : forall a, In a l -> 0 <= sqd a) by (intros; apply sqd_nonneg).
  pose proof (total_map_zero sqd l Hs) as Z.
  assert (P : Forall (fun a => sqd a = 0) l <-> Forall (fun p => fst p = snd p) l).
  { rewrite !Forall_forall. split; intros H0 x Hx; specialize (H0 x Hx); apply sqd_zero; exact H0. }
  rewrite <- P, <- Z, <- E. split; intros Q; [subst; lra|]. apply Rmult_integral in Q. destruct Q as [Q|Q]; [|lra].
  apply Rmult_integral in Q. destruct Q; assumption.
Qed.

Lemma rmse_correct ax x t labels :
  grouped ax labels x ->
  exists tbl, rmse x t (Some labels) = Some tbl /\ listed labels (map fst tbl) /\
    forall g k, In g labels -> (k < other_size ax x)%nat ->
      let l := pairs x t (group_cells ax labels g k) in
      root_mean_square l (entry tbl g k) /\
      (forall v, entry tbl g k = Some v -> 0 <= v /\ (v = 0 <-> perfect l)).
Proof.
  intros Hl. unfold rmse, agg_or_ones. rewrite (aggregate_axis ax) by (auto; apply Hl). eexists. split; [reflexivity|].
  split. { rewrite map_table_labels. apply on_axis_listed. }
  intros g k Hg Hk. cbv zeta. set (l := pairs x t (group_cells ax labels g k)). rewrite map_table_entry.
  assert (M : root_mean_square l (option_map sqrt (entry (on_axis ax labels (squerr x t)) g k))).
  { apply rms_of_mean. apply (on_axis_mean ax labels (squerr x t) (observed_pair x t) sqd g k); auto.
    intros i j _ _. unfold squerr, err, observed_pair. cbn. destruct (f_at x i j), (f_at t i j); reflexivity. }
  split; [exact M|]. intros v Hv. rewrite Hv in M. split; [apply M|]. apply rms_zero, M.
Qed.

(** * mape *)
Lemma mape_correct ax x t labels :
  grouped ax labels x ->
  exists tbl, mape x t (Some labels) = Some tbl /\ listed labels (map fst tbl) /\
    forall g k, In g labels -> (k < other_size ax x)%nat ->
      let l := pairs x t (group_cells ax labels g k) in
      mean_of percentage_error l (entry tbl g k) /\
      (forall v, entry tbl g k = Some v -> 0 <= v /\ (v = 0 <-> perfect l)).
Proof.
  intros Hl. unfold mape, agg_or_ones. rewrite (aggregate_axis ax) by (auto; apply Hl). eexists. split; [reflexivity|].
  split; [apply on_axis_listed|]. intros g k Hg Hk. cbv zeta. set (l := pairs x t (group_cells ax labels g k)).
  assert (Hpos : forall b, 0 < Rabs b + 1 / 10 ^ 5) by (intros b; pose proof (Rabs_pos b); lra).
  match goal with |- mean_of _ _ (entry (on_axis ax labels ?F) g k) /\ _ =>
    assert (M : mean_of percentage_error l (entry (on_axis ax labels F) g k)) end.
  { apply (on_axis_mean ax labels _ (observed_pair x t) percentage_error g k); auto.
    intros i j _ _. unfold err, observed_pair, percentage_error. cbn [f_at fst snd]. destruct (f_at x i j) as [a|]; [|reflexivity].
    destruct (f_at t i j) as [b|]; [|reflexivity]. cbn [lift2 option_map opt_list map fst snd]. f_equal. unfold Rdiv. rewrite Rabs_mult. f_equal.
    specialize (Hpos b). rewrite Rabs_right; [f_equal; lra|]. apply Rle_ge, Rlt_le, Rinv_0_lt_compat. lra. }
  split; [exact M|]. intros v Hv. rewrite Hv in M.
  assert (Hn : forall p, In p l -> 0 <= percentage_error p).
  { intros p _. apply Rmult_le_pos; [apply Rabs_pos|apply Rlt_le, Rinv_0_lt_compat, Hpos]. }
  split; [apply (mean_of_nonneg percentage_error l v Hn M)|].
  rewrite (mean_of_zero percentage_error l v Hn M). unfold perfect. rewrite !Forall_forall. split; intros H p Hp; specialize (H p Hp).
  - unfold percentage_error in H. apply Rmult_integral in H as [H|H].
    + destruct (Req_dec (fst p - snd p) 0) as [E|E]; [lra|]. apply Rabs_no_R0 in E. contradiction.
    + specialize (Hpos (snd p)). apply Rinv_0_lt_compat in Hpos. lra.
  - unfold percentage_error. rewrite H, Rminus_diag_eq, Rabs_R0 by reflexivity. unfold Rdiv. lra.
Qed.

(** * nmae *)
Lemma nanmean_average vs : nanmean vs = match present_values vs with [] => None | l => Some (average l) end.
Proof. reflexivity. Qed.
Lemma row_level_spec t i : row_level t i = match row_observations t i with [] => None | l => Some (average l) end.
Proof.
  unfold row_level. rewrite nanmean_average.
  assert (E : present_values (map (fun j => option_map Rabs (f_at t i j)) (seq 0 (f_cols t))) = row_observations t i).
  { unfold present_values, row_observations. rewrite flat_map_concat_map, map_map, <- flat_map_concat_map.
    apply flat_map_eq. intros j _. destruct (f_at t i j); reflexivity. }
  rewrite E. reflexivity.
Qed.
Lemma row_averages_spec t : present_values (map (row_level t) (seq 0 (f_rows t))) = row_averages t.
Proof.
  unfold present_values, row_averages. rewrite flat_map_concat_map, map_map, <- flat_map_concat_map.
  apply flat_map_eq. intros i _. rewrite row_level_spec. destruct (row_observations t i); reflexivity.
Qed.
Lemma row_observations_nonneg t i a : In a (row_observations t i) -> 0 <= a.
Proof.
  unfold row_observations. rewrite in_flat_map. intros (j & _ & H). destruct (f_at t i j); cbn in H; [|contradiction].
  destruct H as [<-|[]]. apply Rabs_pos.
Qed.
Lemma average_nonneg l : (forall a, In a l -> 0 <= a) -> 0 <= average l.
Proof.
  intros H. unfold average. destruct l as [|a l]. { cbn. unfold Rdiv. rewrite Rmult_0_l. lra. }
  apply Rmult_le_pos; [rewrite <- (map_id (a :: l)); apply total_map_nonneg, H|].
  apply Rlt_le, Rinv_0_lt_compat, INR_len_pos. discriminate.
Qed.
Lemma row_averages_nonneg t a : In a (row_averages t) -> 0 <= a.
Proof.
  unfold row_averages. rewrite in_flat_map. intros (i & _ & H). destruct (row_observations t i) eqn:E; [contradiction|].
  destruct H as [<-|[]]. rewrite <- E. apply average_nonneg. intros. eapply row_observations_nonneg; eassumption.
Qed.
Lemma list_upper (l : list R) : exists hi, forall x, In x l -> x <= hi.
Proof.
  induction l as [|a l [hi H]]; [exists 0; intros ? []|]. exists (Rmax a hi). intros x [<-|Hx]; [apply Rmax_l|].
  eapply Rle_trans; [apply H, Hx|apply Rmax_r].
Qed.
Lemma tiny_spec : tiny = 1 / 10 ^ 12.
Proof. unfold tiny. lra. Qed.
Lemma offset_correct t inter : row_averages t <> [] ->
  exists off, nmae_offset t inter = Some off /\ nmae_offset_spec t inter off /\ 0 < off.
Proof.
  intros Hne. unfold nmae_offset, nmae_offset_spec. rewrite row_averages_spec. destruct inter.
  - set (off := quantile (row_averages t) (1 / 2) * (1 / 100) + tiny). exists off. split.
    { destruct (row_averages t); [congruence|reflexivity]. }
    split.
    + exists (rsort (row_averages t)), (quantile (row_averages t)).
      assert (S : sorted_copy (row_averages t) (rsort (row_averages t))).
      { split; [apply Permutation.Permutation_sym, rsort_perm|apply rsort_sorted]. }
      split; [exact S|]. split; [apply quantile_interpolates, S|]. unfold off. rewrite tiny_spec. lra.
    + assert (0 <= quantile (row_averages t) (1 / 2)).
      { destruct (list_upper (row_averages t)) as [hi Hhi].
        refine (proj1 (quantile_bounds (row_averages t) (1/2) 0 hi Hne _ _)); [lra|].
        intros x Hx. split; [eapply row_averages_nonneg; eassumption|auto]. }
      unfold off, tiny. lra.
  - exists tiny. rewrite tiny_spec. repeat split; lra.
Qed.
Lemma observed_row t i j b : (j < f_cols t)%nat -> f_at t i j = Some b -> row_observations t i <> [].
Proof.
  intros Hj E H. assert (In (Rabs b) (row_observations t i)); [|rewrite H in *; contradiction].
  apply in_flat_map. exists j. split; [apply in_seq; lia|]. rewrite E. cbn. auto.
Qed.

Lemma nmae_items x t inter off i j : nmae_offset t inter = Some off -> 0 < off -> (j < f_cols t)%nat ->
  opt_list (option_map Rabs (lift2 Rdiv (f_at (err x t) i j) (lift2 Rplus (row_level t i) (nmae_offset t inter)))) =
  map relative_error (map (pair (average (row_observations t i) + off)) (observed_pair x t (i, j))).
Proof.
  intros E Hoff Hj. rewrite E, row_level_spec. unfold err, observed_pair. cbn [f_at fst snd].
  destruct (f_at x i j) as [a|]; [|reflexivity]. destruct (f_at t i j) as [b|] eqn:Et; [|reflexivity].
  pose proof (observed_row t i j b Hj Et) as Hr.
  assert (Hn : 0 <= average (row_observations t i)) by (apply average_nonneg; intros; eapply row_observations_nonneg; eassumption).
  destruct (row_observations t i) as [|c l] eqn:Er; [congruence|]. cbn [lift2 option_map opt_list map relative_error fst snd].
  unfold relative_error. cbn [fst snd]. f_equal. unfold Rdiv. rewrite Rabs_mult. f_equal. apply Rabs_right.
  apply Rle_ge, Rlt_le, Rinv_0_lt_compat. lra.
Qed.
Lemma relative_error_nonneg p : 0 < fst p -> 0 <= relative_error p.
Proof. intros H. unfold relative_error. apply Rmult_le_pos; [apply Rabs_pos|apply Rlt_le, Rinv_0_lt_compat, H]. Qed.
Lemma relative_error_zero p : 0 < fst p -> relative_error p = 0 <-> fst (snd p) = snd (snd p).
Proof.
  intros H. unfold relative_error. split; intros E.
  - apply Rmult_integral in E. destruct E as [E|E].
    + destruct (Req_dec (fst (snd p) - snd (snd p)) 0); [lra|]. apply Rabs_no_R0 in H0. lra.
    + apply Rinv_0_lt_compat in H. unfold Rdiv in *. lra.
  - rewrite E, Rminus_diag_eq, Rabs_R0 by reflexivity. unfold Rdiv. lra.
Qed.
Lemma nmae_correct ax x t labels inter :
  same_size x t -> grouped ax labels x -> row_averages t <> [] ->
  exists tbl off, nmae x t (Some labels) inter = Some tbl /\ listed labels (map fst tbl) /\
    nmae_offset_spec t inter off /\ 0 < off /\
    forall g k, In g labels -> (k < other_size ax x)%nat ->
      let cells := group_cells ax labels g k in
      mean_of relative_error (weighted_pairs (fun i => average (row_observations t i) + off) x t cells) (entry tbl g k) /\
      (forall v, entry tbl g k = Some v -> 0 <= v /\ (v = 0 <-> perfect (pairs x t cells))).
Proof.
  intros [Hr Hc] Hl Hne. destruct (offset_correct t inter Hne) as (off & E & Hspec & Hpos).
  unfold nmae, agg_or_ones. rewrite (aggregate_axis ax) by (auto; apply Hl). eexists; exists off. split; [reflexivity|].
  split; [apply on_axis_listed|]. split; [auto|]. split; [auto|].
  intros g k Hg Hk. cbv zeta. set (cells := group_cells ax labels g k). set (w := fun i => average (row_observations t i) + off).
  assert (Hw : forall i, 0 < w i).
  { intros i. unfold w. assert (0 <= average (row_observations t i)) by (apply average_nonneg; intros; eapply row_observations_nonneg; eassumption). lra. }
  set (l := weighted_pairs w x t cells).
  match goal with |- mean_of _ _ (entry (on_axis ax labels ?F) g k) /\ _ =>
    assert (M : mean_of relative_error l (entry (on_axis ax labels F) g k)) end.
  { apply (on_axis_mean ax labels _ (fun c => map (pair (w (fst c))) (observed_pair x t c)) relative_error g k); auto.
    intros i j _ Hj. cbn [f_at f_cols fst] in *. apply nmae_items; auto. rewrite Hc. exact Hj. }
  split; [exact M|]. intros v Hv. rewrite Hv in M.
  assert (Hp : forall p, In p l -> 0 < fst p).
  { intros p Hp. apply in_flat_map in Hp as (c & _ & Hp). apply in_map_iff in Hp as (q & <- & _). apply Hw. }
  assert (Hn : forall p, In p l -> 0 <= relative_error p) by (intros; apply relative_error_nonneg; auto).
  split; [apply (mean_of_nonneg relative_error l v Hn M)|].
  rewrite (mean_of_zero relative_error l v Hn M). unfold perfect. rewrite !Forall_forall. split; intros H p Hin.
  - apply in_flat_map in Hin as (c & Hc' & Hin).
    assert (Hl' : In (w (fst c), p) l) by (apply in_flat_map; exists c; split; [auto|]; apply in_map, Hin).
    apply (relative_error_zero _ (Hp _ Hl')), H, Hl'.
  - apply (relative_error_zero _ (Hp _ Hin)). apply in_flat_map in Hin as (c & Hc' & Hin). apply in_map_iff in Hin as (q & <- & Hq).
    apply H. apply in_flat_map. exists c. auto.
Qed.
