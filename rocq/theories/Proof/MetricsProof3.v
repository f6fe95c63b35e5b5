From Coq Require Import List ZArith Bool Arith Lia Reals Lra Sorted.
From Verif Require Import Model.Series Model.Subsample Model.Stats Model.Quantiles Model.Metrics
  Spec.StatsSpec Spec.MetricsSpec Proof.SeriesProof Proof.SubsampleProof Proof.StatsProof Proof.QuantilesProof Proof.MetricsProof Proof.MetricsProof2.
Import ListNotations.
Local Open Scope R_scope.

(** * crps *)
Lemma entry_map_cells (rows : list Z) (F : Z -> nat -> option R) (W : Z -> nat) g j : In g rows -> (j < W g)%nat ->
  entry (map (fun z => (z, map (F z) (seq 0 (W z)))) rows) g j = F g j.
Proof.
  intros Hg Hj. unfold entry. induction rows as [|z rows IH]; [contradiction|]. cbn. destruct (Z.eqb_spec z g) as [->|Hne].
  - cbn. apply nth_map_seq, Hj.
  - apply IH. destruct Hg; congruence.
Qed.
Lemma group_mean_shape labels f : group_mean labels f =
  map (fun g => (g, map (fun j => nanmean (map (fun i => f_at f i j) (group_rows labels g))) (seq 0 (f_cols f)))) (unique_hours labels).
Proof. reflexivity. Qed.
Definition other_of (ax : axis) (f : frame) := match ax with over_rows => f_cols f | over_columns => f_rows f end.
Lemma on_axis_shape ax labels f : exists F, on_axis ax labels f = map (fun g => (g, map (F g) (seq 0 (other_size ax f)))) (unique_hours labels).
Proof. destruct ax; cbn; rewrite group_mean_shape; cbn; eexists (fun g j => _); reflexivity. Qed.

Lemma present_some {A} (f : A -> R) l : present_values (map (fun a => Some (f a)) l) = map f l.
Proof. unfold present_values. induction l; cbn; congruence. Qed.
Lemma present_none {A} (l : list A) : present_values (map (fun _ => None) l) = [].
Proof. unfold present_values. induction l; cbn; congruence. Qed.
Lemma mean_average {A} (f : A -> R) l v : l <> [] -> mean_of f l v -> v = Some (average (map f l)).
Proof.
  intros Hn M. destruct v as [v|]; [|contradiction]. destruct M as [_ E]. unfold average. rewrite map_length, <- E. f_equal.
  field. apply Rgt_not_eq, INR_len_pos, Hn.
Qed.
Lemma level_pairs_empty f f' t cells : level_pairs f t cells = [] <-> level_pairs f' t cells = [].
Proof.
  pose proof (level_pairs_observed f f' t cells) as E. split; intros H; rewrite H in E; cbn in E.
  - symmetry in E. apply map_eq_nil in E. exact E.
  - apply map_eq_nil in E. exact E.
Qed.

Lemma crps_correct ax q t alphas labels n forecast :
  laid_out q t n forecast -> grouped ax labels t -> (length alphas <= n)%nat -> alphas <> [] ->
  Forall (fun a => 0 <= a <= 1) alphas ->
  exists tbl, crps q t alphas (Some labels) = Some tbl /\ listed labels (map fst tbl) /\
    forall g c, In g labels -> (c < other_size ax t)%nat ->
      let seen k := level_pairs (forecast k) t (group_cells ax labels g c) in
      (seen 0%nat = [] -> entry tbl g c = None) /\
      (seen 0%nat <> [] -> exists v, entry tbl g c = Some v /\
         mean_of (fun k => average (map (pinball (nth k alphas 0)) (seen k))) (seq 0 (length alphas)) (Some v) /\
         0 <= v /\
         (Forall (fun a => 0 < a < 1) alphas -> v = 0 <-> forall k, (k < length alphas)%nat -> perfect (seen k))).
Proof.
  intros HL Hg Hn Hne Ha. unfold crps. rewrite (scores_value ax q t alphas labels n forecast) by assumption. cbn [option_map].
  destruct (length alphas) as [|m] eqn:Elen; [destruct alphas; [congruence|discriminate]|].
  set (L := map _ (seq 0 (S m))). cbn [seq map] in L.
  match goal with |- exists tbl, Some ?t = _ /\ _ => set (tb := t) end.
  destruct (on_axis_shape ax labels (score_frame q t 0 (nth 0 alphas 0))) as [F EF].
  assert (Etbl : tb = map (fun z => (z, map (fun j => nanmean (map (fun p => entry (fst (snd p)) z j) L)) (seq 0 (other_size ax t)))) (unique_hours labels)).
  { transitivity (map (fun r : Z * list (option R) => (fst r, map (fun j => nanmean (map (fun p => entry (fst (snd p)) (fst r) j) L)) (seq 0 (length (snd r)))))
      (on_axis ax labels (score_frame q t 0 (nth 0 alphas 0)))); [reflexivity|].
    rewrite EF, map_map. apply map_ext. intros z. cbn [fst snd]. rewrite map_length, seq_length. reflexivity. }
  exists tb. split; [reflexivity|]. rewrite Etbl. clear Etbl F EF.
  split. { rewrite map_map. cbn [fst]. rewrite map_id. split; [apply unique_hours_sorted|]. intros; apply unique_hours_in. }
  intros g c Hin Hc. cbv zeta. rewrite (entry_map_cells (unique_hours labels) (fun z j => nanmean (map (fun p => entry (fst (snd p)) z j) L)) (fun _ => other_size ax t)); [|apply unique_hours_in, Hin|exact Hc].
  set (seen := fun k => level_pairs (forecast k) t (group_cells ax labels g c)).
  change L with (map (fun k => (nth k alphas 0, (on_axis ax labels (score_frame q t k (nth k alphas 0)), on_axis ax labels (rel_frame q t k)))) (seq 0 (S m))).
  rewrite map_map. cbn [fst snd].
  assert (Hal : forall k, (k < S m)%nat -> 0 <= nth k alphas 0 <= 1).
  { intros k Hk. rewrite Forall_forall in Ha. apply Ha, nth_In. lia. }
  assert (SM : forall k, (k < S m)%nat -> mean_of (pinball (nth k alphas 0)) (seen k) (entry (on_axis ax labels (score_frame q t k (nth k alphas 0))) g c)).
  { intros k Hk. apply (score_mean ax q t labels n forecast k); auto. }
  split.
  - intros H0. rewrite (map_ext_in _ (fun _ => None)).
    + unfold nanmean. rewrite present_none. reflexivity.
    + intros k Hk. apply in_seq in Hk. specialize (SM k ltac:(lia)). destruct (entry _ g c) as [v|]; [|reflexivity].
      destruct SM as [Sn _]. exfalso. apply Sn. apply (level_pairs_empty (forecast 0%nat)). exact H0.
  - intros H0. set (A := fun k => average (map (pinball (nth k alphas 0)) (seen k))).
    rewrite (map_ext_in _ (fun k => Some (A k))).
    2:{ intros k Hk. apply in_seq in Hk. specialize (SM k ltac:(lia)). apply mean_average; [|exact SM].
        intros Z. apply H0. apply (level_pairs_empty (forecast k)). exact Z. }
    pose proof (nanmean_mean A (seq 0 (S m)) (map (fun k => Some (A k)) (seq 0 (S m))) (present_some A _)) as M.
    destruct (nanmean _) as [v|] eqn:Ev; [|discriminate M]. exists v. split; [reflexivity|]. split; [exact M|].
    assert (Hnn : forall k, In k (seq 0 (S m)) -> 0 <= A k).
    { intros k Hk. apply in_seq in Hk. apply average_nonneg. intros a Hin'. apply in_map_iff in Hin' as (p & <- & _). apply pinball_nonneg, Hal. lia. }
    split; [apply (mean_of_nonneg A _ _ Hnn M)|]. intros Hs. rewrite (mean_of_zero A _ _ Hnn M), Forall_forall.
    assert (Z : forall k, (k < S m)%nat -> A k = 0 <-> perfect (seen k)).
    { intros k Hk. assert (Hne' : seen k <> []) by (intros Z; apply H0; apply (level_pairs_empty (forecast k)); exact Z).
      assert (Hs' : 0 < nth k alphas 0 < 1) by (rewrite Forall_forall in Hs; apply Hs, nth_In; lia).
      assert (Mk : mean_of (pinball (nth k alphas 0)) (seen k) (Some (A k))).
      { split; [exact Hne'|]. unfold A, average. rewrite map_length. field. apply Rgt_not_eq, INR_len_pos, Hne'. }
      rewrite (mean_of_zero _ _ _ (fun p _ => pinball_nonneg _ p (Hal k Hk)) Mk). unfold perfect. rewrite !Forall_forall.
      split; intros H p Hp; apply (pinball_zero _ p Hs'), H, Hp. }
    split; intros H k Hk.
    + apply Z, H; [exact Hk|]. apply in_seq. lia.
    + apply in_seq in Hk. apply Z; [lia|]. apply H. lia.
Qed.

(** * Scorer *)
Lemma unique_repeat z m : (0 < m)%nat -> unique_hours (repeat z m) = [z].
Proof.
  intros Hm. apply strictly_sorted_unique.
  - apply unique_hours_sorted.
  - repeat constructor.
  - intros x. rewrite unique_hours_in. split; intros H; [apply repeat_spec in H; subst; cbn; auto|].
    destruct H as [<-|[]]. destruct m; [lia|cbn; auto].
Qed.
Lemma cells_repeat m i : group_cells over_columns (repeat 0%Z m) 0%Z i = map (fun j => (i, j)) (seq 0 m).
Proof.
  unfold group_cells. rewrite repeat_length, <- (flat_map_single (map (fun j => (i, j)) (seq 0 m))).
  rewrite flat_map_concat_map, flat_map_concat_map, map_map. f_equal. apply map_ext_in. intros j Hj. apply in_seq in Hj.
  destruct (Z.eq_dec _ _) as [|n]; [reflexivity|]. exfalso. apply n. rewrite (nth_repeat 0%Z m j). reflexivity.
Qed.
Lemma rms_unique l v w : root_mean_square l v -> root_mean_square l (Some w) -> v = Some w.
Proof.
  destruct v as [v|]; cbn; [|intros -> [H _]; congruence]. intros (Hn & Hp & E) (_ & Hp' & E'). f_equal.
  pose proof (INR_len_pos l Hn). assert (v * v * INR (length l) = w * w * INR (length l)) by lra.
  apply Rmult_eq_reg_r in H0; [|lra]. apply Rsqr_inj; auto.
Qed.
Lemma nanmean_one v : nanmean [v] = v.
Proof. destruct v; [|reflexivity]. unfold nanmean. cbn. f_equal. lra. Qed.

Lemma scorer_horizon x t w :
  f_cols x <> f_rows x -> (0 < f_cols x)%nat -> (0 < f_rows x)%nat ->
  (forall i, (i < f_rows x)%nat -> root_mean_square (pairs x t (map (fun j => (i, j)) (seq 0 (f_cols x)))) (Some (w i))) ->
  mean_of w (seq 0 (f_rows x)) (scorer_value (rmse x t) (f_cols x)).
Proof.
  intros Hd Hc Hr Hw. unfold scorer_value.
  assert (Hg : grouped over_columns (repeat 0%Z (f_cols x)) x) by (split; [apply repeat_length|auto]).
  destruct (rmse_correct over_columns x t (repeat 0%Z (f_cols x)) Hg) as (tbl & E & _ & C). rewrite E.
  unfold rmse, agg_or_ones in E. rewrite (aggregate_axis over_columns) in E by (auto; apply Hg). cbn [option_map] in E. injection E as E.
  assert (S : exists cells, tbl = [(0%Z, cells)] /\ length cells = f_rows x).
  { rewrite <- E. cbn [on_axis]. rewrite group_mean_shape, unique_repeat by exact Hc. cbn [map map_table fst snd]. eexists. split; [reflexivity|].
    rewrite !map_length, seq_length. reflexivity. }
  destruct S as (cells & -> & Hlen). cbn [snd map]. rewrite Hlen.
  rewrite (map_ext_in _ (fun i => Some (w i))).
  - apply nanmean_mean. apply present_some.
  - intros i Hi. apply in_seq in Hi. rewrite nanmean_one.
    destruct (C 0%Z i) as [M _]; [destruct (f_cols x); [lia|cbn; auto]|cbn; lia|]. cbv zeta in M. rewrite cells_repeat in M.
    cbn [entry find fst Z.eqb snd] in M. eapply rms_unique; [exact M|]. apply Hw. lia.
Qed.

Definition square_x : frame := Frame 2 2 (fun i j => Some (if (i =? 0)%nat then 1 else 0)).
Definition square_t : frame := Frame 2 2 (fun i j => Some 0).
Lemma scorer_square :
  exists x t w, f_rows x = f_cols x /\
    (forall i, (i < f_rows x)%nat -> root_mean_square (pairs x t (map (fun j => (i, j)) (seq 0 (f_cols x)))) (Some (w i))) /\
    ~ mean_of w (seq 0 (f_rows x)) (scorer_value (rmse x t) (f_cols x)).
Proof.
  exists square_x, square_t, (fun i => if (i =? 0)%nat then 1 else 0). split; [reflexivity|]. split.
  - intros i Hi. cbn in Hi. destruct i as [|[|i]]; [| |lia]; cbn; (split; [discriminate|split; lra]).
  - unfold scorer_value.
    assert (Hg : grouped over_rows (repeat 0%Z 2) square_x) by (split; [reflexivity|discriminate]).
    destruct (rmse_correct over_rows square_x square_t (repeat 0%Z 2) Hg) as (tbl & E & _ & C). cbn [square_x f_cols]. fold square_x. rewrite E.
    unfold rmse, agg_or_ones in E. rewrite (aggregate_axis over_rows) in E by (auto; apply Hg). cbn [option_map] in E. injection E as E.
    assert (S : exists a b, tbl = [(0%Z, [a; b])]).
    { rewrite <- E. do 2 eexists. reflexivity. }
    destruct S as (a & b & ->).
    destruct (C 0%Z 0%nat) as [M0 _]; [cbn; auto|cbn; lia|]. destruct (C 0%Z 1%nat) as [M1 _]; [cbn; auto|cbn; lia|].
    cbn in M0, M1. destruct a as [a|]; [|discriminate]. destruct b as [b|]; [|discriminate].
    destruct M0 as (_ & Pa & Ea), M1 as (_ & Pb & Eb).
    cbn in Ea, Eb. cbn. intros [_ H].
    assert (a * a = 1 / 2) by lra. assert (b * b = 1 / 2) by lra. assert (a + b = 1) by (replace (a + b) with (((a + 0) / 1 + ((b + 0) / 1 + 0)) / (1 + 1) * (1 + 1)) by field; lra). assert (a = b) by (apply Rsqr_inj; unfold Rsqr; lra). assert (b = 1 / 2) as -> by lra. lra.
Qed.

Lemma axis_ambiguous :
  exists x t labels g k tbl, length labels = f_cols x /\ In g labels /\ (k < f_rows x)%nat /\
    rmse x t (Some labels) = Some tbl /\
    ~ root_mean_square (pairs x t (group_cells over_columns labels g k)) (entry tbl g k).
Proof.
  exists square_x, square_t, [0%Z; 0%Z], 0%Z, 0%nat.
  destruct (rmse_correct over_rows square_x square_t [0%Z; 0%Z]) as (tbl & E & _ & C); [split; [reflexivity|discriminate]|].
  exists tbl. split; [reflexivity|]. split; [cbn; auto|]. split; [cbn; lia|]. split; [exact E|].
  destruct (C 0%Z 0%nat) as [M _]; [cbn; auto|cbn; lia|]. cbn in M.
  intros H. cbn in H. destruct (entry tbl 0%Z 0%nat) as [v|]; [|discriminate].
  destruct M as (_ & P & E1), H as (_ & _ & E2). cbn in E1, E2. assert (v * v = 1 / 2) by lra. assert (v * v = 1) by lra. lra.
Qed.

(** * Missing observations and layouts *)
Definition gap_t : frame := Frame 2 1 (fun i j => if (i =? 0)%nat then Some 0 else None).
Lemma reliability_missing :
  exists q t alphas labels forecast l alpha r g c v, laid_out q t 1 forecast /\ grouped over_rows labels t /\
    reliability q t alphas (Some labels) false = Some l /\ nth_error l 0 = Some (alpha, r) /\
    In g labels /\ (c < f_cols t)%nat /\ entry r g c = Some v /\
    ~ fraction_below (level_pairs (forecast 0%nat) t (group_cells over_rows labels g c)) v.
Proof.
  pose (q := Array3 2 1 1 (fun _ _ _ => 1)).
  assert (HL : laid_out q gap_t 1 (fun _ _ _ => 1)) by (left; repeat split).
  assert (Hg : grouped over_rows [0%Z; 0%Z] gap_t) by (split; [reflexivity|discriminate]).
  destruct (scores_correct over_rows q gap_t [1 / 2] [0%Z; 0%Z] 1 (fun _ _ _ => 1) HL Hg (le_n 1)) as (l & E & F & C); [repeat constructor; lra|].
  destruct l as [|[al [s r]] [|]]; [discriminate| |discriminate].
  destruct (C 0%nat al s r eq_refl) as (_ & _ & D). destruct (D 0%Z 0%nat) as (_ & _ & v & Ev & Hv); [cbn; auto|cbn; lia|].
  exists q, gap_t, [1 / 2], [0%Z; 0%Z], (fun _ _ _ => 1), [(al, r)], al, r, 0%Z, 0%nat, v.
  split; [exact HL|]. split; [exact Hg|]. split. { unfold reliability. rewrite E. reflexivity. }
  split; [reflexivity|]. split; [cbn; auto|]. split; [cbn; lia|]. split; [exact Ev|].
  intros [_ H]. revert Hv H. unfold level_pairs, group_cells, exceeded. cbn. destruct (Rlt_dec 0 1); cbn; lra.
Qed.

Lemma layout_ambiguous :
  exists q t alphas labels l alpha s r g c v,
    a_dim1 q = length alphas /\ a_dim2 q = f_cols t /\
    (forall i k j, f_at t i j = Some (a_at q i k j)) /\
    quantile_scores q t alphas (Some labels) = Some l /\ nth_error l 0 = Some (alpha, (s, r)) /\
    In g labels /\ (c < f_cols t)%nat /\ entry s g c = Some v /\ v <> 0.
Proof.
  pose (t := Frame 1 2 (fun i j => Some (INR j))). pose (q := Array3 1 2 2 (fun _ _ j => INR j)).
  pose (f := fun k i j : nat => a_at q i j k).
  assert (HL : laid_out q t 2 f) by (left; repeat split).
  assert (Hg : grouped over_rows [0%Z] t) by (split; [reflexivity|discriminate]).
  destruct (scores_correct over_rows q t [1 / 2; 1 / 2] [0%Z] 2 f HL Hg (le_n 2)) as (l & E & F & C); [repeat constructor; lra|].
  destruct l as [|[al [s r]] l]; [discriminate|]. injection F as F _.
  destruct (C 0%nat al s r eq_refl) as (_ & _ & D). destruct (D 0%Z 1%nat) as (M & _ & _); [cbn; auto|cbn; lia|].
  cbv zeta in M. destruct (entry s 0%Z 1%nat) as [v|] eqn:Ev; [|discriminate M].
  exists q, t, [1 / 2; 1 / 2], [0%Z], ((al, (s, r)) :: l), al, s, r, 0%Z, 1%nat, v.
  split; [reflexivity|]. split; [reflexivity|]. split; [reflexivity|]. split; [exact E|]. split; [reflexivity|].
  split; [cbn; auto|]. split; [cbn; lia|]. split; [exact Ev|].
  destruct M as [_ M]. cbn in M. rewrite F in M. intros ->. revert M.
  pose proof (Rmax_r ((1 - 1 / 2) * (0 - 1)) (1 / 2 * (1 - 0))). lra.
Qed.
