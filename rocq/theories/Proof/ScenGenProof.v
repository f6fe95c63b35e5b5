From Coq Require Import List ZArith Bool Arith Lia Reals Lra Sorted Permutation.
From Verif Require Import Model.Series Model.Subsample Model.Stats Model.Quantiles Model.Metrics Model.ScenGen
  Spec.StatsSpec Spec.MetricsSpec Spec.ScenGenSpec Proof.SeriesProof Proof.SubsampleProof Proof.StatsProof Proof.QuantilesProof.
Import ListNotations.
Local Open Scope R_scope.

(** * Sorting points *)
Lemma insert_point_perm p l : Permutation (insert_point p l) (p :: l).
Proof. induction l as [|a l IH]; cbn; [auto|]. destruct (Rle_dec _ _); [auto|]. rewrite IH. apply perm_swap. Qed.
Lemma sort_points_perm l : Permutation (sort_points l) l.
Proof. induction l as [|a l IH]; cbn; [auto|]. rewrite insert_point_perm. constructor. exact IH. Qed.
Definition point_le (a b : R * R) : Prop := fst a <= fst b.
Lemma insert_point_sorted p l : StronglySorted point_le l -> StronglySorted point_le (insert_point p l).
Proof.
  induction l as [|a l IH]; intros H; cbn; [repeat constructor|]. inversion H as [|? ? Hl Ha]; subst.
  destruct (Rle_dec (fst p) (fst a)).
  - constructor; [exact H|]. constructor; [exact r|]. eapply Forall_impl; [|exact Ha]. intros b Hb. unfold point_le in *. lra.
  - constructor; [apply IH, Hl|]. apply (Permutation_Forall (Permutation_sym (insert_point_perm p l))). constructor; [unfold point_le; lra|exact Ha].
Qed.
Lemma sort_points_sorted l : StronglySorted point_le (sort_points l).
Proof. induction l; cbn; [constructor|]. apply insert_point_sorted; assumption. Qed.
Lemma points_unique s1 : forall s2, StronglySorted point_le s1 -> StronglySorted point_le s2 -> NoDup (map fst s1) -> Permutation s1 s2 -> s1 = s2.
Proof.
  induction s1 as [|a s1 IH]; intros s2 H1 H2 Hn Hp.
  - apply Permutation_nil in Hp. congruence.
  - destruct s2 as [|b s2]; [apply Permutation_sym, Permutation_nil in Hp; discriminate|].
    inversion H1 as [|? ? S1 F1]; inversion H2 as [|? ? S2 F2]; subst. cbn in Hn. inversion Hn as [|? ? Nin Nd]; subst.
    assert (a = b).
    { assert (Ia : In a (b :: s2)) by (eapply Permutation_in; [exact Hp|cbn; auto]).
      assert (Ib : In b (a :: s1)) by (eapply Permutation_in; [apply Permutation_sym, Hp|cbn; auto]).
      destruct Ib as [|Ib]; [auto|]. destruct Ia as [|Ia]; [auto|].
      rewrite Forall_forall in F1, F2. specialize (F1 b Ib). specialize (F2 a Ia). unfold point_le in *.
      exfalso. apply Nin. assert (fst a = fst b) by lra. rewrite H. apply in_map, Ib. }
    subst b. f_equal. apply IH; auto. apply Permutation_cons_inv in Hp. exact Hp.
Qed.
Lemma combine_sorted levels values : StronglySorted Rlt levels -> length values = length levels -> StronglySorted point_le (combine levels values).
Proof.
  revert values. induction levels as [|a levels IH]; intros [|v values] H E; try discriminate; cbn; [constructor|].
  inversion H as [|? ? Hl Ha]; subst. constructor; [apply IH; auto|].
  apply Forall_forall. intros [b w] Hb. apply in_combine_l in Hb. rewrite Forall_forall in Ha. specialize (Ha b Hb). unfold point_le. cbn. lra.
Qed.
Lemma combine_fst {A B} (l : list A) (m : list B) : length m = length l -> map fst (combine l m) = l.
Proof. revert m. induction l as [|a l IH]; intros [|b m] E; try discriminate; cbn; [reflexivity|]. rewrite IH; auto. Qed.
Lemma Rlt_sorted_nodup l : StronglySorted Rlt l -> NoDup l.
Proof. induction 1; constructor; auto. intros Hin. rewrite Forall_forall in H0. specialize (H0 a Hin). lra. Qed.
Lemma sort_points_id levels values : quantile_curve levels values -> sort_points (combine levels values) = combine levels values.
Proof.
  intros (H & E & _). symmetry. apply points_unique; [apply combine_sorted; auto|apply sort_points_sorted| |apply Permutation_sym, sort_points_perm].
  rewrite combine_fst by exact E. apply Rlt_sorted_nodup, H.
Qed.
Lemma interp_order levels values levels' values' x :
  NoDup levels -> length values = length levels -> length values' = length levels' ->
  Permutation (combine levels values) (combine levels' values') ->
  interp1d levels values x = interp1d levels' values' x.
Proof.
  intros Hn E E' Hp. unfold interp1d.
  replace (sort_points (combine levels' values')) with (sort_points (combine levels values)); [reflexivity|].
  apply points_unique; try apply sort_points_sorted.
  - eapply Permutation_NoDup; [apply Permutation_map, Permutation_sym, sort_points_perm|]. rewrite combine_fst by exact E. exact Hn.
  - rewrite sort_points_perm, sort_points_perm. exact Hp.
Qed.

(** * Locating the cell *)
Lemma lt_sorted_nth l : StronglySorted Rlt l -> forall i j, (i < j < length l)%nat -> nth i l 0 < nth j l 0.
Proof.
  induction 1 as [|a l Hl IH Ha]; intros i j Hij; [cbn in Hij; lia|]. destruct j as [|j]; [lia|]. cbn in Hij. destruct i as [|i].
  - cbn. rewrite Forall_forall in Ha. apply Ha, nth_In. lia.
  - cbn. apply IH. lia.
Qed.
Lemma count_prefix xs x k : StronglySorted Rlt xs -> (k <= length xs)%nat ->
  (forall i, (i < k)%nat -> nth i xs 0 < x) -> (forall i, (k <= i < length xs)%nat -> x <= nth i xs 0) ->
  count (fun a => Rltb a x) xs = k.
Proof.
  intros Hs Hk H1 H2. unfold count. rewrite <- (firstn_skipn k xs) at 1. rewrite filter_app, app_length.
  rewrite filter_all, filter_none.
  - rewrite firstn_length. cbn. lia.
  - intros a Ha. destruct (In_nth _ _ 0 Ha) as (i & Hi & <-). rewrite skipn_length in Hi. rewrite nth_skipn.
    specialize (H2 (k + i)%nat ltac:(lia)). unfold Rltb. destruct (Rlt_dec _ _); [lra|reflexivity].
  - intros a Ha. destruct (In_nth _ _ 0 Ha) as (i & Hi & <-). rewrite firstn_length in Hi. rewrite nth_firstn by lia.
    specialize (H1 i ltac:(lia)). apply Rltb_spec. exact H1.
Qed.
Lemma cell_bounds xs x : StronglySorted Rlt xs -> (2 <= length xs)%nat ->
  let i := (cell_index xs x - 1)%nat in
  (S i < length xs)%nat /\ cell_index xs x = S i /\ (i = 0%nat \/ nth i xs 0 < x) /\ (S (S i) = length xs \/ x <= nth (S i) xs 0).
Proof.
  intros Hs Hl.
  assert (Hk : exists k, (k <= length xs)%nat /\ (forall i, (i < k)%nat -> nth i xs 0 < x) /\ (forall i, (k <= i < length xs)%nat -> x <= nth i xs 0)).
  { clear Hl. induction Hs as [|a l Hl IH Ha]; [exists 0%nat; cbn; split; [lia|]; split; intros; lia|].
    destruct (Rlt_dec a x) as [Hax|Hax].
    - destruct IH as (k & K1 & K2 & K3). exists (S k). cbn [length]. split; [lia|]. split.
      + intros [|i] Hi; cbn; [exact Hax|apply K2; lia].
      + intros [|i] Hi; [lia|]. cbn. apply K3. lia.
    - exists 0%nat. split; [lia|]. split; [intros; lia|]. intros [|i] Hi; cbn; [lra|].
      rewrite Forall_forall in Ha. cbn in Hi. specialize (Ha (nth i l 0) ltac:(apply nth_In; lia)). lra. }
  destruct Hk as (k & K1 & K2 & K3). unfold cell_index. rewrite (count_prefix xs x k) by auto. cbv zeta.
  destruct (Nat.max_spec 1 (Nat.min k (length xs - 1))) as [[? E]|[? E]]; rewrite E;
  destruct (Nat.min_spec k (length xs - 1)) as [[? F]|[? F]].
  - rewrite F in *. split; [lia|]. split; [lia|]. split; [right; apply K2; lia|right]. apply K3. lia.
  - rewrite F in *. split; [lia|]. split; [lia|]. split; [right; apply K2; lia|left; lia].
  - split; [lia|]. split; [lia|]. split; [left; lia|]. right. apply K3. lia.
  - split; [lia|]. split; [lia|]. split; [left; lia|]. left; lia.
Qed.

Definition curve (levels values : list R) (x : R) : R := segment levels values (cell_index levels x - 1) x.
Lemma interp_curve levels values x : quantile_curve levels values -> interp1d levels values x = Some (curve levels values x).
Proof.
  intros HQ. unfold interp1d. rewrite sort_points_id by exact HQ. destruct HQ as (Hs & E & Hl).
  rewrite combine_length, E, Nat.min_id. destruct (Nat.ltb_spec (length levels) 2); [lia|].
  rewrite combine_fst by exact E. f_equal. unfold curve.
  destruct (cell_bounds levels x Hs Hl) as (B1 & B2 & _). cbv zeta in B1, B2. set (i := (cell_index levels x - 1)%nat) in *. rewrite B2.
  unfold line, segment. rewrite !combine_nth by (symmetry; exact E). cbn [fst snd].
  pose proof (lt_sorted_nth levels Hs i (S i) ltac:(lia)). field. lra.
Qed.
Lemma segment_left levels values i : segment levels values i (nth i levels 0) = nth i values 0.
Proof. unfold segment. rewrite Rminus_diag_eq by reflexivity. unfold Rdiv. lra. Qed.
Lemma segment_right levels values i : StronglySorted Rlt levels -> (S i < length levels)%nat -> segment levels values i (nth (S i) levels 0) = nth (S i) values 0.
Proof. intros Hs Hi. unfold segment. pose proof (lt_sorted_nth levels Hs i (S i) ltac:(lia)). field. lra. Qed.

Lemma curve_cell levels values i x : quantile_curve levels values -> (S i < length levels)%nat ->
  (i = 0%nat \/ nth i levels 0 <= x) -> (S (S i) = length levels \/ x <= nth (S i) levels 0) ->
  curve levels values x = segment levels values i x.
Proof.
  intros (Hs & E & Hl) Hi H1 H2. unfold curve. destruct (cell_bounds levels x Hs Hl) as (B1 & B2 & B3 & B4). cbv zeta in *.
  set (c := (cell_index levels x - 1)%nat) in *.
  destruct (lt_eq_lt_dec c i) as [[Hlt| ->]|Hgt]; [|reflexivity|].
  - destruct B4 as [B4|B4]; [lia|]. destruct H1 as [H1|H1]; [lia|].
    assert (Hc : S c = i).
    { destruct (Nat.eq_dec (S c) i); [auto|]. pose proof (lt_sorted_nth levels Hs (S c) i ltac:(lia)). lra. }
    assert (Hx : x = nth i levels 0) by (rewrite Hc in B4; lra). subst x. rewrite segment_left, <- Hc.
    rewrite segment_right by (auto; lia). reflexivity.
  - destruct B3 as [B3|B3]; [lia|]. destruct H2 as [H2|H2]; [lia|]. exfalso.
    destruct (Nat.eq_dec (S i) c) as [Ec|]; [rewrite Ec in H2; lra|]. pose proof (lt_sorted_nth levels Hs (S i) c ltac:(lia)). lra.
Qed.

Lemma interp_correct levels values : quantile_curve levels values ->
  exists Q, (forall x, interp1d levels values x = Some (Q x)) /\ piecewise_linear levels values Q.
Proof.
  intros HQ. exists (curve levels values). split; [intros; apply interp_curve, HQ|]. pose proof HQ as (Hs & E & Hl).
  split; [|split; [|split]].
  - intros i Hi. destruct (Nat.eq_dec (S i) (length levels)) as [El|El].
    + destruct i as [|i]; [lia|]. rewrite (curve_cell levels values i); [apply segment_right; auto|exact HQ|lia| |left; lia].
      right. apply Rlt_le, lt_sorted_nth; auto; lia.
    + rewrite (curve_cell levels values i); [apply segment_left|exact HQ|lia|right; lra|].
      right. apply Rlt_le, lt_sorted_nth; auto; lia.
  - intros i x Hi Hx. apply curve_cell; auto; right; lra.
  - intros x Hx. apply curve_cell; auto. right. pose proof (lt_sorted_nth levels Hs 0 1 ltac:(lia)). lra.
  - intros x Hx. apply curve_cell; auto; [lia| |left; lia]. right.
    pose proof (lt_sorted_nth levels Hs (length levels - 2) (length levels - 1) ltac:(lia)). lra.
Qed.

Lemma segment_mono levels values i x y : StronglySorted Rlt levels -> (S i < length levels)%nat -> nth i values 0 <= nth (S i) values 0 ->
  x <= y -> segment levels values i x <= segment levels values i y.
Proof.
  intros Hs Hi Hv Hxy. unfold segment. pose proof (lt_sorted_nth levels Hs i (S i) ltac:(lia)).
  apply Rplus_le_compat_l. apply Rmult_le_compat_r; [lra|]. apply Rmult_le_compat_r; [apply Rlt_le, Rinv_0_lt_compat; lra|lra].
Qed.
Lemma cell_index_mono xs x y : x <= y -> (cell_index xs x <= cell_index xs y)%nat.
Proof.
  intros H. unfold cell_index. assert (count (fun a => Rltb a x) xs <= count (fun a => Rltb a y) xs)%nat; [|lia].
  unfold count. induction xs as [|a xs IH]; [cbn; lia|]. cbn. unfold Rltb in *. destruct (Rlt_dec a x), (Rlt_dec a y); cbn; try lia. lra.
Qed.
Lemma curve_mono levels values x y : quantile_curve levels values -> non_crossing values -> x <= y -> curve levels values x <= curve levels values y.
Proof.
  intros (Hs & E & Hl) Hv Hxy. unfold curve. pose proof (cell_index_mono levels x y Hxy) as Hc.
  destruct (cell_bounds levels x Hs Hl) as (B1 & B2 & B3 & B4). destruct (cell_bounds levels y Hs Hl) as (C1 & C2 & C3 & C4). cbv zeta in *.
  set (i := (cell_index levels x - 1)%nat) in *. set (j := (cell_index levels y - 1)%nat) in *.
  assert (Hvn : forall a b, (a <= b < length levels)%nat -> nth a values 0 <= nth b values 0) by (intros; apply sorted_nth_le; auto; lia).
  destruct (Nat.eq_dec i j) as [->|Hne].
  - apply segment_mono; auto; apply Hvn; lia.
  - assert (i < j)%nat by lia. destruct B4 as [B4|B4]; [lia|]. destruct C3 as [C3|C3]; [lia|].
    eapply Rle_trans; [apply (segment_mono levels values i x (nth (S i) levels 0)); auto; apply Hvn; lia|].
    rewrite segment_right by auto. eapply Rle_trans; [apply (Hvn (S i) j); lia|].
    rewrite <- (segment_left levels values j). apply segment_mono; [assumption|lia|apply Hvn; lia|lra].
Qed.

Lemma interp_monotone levels values x y a b : quantile_curve levels values -> non_crossing values -> x <= y ->
  interp1d levels values x = Some a -> interp1d levels values y = Some b -> a <= b.
Proof. intros HQ Hv Hxy. rewrite !interp_curve by exact HQ. intros Ea Eb. injection Ea as <-. injection Eb as <-. apply curve_mono; auto. Qed.
Lemma interp_hull levels values x a : quantile_curve levels values -> non_crossing values ->
  nth 0 levels 0 <= x <= nth (length levels - 1) levels 0 -> interp1d levels values x = Some a ->
  nth 0 values 0 <= a <= nth (length levels - 1) values 0.
Proof.
  intros HQ Hv [H0 H1]. rewrite interp_curve by exact HQ. intros Ea. injection Ea as <-.
  pose proof HQ as (Hs & E & Hl). destruct (interp_correct levels values HQ) as (Q & EQ & P & _).
  assert (EC : forall z, Q z = curve levels values z).
  { intros z. pose proof (EQ z) as Ez. rewrite interp_curve in Ez by exact HQ. congruence. }
  split.
  - rewrite <- (P 0%nat) by lia. rewrite EC. apply curve_mono; auto.
  - rewrite <- (P (length levels - 1)%nat) by lia. rewrite EC. apply curve_mono; auto.
Qed.
(** Samples between the extreme levels and the bounds 0, 1 of the copula leave the hull. *)
Lemma interp_leaves_hull :
  exists levels values u a, quantile_curve levels values /\ non_crossing values /\ Forall (fun l => 0 < l < 1) levels /\
    0 < u < 1 /\ Forall (fun v => 0 <= v) values /\ interp1d levels values u = Some a /\ a < 0.
Proof.
  exists [1 / 4; 3 / 4], [0; 1], (1 / 8), (- 1 / 4).
  assert (HQ : quantile_curve [1 / 4; 3 / 4] [0; 1]) by (repeat split; repeat constructor; lra).
  split; [exact HQ|]. split; [repeat constructor; lra|]. split; [repeat constructor; lra|]. split; [lra|]. split; [repeat constructor; lra|].
  split; [|lra]. destruct (interp_correct _ _ HQ) as (Q & EQ & _ & _ & P & _). rewrite EQ, P by (cbn; lra). unfold segment. cbn [nth]. f_equal. lra.
Qed.

Lemma interp_scens_correct levels quantiles samples :
  Forall (quantile_curve levels) quantiles -> length samples = length quantiles ->
  exists scens, interp_scens levels quantiles samples = Some scens /\ length scens = length samples /\
    forall i, (i < length samples)%nat -> length (nth i scens []) = length (nth i samples []) /\
      forall s, (s < length (nth i samples []))%nat ->
        interp1d levels (nth i quantiles []) (nth s (nth i samples []) 0) = Some (nth s (nth i scens []) 0).
Proof.
  intros HQ Hl. exists (map2 (fun q u => map (curve levels q) u) quantiles samples).
  split.
  { unfold interp_scens, map2. rewrite (all_some_map _ (fun p => map (curve levels (fst p)) (snd p))); [reflexivity|].
    intros [q u] Hp. cbn. apply all_some_map. intros a _. apply interp_curve. rewrite Forall_forall in HQ. apply HQ. eapply in_combine_l, Hp. }
  split; [rewrite map2_length; congruence|]. intros i Hi.
  assert (En : nth i (map2 (fun q u => map (curve levels q) u) quantiles samples) [] = map (curve levels (nth i quantiles [])) (nth i samples [])).
  { apply (map2_nth (fun q u => map (curve levels q) u) quantiles samples i [] [] []); lia. }
  rewrite En, map_length. split; [reflexivity|]. intros s Hs. rewrite interp_curve.
  - f_equal. symmetry. rewrite (nth_indep _ 0 (curve levels (nth i quantiles []) 0)) by (rewrite map_length; exact Hs). apply map_nth.
  - rewrite Forall_forall in HQ. apply HQ, nth_In. lia.
Qed.
