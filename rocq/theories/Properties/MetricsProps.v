(** Properties of the scores: C30-C32. *)
From Coq Require Import List ZArith Bool Arith Reals Lra Lia Sorted Permutation.
From Verif Require Import Model.Subsample Model.Stats Model.Metrics Spec.StatsSpec Spec.MetricsSpec
  Proof.MetricsProof Proof.MetricsProof2 Proof.MetricsProof3 Proof.MetricsProof4.
Import ListNotations.
Local Open Scope R_scope.

(** C32 *)
Theorem C32_rmse :
  forall ax x t labels,
  grouped ax labels x ->
  exists tbl, rmse x t (Some labels) = Some tbl /\ listed labels (map fst tbl) /\
    forall g k, In g labels -> (k < other_size ax x)%nat ->
      let l := pairs x t (group_cells ax labels g k) in
      root_mean_square l (entry tbl g k) /\
      (forall v, entry tbl g k = Some v -> 0 <= v /\ (v = 0 <-> perfect l)).
Proof. exact (@rmse_correct). Qed.
Print Assumptions C32_rmse.
Theorem C32_mape :
  forall ax x t labels,
  grouped ax labels x ->
  exists tbl, mape x t (Some labels) = Some tbl /\ listed labels (map fst tbl) /\
    forall g k, In g labels -> (k < other_size ax x)%nat ->
      let l := pairs x t (group_cells ax labels g k) in
      mean_of percentage_error l (entry tbl g k) /\
      (forall v, entry tbl g k = Some v -> 0 <= v /\ (v = 0 <-> perfect l)).
Proof. exact (@mape_correct). Qed.
Print Assumptions C32_mape.
Theorem C32_nmae :
  forall ax x t labels inter,
  same_size x t -> grouped ax labels x -> row_averages t <> [] ->
  exists tbl off, nmae x t (Some labels) inter = Some tbl /\ listed labels (map fst tbl) /\
    nmae_offset_spec t inter off /\ 0 < off /\
    forall g k, In g labels -> (k < other_size ax x)%nat ->
      let cells := group_cells ax labels g k in
      mean_of relative_error (weighted_pairs (fun i => average (row_observations t i) + off) x t cells) (entry tbl g k) /\
      (forall v, entry tbl g k = Some v -> 0 <= v /\ (v = 0 <-> perfect (pairs x t cells))).
Proof. exact (@nmae_correct). Qed.
Print Assumptions C32_nmae.
Theorem C32_rmse_overall :
  forall x t, (0 < f_rows x)%nat -> one_row x (rmse x t None) (fun k v => root_mean_square (pairs x t (column_cells x k)) v).
Proof. exact (@rmse_overall). Qed.
Print Assumptions C32_rmse_overall.
Theorem C32_mape_overall :
  forall x t, (0 < f_rows x)%nat -> one_row x (mape x t None) (fun k v => mean_of percentage_error (pairs x t (column_cells x k)) v).
Proof. exact (@mape_overall). Qed.
Print Assumptions C32_mape_overall.
Theorem C32_nmae_overall :
  forall x t inter, (0 < f_rows x)%nat -> same_size x t -> row_averages t <> [] ->
  exists off, nmae_offset_spec t inter off /\
    one_row x (nmae x t None inter) (fun k v => mean_of relative_error (weighted_pairs (fun i => average (row_observations t i) + off) x t (column_cells x k)) v).
Proof. exact (@nmae_overall). Qed.
Print Assumptions C32_nmae_overall.
Theorem C32_scorer_partial :
  forall x t w,
  f_cols x <> f_rows x -> (0 < f_cols x)%nat -> (0 < f_rows x)%nat ->
  (forall i, (i < f_rows x)%nat -> root_mean_square (pairs x t (map (fun j => (i, j)) (seq 0 (f_cols x)))) (Some (w i))) ->
  mean_of w (seq 0 (f_rows x)) (scorer_value (rmse x t) (f_cols x)).
Proof. exact (@scorer_horizon). Qed.
Print Assumptions C32_scorer_partial.
Theorem C32_scorer_square_refuted :
  exists x t w, f_rows x = f_cols x /\
    (forall i, (i < f_rows x)%nat -> root_mean_square (pairs x t (map (fun j => (i, j)) (seq 0 (f_cols x)))) (Some (w i))) /\
    ~ mean_of w (seq 0 (f_rows x)) (scorer_value (rmse x t) (f_cols x)).
Proof. exact (@scorer_square). Qed.
Print Assumptions C32_scorer_square_refuted.
Theorem C32_axis_refuted :
  exists x t labels g k tbl, length labels = f_cols x /\ In g labels /\ (k < f_rows x)%nat /\
    rmse x t (Some labels) = Some tbl /\
    ~ root_mean_square (pairs x t (group_cells over_columns labels g k)) (entry tbl g k).
Proof. exact (@axis_ambiguous). Qed.
Print Assumptions C32_axis_refuted.
Example C32_case :
  let x := Frame 2 3 (fun i j => if (i =? j)%nat then None else Some (INR (i + j))) in
  let t := Frame 2 3 (fun i j => Some 1) in
  same_size x t /\ grouped over_columns [0; 1; 0]%Z x /\ grouped over_rows [4; 4]%Z x /\ row_averages t <> [] /\
  pairs x t (group_cells over_columns [0; 1; 0]%Z 0%Z 1) = [(INR 1, 1); (INR 3, 1)].
Proof.
  cbn -[INR]. split; [split; reflexivity|]. split; [split; [reflexivity|cbn; lia]|]. split; [split; [reflexivity|discriminate]|].
  split; [discriminate|]. reflexivity.
Qed.

(** C30 *)
Theorem C30_quantile_scores :
  forall ax q t alphas labels n forecast,
  laid_out q t n forecast -> grouped ax labels t -> (length alphas <= n)%nat ->
  Forall (fun a => 0 <= a <= 1) alphas ->
  exists l, quantile_scores q t alphas (Some labels) = Some l /\ map fst l = alphas /\
    forall k alpha s r, nth_error l k = Some (alpha, (s, r)) ->
      listed labels (map fst s) /\ listed labels (map fst r) /\
      forall g c, In g labels -> (c < other_size ax t)%nat ->
        let seen := level_pairs (forecast k) t (group_cells ax labels g c) in
        mean_of (pinball alpha) seen (entry s g c) /\
        (forall v, entry s g c = Some v -> 0 <= v /\ (0 < alpha < 1 -> v = 0 <-> perfect seen)) /\
        exists v, entry r g c = Some v /\
          v = INR (length (exceeded seen)) / INR (length (group_cells ax labels g c)).
Proof. exact (@scores_correct). Qed.
Print Assumptions C30_quantile_scores.
Theorem C30_crps :
  forall ax q t alphas labels n forecast,
  laid_out q t n forecast -> grouped ax labels t -> (length alphas <= n)%nat -> alphas <> [] ->
  Forall (fun a => 0 <= a <= 1) alphas ->
  exists tbl, crps q t alphas (Some labels) = Some tbl /\ listed labels (map fst tbl) /\
    forall g c, In g labels -> (c < other_size ax t)%nat ->
      let seen k := level_pairs (forecast k) t (group_cells ax labels g c) in
      (seen 0%nat = [] -> entry tbl g c = None) /\
      (seen 0%nat <> [] -> exists v, entry tbl g c = Some v /\
         mean_of (fun k => average (map (pinball (nth k alphas 0)) (seen k))) (seq 0 (length alphas)) (Some v) /\
         0 <= v /\
         (Forall (fun a => 0 < a < 1) alphas -> v = 0 <-> forall k, (k < length alphas)%nat -> perfect (seen k))).
Proof. exact (@crps_correct). Qed.
Print Assumptions C30_crps.
Theorem C30_constant_optimal :
  forall ax q q' t alphas labels n f f' k alpha s r s' r' l l' g c v v' b b',
  laid_out q t n f -> laid_out q' t n f' -> grouped ax labels t -> (length alphas <= n)%nat ->
  Forall (fun a => 0 <= a <= 1) alphas ->
  quantile_scores q t alphas (Some labels) = Some l -> quantile_scores q' t alphas (Some labels) = Some l' ->
  nth_error l k = Some (alpha, (s, r)) -> nth_error l' k = Some (alpha, (s', r')) ->
  In g labels -> (c < other_size ax t)%nat ->
  let cells := group_cells ax labels g c in
  (forall cl, In cl cells -> f k (fst cl) (snd cl) = b) -> (forall cl, In cl cells -> f' k (fst cl) (snd cl) = b') ->
  empirical_quantile (map snd (level_pairs (f k) t cells)) alpha b ->
  entry s g c = Some v -> entry s' g c = Some v' -> v <= v'.
Proof. exact (@constant_optimal). Qed.
Print Assumptions C30_constant_optimal.
Theorem C30_layout_refuted :
  exists q t alphas labels l alpha s r g c v,
    a_dim1 q = length alphas /\ a_dim2 q = f_cols t /\
    (forall i k j, f_at t i j = Some (a_at q i k j)) /\
    quantile_scores q t alphas (Some labels) = Some l /\ nth_error l 0 = Some (alpha, (s, r)) /\
    In g labels /\ (c < f_cols t)%nat /\ entry s g c = Some v /\ v <> 0.
Proof. exact (@layout_ambiguous). Qed.
Print Assumptions C30_layout_refuted.
Example C30_case :
  let q := Array3 2 3 2 (fun i j k => INR k) in
  let t := Frame 2 3 (fun i j => Some (INR j)) in
  laid_out q t 2 (fun k i j => INR k) /\ grouped over_columns [0; 1; 0]%Z t /\
  empirical_quantile [0; 1; 2] (1/2) 1.
Proof.
  cbn -[INR]. split; [left; auto|]. split; [split; [reflexivity|cbn; lia]|].
  unfold empirical_quantile, below, at_most. cbn [filter length]. repeat (destruct (Rlt_dec _ _); try lra). repeat (destruct (Rle_dec _ _); try lra).
  cbn. lra.
Qed.

(** C31 *)
Theorem C31_reliability_partial :
  forall ax q t alphas labels n forecast get_score,
  laid_out q t n forecast -> grouped ax labels t -> (length alphas <= n)%nat ->
  exists l, reliability q t alphas (Some labels) get_score = Some l /\ map fst l = alphas /\
    forall k alpha r, nth_error l k = Some (alpha, r) -> listed labels (map fst r) /\
      forall g c, In g labels -> (c < other_size ax t)%nat -> all_observed t (group_cells ax labels g c) ->
        exists v, fraction_below (level_pairs (forecast k) t (group_cells ax labels g c)) v /\ 0 <= v <= 1 /\
          entry r g c = Some (if get_score then v - alpha else v).
Proof. exact (@reliability_correct). Qed.
Print Assumptions C31_reliability_partial.
Theorem C31_monotone :
  forall ax q t alphas labels n forecast l k k' alpha alpha' r r' g c v v',
  laid_out q t n forecast -> grouped ax labels t -> (length alphas <= n)%nat ->
  reliability q t alphas (Some labels) false = Some l ->
  nth_error l k = Some (alpha, r) -> nth_error l k' = Some (alpha', r') ->
  In g labels -> (c < other_size ax t)%nat ->
  (forall i j, forecast k i j <= forecast k' i j) ->
  entry r g c = Some v -> entry r' g c = Some v' -> v <= v'.
Proof. exact (@reliability_monotone). Qed.
Print Assumptions C31_monotone.
Theorem C31_missing_refuted :
  exists q t alphas labels forecast l alpha r g c v, laid_out q t 1 forecast /\ grouped over_rows labels t /\
    reliability q t alphas (Some labels) false = Some l /\ nth_error l 0 = Some (alpha, r) /\
    In g labels /\ (c < f_cols t)%nat /\ entry r g c = Some v /\
    ~ fraction_below (level_pairs (forecast 0%nat) t (group_cells over_rows labels g c)) v.
Proof. exact (@reliability_missing). Qed.
Print Assumptions C31_missing_refuted.
Example C31_case :
  let t := Frame 2 3 (fun i j => Some (INR j)) in
  all_observed t (group_cells over_rows [7; 7]%Z 7%Z 2) /\ group_cells over_rows [7; 7]%Z 7%Z 2 = [(0, 2); (1, 2)]%nat /\
  fraction_below (level_pairs (fun i j => INR i + 3/2) t (group_cells over_rows [7; 7]%Z 7%Z 2)) (1/2).
Proof.
  cbn -[INR]. split; [repeat constructor; discriminate|]. split; [reflexivity|]. split; [discriminate|]. unfold exceeded. cbn -[INR]. cbn [INR].
  destruct (Rlt_dec _ _) as [H|_]; [exfalso; lra|]. destruct (Rlt_dec _ _) as [_|H]; [|exfalso; lra]. cbn. lra.
Qed.
