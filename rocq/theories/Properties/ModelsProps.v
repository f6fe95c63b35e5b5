(** Benchmarks, hybrid models, forests and boosting: C47, C48, C49, C50, C51, C93, C94, C95, C96. *)
From Coq Require Import Reals List Arith Bool Lia Lra.
From Verif Require Import Model.HoltWinters Model.Quantiles Model.Benchmarks Model.Hybrid Model.Boost Spec.QuantilesSpec Spec.BenchmarksSpec Spec.HybridSpec
  Proof.BenchmarksProof Proof.HybridProof Proof.BoostProof.
Import ListNotations.
Local Open Scope R_scope.

(** C47 *)
Theorem C47_persistent_repeats :
  forall (V : Type) n_sa (x : list V) d, length (persistent_predict n_sa x) = length x /\
  forall i, (i < length x)%nat -> length (nth i (persistent_predict n_sa x) []) = n_sa /\
  forall h, (h < n_sa)%nat -> nth h (nth i (persistent_predict n_sa x) []) d = nth i x d.
Proof. exact (@persistent_rows). Qed.
Print Assumptions C47_persistent_repeats.
Theorem C47_seasonal_values_partial :
  forall (V : Type) n_sa (state x : list V) rows d, (1 <= n_sa)%nat -> seasonal_predict n_sa state x = Some rows ->
  length rows = length x /\
  forall i h, (i < length x)%nat -> (h < n_sa)%nat ->
    (i + h < length state + (i + 1))%nat /\ nth h (nth i rows []) d = nth (i + h) (state ++ firstn (i + 1) x) d.
Proof. exact (@seasonal_rows). Qed.
Print Assumptions C47_seasonal_values_partial.
Theorem C47_seasonal_causal :
  forall (V : Type) n_sa (state x x' : list V) rows rows' i d, (1 <= n_sa)%nat ->
  seasonal_predict n_sa state x = Some rows -> seasonal_predict n_sa state x' = Some rows' ->
  (i < length x)%nat -> (i < length x')%nat -> firstn (i + 1) x = firstn (i + 1) x' ->
  forall h, (h < n_sa)%nat -> nth h (nth i rows []) d = nth h (nth i rows' []) d.
Proof. exact (@seasonal_causal). Qed.
Print Assumptions C47_seasonal_causal.
Theorem C47_seasonal_long_horizon_refuted :
  forall (V : Type) n_sa (state x : list V), (1 <= n_sa)%nat ->
  (exists rows, seasonal_predict n_sa state x = Some rows) <-> (x = [] \/ (n_sa <= length state + 1)%nat).
Proof. exact (@seasonal_works). Qed.
Print Assumptions C47_seasonal_long_horizon_refuted.
Theorem C47_seasonal_one_step_late_refuted :
  forall (V : Type) n_sa s n (Y : nat -> V) rows i h d, (1 <= n_sa)%nat -> (forall t, Y (t + s)%nat = Y t) ->
  seasonal_predict n_sa (map Y (seq 0 s)) (map Y (seq s n)) = Some rows -> (i < n)%nat -> (h < n_sa)%nat ->
  Y (s + i + h + 1)%nat <> Y (s + i + h)%nat ->
  nth h (nth i rows []) d <> Y (s + i + (h + 1))%nat.
Proof. exact (@seasonal_misses). Qed.
Print Assumptions C47_seasonal_one_step_late_refuted.
Example C47_case : seasonal_predict 2 [1; 2; 3]%nat [4; 5]%nat = Some [[1; 2]; [2; 3]]%nat /\ seasonal_predict 2 [0; 1; 2]%nat [0; 1]%nat = Some [[0; 1]; [1; 2]]%nat
  /\ seasonal_predict 3 [1]%nat [4; 5]%nat = None.
Proof. repeat split; reflexivity. Qed.

(** C48 *)
Theorem C48_probabilities :
  forall support obs k, supports support obs -> values_at obs k <> [] ->
  exists ps, numbers (map (probability_of support obs k) support) ps /\ Forall (fun p => 0 <= p <= 1) ps /\ 1 - / 10 ^ 12 <= sum_of ps <= 1.
Proof. exact (@probabilities_near_one). Qed.
Print Assumptions C48_probabilities.
Theorem C48_probability_sum :
  forall support obs k, supports support obs -> seen obs k = true ->
  exists ps, numbers (map (probability_of support obs k) support) ps /\ Forall (fun p => 0 <= p <= 1) ps /\
    sum_of ps = INR (length (values_at obs k)) / (INR (length (values_at obs k)) + regularisation).
Proof. exact (@probabilities_sum). Qed.
Print Assumptions C48_probability_sum.
Theorem C48_expected_is_mean :
  forall support obs k, supports support obs -> values_at obs k <> [] ->
  expected support obs k = sum_of (values_at obs k) / (INR (length (values_at obs k)) + / 10 ^ 12).
Proof. exact (@expected_mean). Qed.
Print Assumptions C48_expected_is_mean.
Theorem C48_missing_times_zero_refuted :
  forall support obs k, supports support obs -> seen obs k = true -> values_at obs k = [] ->
  map (probability_of support obs k) support = map (fun _ => Some 0) support.
Proof. exact (@all_missing_zero). Qed.
Print Assumptions C48_missing_times_zero_refuted.
Example C48_case : supports [2; 5] [(0%nat, Some 2); (1%nat, Some 5); (1%nat, Some 2); (2%nat, None)] /\
  values_at [(0%nat, Some 2); (1%nat, Some 5); (1%nat, Some 2); (2%nat, None)] 1 = [5; 2] /\
  seen [(0%nat, Some 2); (1%nat, Some 5); (1%nat, Some 2); (2%nat, None)] 2 = true /\
  values_at [(0%nat, Some 2); (1%nat, Some 5); (1%nat, Some 2); (2%nat, None)] 2 = [].
Proof.
  repeat split; try reflexivity.
  - repeat constructor; cbn; intros []; lra.
  - intros k v [[= _ <-]|[[= _ <-]|[[= _ <-]|[[=]|[]]]]]; cbn; auto.
Qed.

(** C93 *)
Theorem C93_unseen_time_zero_refuted :
  forall support obs k, seen obs k = false -> map (probability_of support obs k) support = map (fun _ => None) support /\ expected support obs k = 0.
Proof. exact (@unseen_time). Qed.
Print Assumptions C93_unseen_time_zero_refuted.
Example C93_case : seen [(0%nat, Some 7); (1%nat, Some 9)] 2 = false.
Proof. reflexivity. Qed.

Local Open Scope nat_scope.
(** C49 *)
Theorem C49_parallel_refit_partial :
  forall (D M G X V : Type) (L : learners D M G X V) n ds d o, fit_all (hybrid_fit L) (new_hybrid n true) (ds ++ [d]) = Some o ->
  forall x, hybrid_predict L o x = Some (steps_from L n d d x).
Proof. exact (@parallel_refit). Qed.
Print Assumptions C49_parallel_refit_partial.
Theorem C49_serial_refit_refuted :
  forall (D M G X V : Type) (L : learners D M G X V) n d0 ds d o, fit_all (hybrid_fit L) (new_hybrid n false) (d0 :: ds ++ [d]) = Some o ->
  forall x, hybrid_predict L o x = Some (steps_from L n d0 d x).
Proof. exact (@serial_refit). Qed.
Print Assumptions C49_serial_refit_refuted.
Theorem C49_lgb_refit_refuted :
  forall (D M G X V : Type) (L : learners D M G X V) ms d d', 0 < horizon L d -> lgb_fit L [] d = Some ms -> lgb_fit L ms d' = None.
Proof. exact (@lgb_refit). Qed.
Print Assumptions C49_lgb_refit_refuted.
Local Open Scope R_scope.
Theorem C49_brutal_refit_refuted :
  forall lr n_bins n_features best x draws y x' draws' y' row,
  let first := brutal_refit lr n_bins n_features best [] x draws y in
  brutal_predict lr (length draws) (brutal_refit lr n_bins n_features best first x' draws' y') row = brutal_predict lr (length draws) first row.
Proof. exact (@brutal_refit_stale). Qed.
Print Assumptions C49_brutal_refit_refuted.
Local Open Scope nat_scope.
(** Two data sets of two steps; a model predicts the data set's number. *)
Example C49_case : let L := Learners nat nat nat unit nat (fun _ => 2) (fun d _ => d) (fun d _ => d) (fun m _ _ => m) (fun g _ _ => g) in
  (exists o, fit_all (hybrid_fit L) (new_hybrid 1 false) ([7] ++ [8]) = Some o /\ hybrid_predict L o tt = Some [7; 8]) /\
  (exists o, fit_all (hybrid_fit L) (new_hybrid 1 true) ([7] ++ [8]) = Some o /\ hybrid_predict L o tt = Some [8; 8]) /\
  lgb_fit L [] 7 = Some [7; 7].
Proof. cbn zeta. repeat split; try (eexists; split; reflexivity). Qed.

(** C50 *)
Theorem C50_steps_covered :
  forall (D M G X V : Type) (L : learners D M G X V) n par d, n <= horizon L d ->
  exists o, hybrid_fit L (new_hybrid n par) d = Some o /\ forall x, hybrid_predict L o x = Some (steps_from L n d d x).
Proof. exact (@hybrid_first_fit). Qed.
Print Assumptions C50_steps_covered.
Theorem C50_single_beyond_horizon :
  forall (D M G X V : Type) (L : learners D M G X V) n par d, horizon L d < n -> hybrid_fit L (new_hybrid n par) d = None.
Proof. exact (@hybrid_beyond). Qed.
Print Assumptions C50_single_beyond_horizon.
Theorem C50_multi_step_training_rows :
  forall (X Y : Type) n k idx (x : nat -> X) (y : nat -> nat -> Y) z j v, In ((z, j), v) (multi_rows n k idx x y) <->
  j < k /\ exists r, In r (idx j) /\ z = x r /\ v = y r (n + j).
Proof. exact (@multi_rows_aligned). Qed.
Print Assumptions C50_multi_step_training_rows.
Theorem C50_lgb_steps :
  forall (D M G X V : Type) (L : learners D M G X V) d, exists ms, lgb_fit L [] d = Some ms /\
  forall x, lgb_predict L ms x = map (fun k => one_at L (fit_one L d k) k x) (seq 0 (horizon L d)).
Proof. exact (@lgb_first). Qed.
Print Assumptions C50_lgb_steps.
Example C50_case : multi_rows 2 2 (fun j => [j; 5]) (fun r => r) (fun r c => 10 * r + c) = [((0, 0), 2); ((5, 0), 52); ((1, 1), 13); ((5, 1), 53)].
Proof. reflexivity. Qed.

(** C94 *)
Theorem C94_energy_models_partial :
  forall (D M G X V : Type) (L : learners D M G X V) energy n d d' o', energy_fit L energy (new_hybrid n false) d d' = Some o' ->
  exists ms rest, models o' = ms ++ rest /\ length ms = n /\ forall i m, nth_error ms i = Some m -> m = energy d (firstn i ms) i.
Proof. exact (@energy_serial). Qed.
Print Assumptions C94_energy_models_partial.
Theorem C94_energy_models_replaced_refuted :
  forall (D M G X V : Type) (L : learners D M G X V) energy o d d' o', in_parallel o = true -> energy_fit L energy o d d' = Some o' ->
  models o' = map (fit_one L d') (seq 0 (n_single o)).
Proof. exact (@energy_parallel). Qed.
Print Assumptions C94_energy_models_replaced_refuted.
Example C94_case : let L := Learners nat nat nat unit nat (fun _ => 2) (fun d _ => d) (fun d _ => d) (fun m _ _ => m) (fun g _ _ => g) in
  let e := fun d (before : list nat) (i : nat) => 100 * d + length before in
  option_map models (energy_fit L e (new_hybrid 2 false) 7 8) = Some [700; 701; 8; 8] /\ option_map models (energy_fit L e (new_hybrid 2 true) 7 8) = Some [8; 8].
Proof. split; reflexivity. Qed.

(** C95 *)
Theorem C95_mean_shape_partial :
  forall rows n k, 0 < rows -> 0 < n + k ->
  qrf_shape rows n k None = if (1 <? rows) && (n + k =? 1) then None else Some [rows; n + k].
Proof. exact (@qrf_mean_shape). Qed.
Print Assumptions C95_mean_shape_partial.
Theorem C95_quantile_shape_refuted :
  forall rows n k q, 2 <= q -> 0 < n + k ->
  qrf_shape rows n k (Some q) = if (0 <? n) && (k =? 1) then None else Some [rows; (n + k) * q].
Proof. exact (@qrf_quantile_shape). Qed.
Print Assumptions C95_quantile_shape_refuted.
Example C95_case : qrf_shape 3 2 4 None = Some [3; 6] /\ qrf_shape 3 2 1 (Some 5) = None /\ qrf_shape 3 1 0 None = None.
Proof. repeat split; reflexivity. Qed.

(** C96 *)
Theorem C96_quantiles_scrambled_refuted :
  forall (T L A : Type),
  forall (eqd : forall a b : L, {a = b} + {a <> b}) (targets : list T) (levels : list L) (q : list (list (list A))),
  targets <> [] -> levels <> [] -> NoDup levels -> q <> [] -> Forall (shaped (length targets) (length levels)) q ->
  exists out, qrf_to_numpy eqd (quantiles_to_df targets levels q) = Some out /\ length out = length q /\
  forall i j k d, i < length q -> j < length targets -> k < length levels ->
    nth k (nth j (nth i out []) []) d =
      nth ((k * length targets + j) mod length levels) (nth ((k * length targets + j) / length levels) (nth i q []) []) d.
Proof. exact (@qrf_scrambled). Qed.
Print Assumptions C96_quantiles_scrambled_refuted.
Theorem C96_quantiles_wrong_refuted : exists (targets levels : list nat) (q out : list (list (list nat))),
  targets <> [] /\ NoDup levels /\ Forall (shaped (length targets) (length levels)) q /\
  qrf_to_numpy Nat.eq_dec (quantiles_to_df targets levels q) = Some out /\ length (nth 0 out []) = length targets /\ out <> q.
Proof. exact (@qrf_wrong). Qed.
Print Assumptions C96_quantiles_wrong_refuted.
Theorem C96_one_target_partial :
  forall (T L A : Type),
  forall (eqd : forall a b : L, {a = b} + {a <> b}) (target : T) (levels : list L) (q : list (list (list A))),
  levels <> [] -> NoDup levels -> q <> [] -> Forall (shaped 1 (length levels)) q ->
  exists out, qrf_to_numpy eqd (quantiles_to_df [target] levels q) = Some out /\ length out = length q /\
  forall i k d, i < length q -> k < length levels -> nth k (nth 0 (nth i out []) []) d = nth k (nth 0 (nth i q []) []) d.
Proof. exact (@qrf_one_target). Qed.
Print Assumptions C96_one_target_partial.
Example C96_one_target_case : Forall (shaped 1 2) [[[7%nat; 8%nat]]; [[9%nat; 9%nat]]].
Proof. repeat constructor. Qed.


Local Open Scope R_scope.
(** C51 *)
Theorem C51_boosting_decomposition :
  forall (M X : Type) (fit : M -> X -> list num -> M) (pred : M -> X -> list num) ms x y,
  (forall m, length (pred m x) = length y) ->
  snd (boost_fit fit pred ms x y) = minus_all y (boost_predict pred (fst (boost_fit fit pred ms x y)) x (length y)).
Proof. exact (@boosting_residuals). Qed.
Print Assumptions C51_boosting_decomposition.
Theorem C51_brutal_decomposition :
  forall lr n_bins n_features best x draws, forall err, length err = length x ->
  length (snd (brutal_fit lr n_bins n_features best x draws err)) = length x /\
  forall i, (i < length x)%nat -> nth i (snd (brutal_fit lr n_bins n_features best x draws err)) None =
    minus (nth i err None) (brutal_predict lr (length draws) (fst (brutal_fit lr n_bins n_features best x draws err)) (nth i x [])).
Proof. exact (@brutal_residuals). Qed.
Print Assumptions C51_brutal_decomposition.
Theorem C51_bins_valid :
  forall n_bins x err f v, (bin (inner_cuts (fit_feature n_bins x err f)) v < length (bin_means (fit_feature n_bins x err f)))%nat.
Proof. exact (@fit_feature_bins). Qed.
Print Assumptions C51_bins_valid.
Theorem C51_full_samples_numbers_partial :
  forall lr n_bins n_features best x draws y i,
  length y = length x -> (forall e, In e y -> e <> None) -> (0 < n_features)%nat -> (forall c, (best c < n_features)%nat) ->
  (forall idx, In idx draws -> (forall j, In j idx -> (j < length x)%nat) /\ forall j, (j < length x)%nat -> In j idx) -> (i < length x)%nat ->
  brutal_predict lr (length draws) (fst (brutal_fit lr n_bins n_features best x draws y)) (nth i x []) <> None.
Proof. exact (@brutal_numbers). Qed.
Print Assumptions C51_full_samples_numbers_partial.
Theorem C51_empty_bin_refuted :
  forall lr y,
  brutal_predict lr 1 (fst (brutal_fit lr 2 1 (fun _ => 0%nat) [[0]; [1]; [1/2]] [[0; 1]%nat] y)) [1/2] = None.
Proof. exact (@brutal_gap). Qed.
Print Assumptions C51_empty_bin_refuted.
Example C51_case : let pred := fun (m : num) (_ : unit) => [m; m] in
  boost_fit (fun _ _ err => nth 0 err None) pred [None; None] tt [Some 3; Some 5] = ([Some 3; Some (3 - 3)], [Some (3 - 3 - (3 - 3)); Some (5 - 3 - (3 - 3))]) /\
  forall m, length (pred m tt) = 2%nat.
Proof. split; reflexivity. Qed.
