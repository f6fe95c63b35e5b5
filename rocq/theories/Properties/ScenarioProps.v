(** Properties of scenario generation: C24, C28, C59, C73, C74. *)
From Coq Require Import List ZArith Bool Arith Reals Lra Lia Sorted Permutation.
From Verif Require Import Model.Subsample Model.Stats Model.Quantiles Model.Metrics Model.ScenGen
  Spec.ScenGenSpec Proof.ScenGenProof Proof.ScenGenProof2 Proof.ScenGenProof3.
Import ListNotations.
Local Open Scope R_scope.

(** C24 *)
Theorem C24_interpolation :
  forall levels values, quantile_curve levels values ->
  exists Q, (forall x, interp1d levels values x = Some (Q x)) /\ piecewise_linear levels values Q.
Proof. exact (@interp_correct). Qed.
Print Assumptions C24_interpolation.
Theorem C24_all_steps :
  forall levels quantiles samples,
  Forall (quantile_curve levels) quantiles -> length samples = length quantiles ->
  exists scens, interp_scens levels quantiles samples = Some scens /\ length scens = length samples /\
    forall i, (i < length samples)%nat -> length (nth i scens []) = length (nth i samples []) /\
      forall s, (s < length (nth i samples []))%nat ->
        interp1d levels (nth i quantiles []) (nth s (nth i samples []) 0) = Some (nth s (nth i scens []) 0).
Proof. exact (@interp_scens_correct). Qed.
Print Assumptions C24_all_steps.
Theorem C24_monotone :
  forall levels values x y a b, quantile_curve levels values -> non_crossing values -> x <= y ->
  interp1d levels values x = Some a -> interp1d levels values y = Some b -> a <= b.
Proof. exact (@interp_monotone). Qed.
Print Assumptions C24_monotone.
Theorem C24_within_range :
  forall levels values x a, quantile_curve levels values -> non_crossing values ->
  nth 0 levels 0 <= x <= nth (length levels - 1) levels 0 -> interp1d levels values x = Some a ->
  nth 0 values 0 <= a <= nth (length levels - 1) values 0.
Proof. exact (@interp_hull). Qed.
Print Assumptions C24_within_range.
Theorem C24_level_order :
  forall levels values levels' values' x,
  NoDup levels -> length values = length levels -> length values' = length levels' ->
  Permutation (combine levels values) (combine levels' values') ->
  interp1d levels values x = interp1d levels' values' x.
Proof. exact (@interp_order). Qed.
Print Assumptions C24_level_order.
Theorem C24_scenarios :
  forall q_vect init nz rows steps n_scen quantiles samples i s,
  (i < rows)%nat -> (forall i j, (i < rows)%nat -> (j < steps)%nat -> quantile_curve q_vect (quantiles i j)) ->
  (forall j, (j < steps)%nat -> exists scen, sample_scenarios q_vect false init nz rows steps n_scen quantiles samples = Some (steps, scen) /\
     exists v, interp1d q_vect (quantiles i j) (a_at samples i j s) = Some v /\ scen i j s = Some (v + n_normal nz i j s / 10 ^ 9)) /\
  (forall obs, obs = match init with Some l => l | None => repeat 0 rows end -> length obs = rows ->
     exists scen, sample_scenarios q_vect true init nz rows steps n_scen quantiles samples = Some (S steps, scen) /\
     scen i 0%nat s = Some (nth i obs 0 + n_uniform nz i s / 10 ^ 6 + n_normal nz i 0%nat s / 10 ^ 9) /\
     forall j, (j < steps)%nat -> exists v, interp1d q_vect (quantiles i j) (a_at samples i j s) = Some v /\
       scen i (S j) s = Some (v + n_normal nz i (S j) s / 10 ^ 9)).
Proof. exact (@sampled_scenarios). Qed.
Print Assumptions C24_scenarios.
Theorem C24_wrong_init :
  forall q_vect l nz rows steps n_scen quantiles samples, length l <> rows ->
  sample_scenarios q_vect true (Some l) nz rows steps n_scen quantiles samples = None.
Proof. exact (@sampled_wrong_init). Qed.
Print Assumptions C24_wrong_init.
Theorem C24_tails_refuted :
  forall l0 l1 levels v0 v1 values u, quantile_curve (l0 :: l1 :: levels) (v0 :: v1 :: values) -> v0 < v1 -> u < l0 ->
  exists a, interp1d (l0 :: l1 :: levels) (v0 :: v1 :: values) u = Some a /\ a < v0 /\
    (forall low, a < low <-> u < l0 - (v0 - low) * ((l1 - l0) / (v1 - v0))).
Proof. exact (@lower_tail). Qed.
Print Assumptions C24_tails_refuted.
Example C24_tails_case : exists levels values u a, quantile_curve levels values /\ non_crossing values /\ Forall (fun l => 0 < l < 1) levels /\
  0 < u < 1 /\ Forall (fun v => 0 <= v) values /\ interp1d levels values u = Some a /\ a < 0.
Proof. exact interp_leaves_hull. Qed.
Example C24_case : quantile_curve [1/10; 1/2; 9/10] [-1; 0; 4] /\ non_crossing [-1; 0; 4].
Proof. split; [split; [|split; [reflexivity|cbn; lia]]|]; repeat constructor; lra. Qed.

(** C28 *)
Theorem C28_superimpose :
  forall x t, shifted x t (superimpose x t).
Proof. exact (@superimpose_shifts). Qed.
Print Assumptions C28_superimpose.
Theorem C28_predicted_trees :
  forall h stored additional init rows,
  stored <> [] -> (additional = true -> match init with Some l => length l = length rows | None => True end) ->
  (forall hr x, In (hr, x) rows -> exists t, stored_tree h stored hr t) ->
  exists h' out, predict_trees h stored additional init rows = Some (h', out) /\
    firstn (length h) h' = h /\ length out = length rows /\ NoDup out /\ Forall (fun b => length h <= b)%nat out /\
    forall k hr x, nth_error rows k = Some (hr, x) ->
      exists t t', stored_tree h stored hr t /\ nth_error h' (nth k out 0%nat) = Some t' /\ shifted (tree_signal additional init k x) t t'.
Proof. exact (@predict_trees_correct). Qed.
Print Assumptions C28_predicted_trees.
Theorem C28_probabilities :
  forall x t t', shifted x t t' -> map nd_prob (tr_nodes t') = map nd_prob (tr_nodes t).
Proof. exact (@shifted_probability). Qed.
Print Assumptions C28_probabilities.
Theorem C28_unseen_hour :
  forall h stored additional init rows hr x,
  In (hr, x) rows -> (forall a, ~ In (hr, a) stored) -> predict_trees h stored additional init rows = None.
Proof. exact (@predict_trees_unseen). Qed.
Print Assumptions C28_unseen_hour.
Example C28_case :
  let t := Tree [Node 0 1 0; Node 1 (1/2) 3; Node 1 (1/2) 5] [(0, 1); (0, 2)]%nat in
  stored_tree [t] [(4%Z, 0%nat)] 4%Z t /\ tree_signal true None 0 [10; 20] = [10; 10; 20] /\
  tr_nodes (superimpose [10; 10; 20] t) = [Node 0 1 (0 + 10); Node 1 (1/2) (3 + 10); Node 1 (1/2) (5 + 10)].
Proof. split; [exists 0%nat; split; reflexivity|]. split; reflexivity. Qed.

(** C59 *)
Theorem C59_copula_partial :
  forall cdf fitted dim n_scen hours draws,
  n_scen <> 1%nat -> (1 <= dim)%nat -> incl hours fitted ->
  exists a rank, copula_sample cdf fitted dim n_scen hours draws = Some a /\
    a_dim0 a = length hours /\ a_dim1 a = dim /\ a_dim2 a = n_scen /\ numbers_rows hours rank /\
    forall i j s, (i < length hours)%nat -> (j < dim)%nat -> (s < n_scen)%nat ->
      a_at a i j s = cdf (draws (nth i hours 0%Z) [rank i; s; j]).
Proof. exact (@copula_sample_correct). Qed.
Print Assumptions C59_copula_partial.
Theorem C59_single_scenario_refuted :
  forall cdf fitted dim hours draws, (1 <= dim)%nat -> hours <> [] ->
  copula_sample cdf fitted dim 1 hours draws = None.
Proof. exact (@copula_single_scenario). Qed.
Print Assumptions C59_single_scenario_refuted.
Theorem C59_unseen_hour :
  forall cdf fitted dim n_scen hours draws h, In h hours -> ~ In h fitted ->
  copula_sample cdf fitted dim n_scen hours draws = None.
Proof. exact (@copula_unseen_hour). Qed.
Print Assumptions C59_unseen_hour.
Example C59_case : incl [3; 5; 3]%Z [3; 5]%Z /\ numbers_rows [3; 5; 3]%Z (fun i => match i with 2%nat => 1%nat | _ => 0%nat end).
Proof.
  split; [intros a; cbn; tauto|]. intros i Hi. cbn in Hi.
  destruct i as [|[|[|i]]]; try lia; cbn; (split; [lia|]); intros [|[|[|i']]] Hi'; cbn; lia.
Qed.

(** C73 *)
Theorem C73_documented_layout :
  forall (T L : Type),
  forall (eqd : forall a b : T, {a = b} + {a <> b}) (outer : list T) (inner : list L) (blocks : list (list (list R))),
  NoDup outer -> outer <> [] -> inner <> [] ->
  Forall (fun row => length row = length outer /\ Forall (fun b => length b = length inner) row) blocks ->
  let a := dstack eqd (QFrame (list_prod outer inner) (map (@concat R) blocks)) in
  a_dim0 a = length blocks /\ a_dim1 a = length inner /\ a_dim2 a = length outer /\
  forall i j k, (i < length blocks)%nat -> (j < length inner)%nat -> (k < length outer)%nat ->
    a_at a i j k = nth j (nth k (nth i blocks []) []) 0.
Proof. exact (@dstack_product). Qed.
Print Assumptions C73_documented_layout.
Theorem C73_own_frame_refuted :
  forall (T : Type),
  forall (eqd : forall a b : T, {a = b} + {a <> b}) (targets : list T) (levels : list R) (q : list (list (list R))),
  NoDup targets -> targets <> [] -> levels <> [] ->
  Forall (fun row => length row = length targets /\ Forall (fun b => length b = length levels) row) q ->
  (length targets <> length levels -> checked_quantiles eqd levels (quantiles_to_df targets levels q) = None) /\
  (length targets = length levels -> exists a, checked_quantiles eqd levels (quantiles_to_df targets levels q) = Some a /\
     forall i j k, (i < length q)%nat -> (j < length targets)%nat -> (k < length levels)%nat ->
       a_at a i j k = nth j (nth k (nth i q []) []) 0).
Proof. exact (@forecaster_frame). Qed.
Print Assumptions C73_own_frame_refuted.
Example C73_case :
  NoDup [1; 2]%Z /\ Forall (fun row => length row = length [1; 2]%Z /\ Forall (fun b => length b = length [1/10; 9/10]) row) [[[1; 2]; [3; 4]]].
Proof. split; [repeat constructor; cbn; intuition discriminate|]. repeat constructor. Qed.

(** C74 *)
Theorem C74_without_node_partial :
  forall q_vect init nz rows steps n_scen quantiles samples,
  predict_scenarios q_vect false init nz rows steps n_scen quantiles samples = sample_scenarios q_vect false init nz rows steps n_scen quantiles samples.
Proof. exact (@predict_scenarios_plain). Qed.
Print Assumptions C74_without_node_partial.
Theorem C74_additional_node_refuted :
  forall q_vect init nz rows steps n_scen quantiles samples, (2 <= steps)%nat ->
  predict_scenarios q_vect true init nz rows steps n_scen quantiles samples = None.
Proof. exact (@additional_node_raises). Qed.
Print Assumptions C74_additional_node_refuted.