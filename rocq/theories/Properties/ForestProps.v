(** Options, weights and training sets of the tree-based forecasters: C177 - C181. *)
From Coq Require Import String Reals List Arith Bool ZArith Lia Lra.
From Verif Require Import Model.Names Model.Transformer Model.Formatter Model.FkConfig Model.Quantiles Model.Series Model.Stats Model.Subsample Model.Forest
  Spec.ForestSpec Proof.StatsProof Proof.FkConfigProof Proof.ForestProof.
Import ListNotations.
Local Open Scope string_scope.
Local Open Scope list_scope.

(** C177 *)
Theorem C177_boosters_partial :
  forall (a params : dict) (k : string),
  In k ["device_type"; "objective"; "max_depth"; "n_estimators"; "num_leaves"; "learning_rate"; "verbose"; "metric"; "min_child_samples";
        "n_jobs"; "colsample_bytree"; "colsample_bynode"] -> get k a <> None ->
  get k (lgb_learner (lgb_create a)) = get k a /\
  (forall v, get k params = Some v -> get k (lgb_learner (set_params (lgb_create a) params)) = Some v) /\
  (get k params = None -> get k (lgb_learner (set_params (lgb_create a) params)) = get k a).
Proof. exact (@boosters_tuned). Qed.
Print Assumptions C177_boosters_partial.
Theorem C177_forests_partial :
  forall (a : dict) (k : string),
  In k ["n_estimators"; "bootstrap"; "oob_score"; "n_jobs"; "random_state"; "verbose"; "warm_start"; "max_samples"; "min_samples_split";
        "min_samples_leaf"; "max_samples_leaf"; "min_weight_fraction_leaf"; "max_features"; "max_leaf_nodes"; "min_impurity_decrease";
        "criterion"; "ccp_alpha"] ->
  get k (qrf_learner (qrf_create a)) = get k a /\ (k <> "n_jobs" -> get k (qrf_global_learner (qrf_create a)) = get k a).
Proof. exact (@forests_given). Qed.
Print Assumptions C177_forests_partial.
Theorem C177_tuned_refuted :
  forall (a params : dict) (k : string) (v : val),
  In k qrf_attributes -> get k a <> None -> get k params = Some v ->
  (forall k', In k' (map fst params) -> In k' qrf_attributes) ->
  exists f, trial_qrf (qrf_create a) params = Some f /\ get k (f_attrs f) = Some v /\ qrf_learner f = qrf_learner (qrf_create a).
Proof. exact (@forests_not_tuned). Qed.
Print Assumptions C177_tuned_refuted.
Theorem C177_depth_refuted :
  forall (a : dict) (v : val),
  qrf_learner (qrf_create (set "max_depth" v a)) = qrf_learner (qrf_create a) /\
  get "max_depth" (f_attrs (qrf_create (set "max_depth" v a))) = Some v.
Proof. exact (@forests_depth). Qed.
Print Assumptions C177_depth_refuted.
Example C177_case :
  let a := [("n_estimators", VNat 100); ("max_depth", VNat 20); ("n_jobs", VNat 2); ("max_parallel_workers", VNat 8)] in
  let p := [("n_estimators", VNat 10); ("max_depth", VNat 3)] in
  lgb_learner (set_params (lgb_create a) p) = [("max_depth", VNat 3); ("n_estimators", VNat 10); ("n_jobs", VNat 2)] /\
  qrf_learner (qrf_create a) = [("n_estimators", VNat 100); ("n_jobs", VNat 2)] /\
  qrf_global_learner (qrf_create a) = [("n_estimators", VNat 100); ("n_jobs", VNat 16)] /\
  (forall k', In k' (map fst p) -> In k' qrf_attributes) /\
  option_map qrf_learner (trial_qrf (qrf_create a) p) = Some [("n_estimators", VNat 100); ("n_jobs", VNat 2)] /\
  trial_qrf (qrf_create a) [("learning_rate", VReal 1)] = None.
Proof. cbv zeta. repeat split; try reflexivity. intros k' [<-|[<-|[]]]; cbn; tauto. Qed.

(** C178 *)
Theorem C178_weights_partial :
  forall (X Y M G : Type) (learn : list X -> list Y -> nat -> option (list R) -> option M) (learn_multi : list X -> list Y -> nat -> G)
  (n_single targets : nat) (red : R) (x : list X) (y : list Y) (w : option (list R)) (ms : list M) (g : option G),
  qrf_fit learn learn_multi None n_single targets red x y w = Some (ms, g) ->
  length ms = n_single /\ forall i, (i < n_single)%nat -> nth_error ms i = learn x y i w.
Proof. exact (@weights_used). Qed.
Print Assumptions C178_weights_partial.
Theorem C178_validation_rows_partial :
  forall (X Y M G : Type) (learn : list X -> list Y -> nat -> option (list R) -> option M) (learn_multi : list X -> list Y -> nat -> G)
  (r : R) (n_single targets : nat) (red : R) (x x' : list X) (y y' : list Y) (w : option (list R)),
  length x = length x' ->
  (forall n, (n + n_val (length x) r <= length x)%nat -> firstn n x = firstn n x' /\ firstn n y = firstn n y') ->
  qrf_fit learn learn_multi (Some r) n_single targets red x y w = qrf_fit learn learn_multi (Some r) n_single targets red x' y' w.
Proof. exact (@held_out_unused). Qed.
Print Assumptions C178_validation_rows_partial.
Theorem C178_held_out_refuted :
  forall (X Y M G : Type) (learn : list X -> list Y -> nat -> option (list R) -> option M) (learn_multi : list X -> list Y -> nat -> G)
  (r : R) (n_single targets : nat) (red : R) (x : list X) (y : list Y) (w : list R),
  checks_weights learn -> (0 < n_single)%nat -> length w = length x -> (1 <= INR (length x) * r)%R ->
  qrf_fit learn learn_multi (Some r) n_single targets red x y (Some w) = None.
Proof. exact (@weights_held_out). Qed.
Print Assumptions C178_held_out_refuted.
Theorem C178_default_refuted :
  forall (X Y M G : Type) (learn : list X -> list Y -> nat -> option (list R) -> option M) (learn_multi : list X -> list Y -> nat -> G)
  (ratio : option R) (targets : nat) (red red' : R) (x : list X) (y : list Y) (w w' : option (list R)),
  qrf_fit learn learn_multi ratio 0 targets red x y w = qrf_fit learn learn_multi ratio 0 targets red' x y w' /\
  forall n ms ms' g g', qrf_fit learn learn_multi ratio n targets red x y w = Some (ms, g) ->
    qrf_fit learn learn_multi ratio n targets red' x y w' = Some (ms', g') -> g = g'.
Proof. exact (@weights_ignored). Qed.
Print Assumptions C178_default_refuted.
Theorem C178_reduction_refuted :
  forall (X Y M G : Type) (learn : list X -> list Y -> nat -> option (list R) -> option M) (learn_multi : list X -> list Y -> nat -> G)
  (n targets : nat) (red : R) (x : list X) (y : list Y) (w : option (list R)) (ms : list M) (g : option G),
  (n < targets)%nat -> qrf_fit learn learn_multi None n targets red x y w = Some (ms, g) -> g = Some (learn_multi x y n).
Proof. exact (@global_reduction). Qed.
Print Assumptions C178_reduction_refuted.
(** A learner that checks the weights and remembers them. *)
Example C178_case : let learn := fun (x y : list nat) (i : nat) (w : option (list R)) =>
    match w with Some w => if (length w =? length x)%nat then Some (i, w) else None | None => Some (i, []) end in
  let multi := fun (x y : list nat) (n : nat) => length x in
  checks_weights learn /\ (1 <= INR (length [1; 2; 3; 4]%nat) * (1 / 4))%R /\
  qrf_fit learn multi None 1 3 1%R [5; 6] [7; 8] (Some [1%R; 2%R]) = Some ([(0%nat, [1%R; 2%R])], Some 2%nat) /\
  qrf_fit learn multi None 0 3 1%R [5; 6] [7; 8] (Some [1%R; 2%R]) = Some ([], Some 2%nat).
Proof.
  cbv zeta. split; [|split; [cbn; lra|split; reflexivity]]. intros x y i w H. destruct (Nat.eqb_spec (length w) (length x)); [contradiction|reflexivity].
Qed.

(** C179 *)
Theorem C179_options_partial :
  forall (parallel : bool) (n_single n_multi : nat) (with_period : bool) (q : option quantiles_arg),
  qrf_predicts parallel n_single n_multi with_period q = true <->
  (0 < n_single + n_multi)%nat /\ (with_period = true -> parallel = false /\ n_single = 0%nat) /\ (q = None \/ exists l, q = Some (Levels l)).
Proof. exact (@predict_options). Qed.
Print Assumptions C179_options_partial.
Theorem C179_quantiles_partial :
  forall (parallel : bool) (n_single n_multi : nat) (q_vect : list R) (q : option (list R)),
  (0 < n_single + n_multi)%nat ->
  (forall l, q = Some l -> qrf_predict_quantiles parallel n_single n_multi q_vect q = Some l) /\
  (q = None -> qrf_predict_quantiles parallel n_single n_multi q_vect q = Some q_vect).
Proof. exact (@predict_quantiles_answers). Qed.
Print Assumptions C179_quantiles_partial.
Theorem C179_columns_partial :
  forall (tmetas fmetas : list (list meta)) (keep : list text) (tol lags ns : Z) (i : nat) (period : option Z),
  (period = None \/ period = Some (24 * 3600 * 1000000000)%Z) ->
  lgb_columns tmetas fmetas keep tol lags ns period i = lgb_columns tmetas fmetas keep tol lags ns None i.
Proof. exact (@columns_as_trained). Qed.
Print Assumptions C179_columns_partial.
Theorem C179_options_refuted :
  forall (parallel : bool) (n_single n_multi : nat) (with_period : bool),
  qrf_predicts parallel n_single n_multi with_period (Some Mean) = false /\
  qrf_predicts true n_single n_multi true None = false /\
  ((0 < n_single)%nat -> qrf_predicts parallel n_single n_multi true None = false).
Proof. exact (@predict_mean_refused). Qed.
Print Assumptions C179_options_refuted.
Theorem C179_period_refuted : exists (tmetas fmetas : list (list meta)) (period : Z),
  (0 < period)%Z /\ lgb_columns tmetas fmetas [] 0 0 0 None 0 <> lgb_columns tmetas fmetas [] 0 0 0 (Some period) 0.
Proof. exact (@columns_differ). Qed.
Print Assumptions C179_period_refuted.
Example C179_case : qrf_predicts true 0 24 false None = true /\ qrf_predicts true 2 22 false (Some (Levels [1%R])) = true /\
  qrf_predicts false 0 24 true None = true /\ qrf_predicts true 0 24 true None = false /\ qrf_predicts false 0 24 false (Some Mean) = false /\
  qrf_predicts true 0 24 false (Some NoLevels) = false.
Proof. repeat split. Qed.

Local Open Scope R_scope.
(** C180 *)
Theorem C180_size_partial :
  forall (rows k : nat) (red : R), (0 < k)%nat -> red <= 1 ->
  (batch_rows rows k red <= rows)%nat /\ (long_rows rows k red <= rows * k)%nat /\ (rows < (batch_rows rows k red + 1) * k)%nat /\
  INR rows * red < INR (batch_rows rows k red) + 1.
Proof. exact (@batch_bounds). Qed.
Print Assumptions C180_size_partial.
Theorem C180_full_partial :
  forall (rows k : nat) (red : R), (0 < k)%nat -> (red = 1 \/ (k = 1%nat /\ red <= 1)) -> batch_rows rows k red = rows /\ long_rows rows k red = (rows * k)%nat.
Proof. exact (@batch_all). Qed.
Print Assumptions C180_full_partial.
Theorem C180_rows_partial :
  forall (draw : nat -> nat) (rows k : nat) (red : R) (step : nat), valid_draw draw rows ->
  length (sampled_rows draw rows k red step) = batch_rows rows k red /\
  forall r, In r (sampled_rows draw rows k red step) -> (r < rows)%nat.
Proof. exact (@sampled_spec). Qed.
Print Assumptions C180_rows_partial.
Theorem C180_draws_partial :
  forall (draw : nat -> nat) (rows k : nat) (red : R),
  flat_map (sampled_rows draw rows k red) (seq 0 k) = map draw (seq 0 (long_rows rows k red)).
Proof. exact (@sampled_blocks). Qed.
Print Assumptions C180_draws_partial.
Theorem C180_monotone_partial :
  forall (rows k : nat) (red red' : R), (0 < k)%nat -> red <= red' -> (batch_rows rows k red <= batch_rows rows k red')%nat.
Proof. exact (@batch_mono). Qed.
Print Assumptions C180_monotone_partial.
Theorem C180_left_out_refuted :
  forall (rows k : nat), (1 < rows)%nat -> (0 < k)%nat -> exists draw row,
  valid_draw draw rows /\ (row < rows)%nat /\ ~ drawn draw rows k 1 row.
Proof. exact (@row_left_out). Qed.
Print Assumptions C180_left_out_refuted.
Theorem C180_empty_refuted :
  forall (rows k : nat) (red : R) (draw : nat -> nat), (rows < k)%nat -> red * INR k <= 1 ->
  long_rows rows k red = 0%nat /\ forall row, ~ drawn draw rows k red row.
Proof. exact (@no_rows). Qed.
Print Assumptions C180_empty_refuted.
Example C180_case : batch_rows 100 10 (1 / 2) = 50%nat /\ batch_rows 100 10 0 = 10%nat /\ batch_rows 3 10 (1 / 20) = 0%nat /\
  valid_draw (fun i => (i mod 100)%nat) 100 /\ drawn (fun i => i) 1 1 1 0.
Proof.
  split; [|split; [|split; [|split]]].
  - apply floor_eq. rewrite Rmax_right by (cbn; lra). cbn. lra.
  - apply floor_eq. rewrite Rmax_left by (cbn; lra). cbn. lra.
  - apply floor_eq. rewrite Rmax_left by (cbn; lra). cbn. lra.
  - intros i. apply Nat.mod_upper_bound. lia.
  - exists 0%nat. split; [lia|]. unfold sampled_rows. rewrite (proj1 (batch_all 1 1 1 ltac:(lia) (or_introl eq_refl))). left. reflexivity.
Qed.

(** C181 *)
Theorem C181_recursion_partial :
  forall (model : nat -> inputs -> option R -> R) (xs off : list inputs),
  Forall2 control_removed xs off ->
  length (energy_predict model xs) = length xs /\
  exists unbalance feature, 
    (forall i, feature i = if (i =? 0)%nat then None else Some (sum_to unbalance i)) /\
    forall i, (i < length xs)%nat ->
      nth i (energy_predict model xs) 0 = model i (nth i xs []) (feature i) /\
      unbalance i = model i (nth i off []) (feature i) - nth i (energy_predict model xs) 0.
Proof. exact (@energy_recursion). Qed.
Print Assumptions C181_recursion_partial.
Theorem C181_no_control_partial :
  forall (model : nat -> inputs -> option R -> R) (xs : list inputs) (i : nat),
  Forall no_control xs -> (i < length xs)%nat ->
  nth i (energy_predict model xs) 0 = model i (nth i xs []) (if (i =? 0)%nat then None else Some 0).
Proof. exact (@energy_no_control). Qed.
Print Assumptions C181_no_control_partial.
Theorem C181_causal_partial :
  forall (model : nat -> inputs -> option R -> R) (xs xs' : list inputs) (n : nat),
  firstn n xs = firstn n xs' -> firstn n (energy_predict model xs) = firstn n (energy_predict model xs').
Proof. exact (@energy_causal). Qed.
Print Assumptions C181_causal_partial.
Theorem C181_frame_refuted :
  forall (model : nat -> inputs -> option R -> R) (targets : nat) (xs : list inputs),
  (length xs = targets -> energy_frame model targets xs = Some (energy_predict model xs)) /\
  (length xs <> targets -> energy_frame model targets xs = None).
Proof. exact (@energy_frame_steps). Qed.
Print Assumptions C181_frame_refuted.
(** Two steps: the model of the second adds the feature to the value of its input. *)
Example C181_case : let model := fun (i : nat) (x : inputs) (f : option R) =>
    fold_right (fun e s => snd e + s) 0 x + match f with Some f => f | None => 0 end in
  let x := [("load", 5); ("force_off_lag_-1", 2)] in
  control_column "force_off_lag_-1" /\ ~ control_column "load" /\ control_removed x [("load", 5); ("force_off_lag_-1", 0)] /\
  no_control [("load", 5); ("force_off", 7)] /\
  energy_predict model [x; x] = [7; 5] /\ energy_frame model 3 [x; x] = None.
Proof.
  cbv zeta.
  assert (control_column "force_off_lag_-1") as C by (apply controlled_iff; reflexivity).
  assert (~ control_column "load") as L by (intros H; apply controlled_iff in H; discriminate).
  split; [assumption|]. split; [assumption|]. split.
  { repeat constructor; cbn; intros; try reflexivity; contradiction. }
  split.
  { intros c v [E|[E|[]]] H; injection E as <- <-; [contradiction|]. apply controlled_iff in H. discriminate. }
  split; [|reflexivity]. unfold energy_predict. cbn. repeat f_equal; lra.
Qed.
