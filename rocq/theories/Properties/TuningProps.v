(** Smoothing models: quantile forecasts, states, tuning; frequencies of a signal: C134 - C139. *)
From Coq Require Import List ZArith Arith Bool Reals Lia Lra Sorted Permutation.
From Verif Require Import Model.Stats Model.Subsample Model.HoltWinters Model.FourierEs Model.Tuning Model.HwQuant Spec.TuningSpec Spec.HwQuantSpec
  Proof.StatsProof Proof.TuningProof Proof.HwQuantProof.
Import ListNotations.
Local Open Scope R_scope.

(** C134 *)
Theorem C134_ordered_partial :
  forall (steps : nat) (levels : list R) (resid : table) (row : list R) (j i i' : nat),
  resid <> [] -> length row = steps -> Forall (fun q => 0 <= q <= 1) levels ->
  (j < steps)%nat -> (i < length levels)%nat -> (i' < length levels)%nat -> nth i levels 0 <= nth i' levels 0 ->
  let q := quantile_forecast (error_quantiles steps levels resid) row in at2 q j i <= at2 q j i'.
Proof. exact (@forecasts_ordered). Qed.
Print Assumptions C134_ordered_partial.
Theorem C134_stateful_partial :
  forall (n steps : nat) (levels : list R) (preds target : table) (j i : nat),
  of_shape n steps preds -> of_shape n steps target -> (0 < n)%nat -> (j < steps)%nat -> (i < length levels)%nat ->
  0 <= nth i levels 0 <= 1 ->
  let err := stateful_errors steps levels preds target in
  nth i levels 0 * INR (n - 1) < INR (rows_below err preds target j i) /\
  (1 - nth i levels 0) * INR (n - 1) < INR (rows_above err preds target j i).
Proof. exact (@stateful_cover). Qed.
Print Assumptions C134_stateful_partial.
Theorem C134_holt_winters_partial :
  forall (regress : table -> table) (columns n steps : nat) (levels : list R) (smooth target : table) (j i : nat),
  (forall t, of_shape n steps t -> of_shape n steps (regress t)) -> (1 < columns)%nat ->
  of_shape n steps smooth -> of_shape n steps target -> (0 < n)%nat -> (j < steps)%nat -> (i < length levels)%nat ->
  0 <= nth i levels 0 <= 1 ->
  let err := hw_errors regress steps levels smooth target in
  let preds := hw_corrected columns smooth (regress (minus_table target smooth)) in
  nth i levels 0 * INR (n - 1) < INR (rows_below err preds target j i) /\
  (1 - nth i levels 0) * INR (n - 1) < INR (rows_above err preds target j i).
Proof. exact (@hw_cover). Qed.
Print Assumptions C134_holt_winters_partial.
Theorem C134_one_column_refuted :
  forall (v : R) (p1 p2 n : nat) (levels : list R), (0 < p1)%nat -> (0 < p2)%nat -> (2 <= n)%nat -> v <> 0 ->
  Forall (fun q => 0 <= q <= 1) levels ->
  let p := Params 0 0 0 0 None None p1 p2 1 in
  exists target smooth st err,
    fit_rows p None (repeat (Some v) n) = (map (map Some) target, map (map Some) smooth, st) /\
    err = hw_errors (regress_one (repeat v (n - 1))) 1 levels smooth target /\
    fst (predict p st [Some v] None) = [[Some (2 * v)]] /\
    quantile_forecast err [2 * v] = [repeat (2 * v) (length levels)].
Proof. exact (@one_column_biased). Qed.
Print Assumptions C134_one_column_refuted.
Example C134_case : of_shape 2 1 [[1]; [2]] /\ of_shape 2 1 [[3]; [5]] /\
  error_quantiles 1 [1 / 2] (minus_table [[3]; [3]] [[1]; [1]]) = [[2]].
Proof.
  split; [split; [reflexivity|repeat constructor]|]. split; [split; [reflexivity|repeat constructor]|].
  unfold error_quantiles. cbn [seq map minus_table map2 combine fst snd nth]. f_equal. f_equal.
  replace (3 - 1) with 2 by lra. apply (quantile_const 2 2); [lia|lra].
Qed.

(** C135 *)
Theorem C135_round_trip_partial :
  forall (A B : Type) (o later : attributes A B),
  at_a o <> None -> at_b o <> None -> at_s1 o <> None -> at_s2 o <> None -> set_states later (get_states o) = o.
Proof. exact (@states_round_trip). Qed.
Print Assumptions C135_round_trip_partial.
Theorem C135_one_state_partial :
  forall (A B : Type) (o : attributes A B) (a : A),
  set_states o (Attributes (Some a) None None None) = Attributes (Some a) (at_b o) (at_s1 o) (at_s2 o).
Proof. exact (@states_partial). Qed.
Print Assumptions C135_one_state_partial.
Theorem C135_reset_refuted :
  forall (A B : Type) (later : attributes A B), set_states later (get_states (Attributes None None None None)) = later.
Proof. exact (@states_not_reset). Qed.
Print Assumptions C135_reset_refuted.
Example C135_case : set_states (Attributes (Some 9) (Some 9) (Some [9]) (Some [9])) (get_states (Attributes (Some 1) (Some 2) (Some [3]) (Some [4])))
  = Attributes (Some 1) (Some 2) (Some [3]) (Some [4]).
Proof. reflexivity. Qed.

(** C136 *)
Theorem C136_aligned_partial :
  forall (X M : Type) (target : X -> R) (fit : list X -> M) (predict : M -> list X -> list (list R)) (ratio : R) (n_sa : nat) (rows : list X) (d : X),
  let n := n_training ratio (length rows) in
  let y_hat := predict (fit (firstn n rows)) (skipn n rows) in
  let k := (length rows - n - n_sa)%nat in
  (0 < n_sa)%nat -> (n + n_sa < length rows)%nat -> length y_hat = (length rows - n)%nat -> Forall (fun r => length r = n_sa) y_hat ->
  score_autoregressive target fit predict ratio n_sa rows =
  Some (rsum (fun i => rsum (fun j => (nth j (nth i y_hat []) 0 - target (nth (n + i + 1 + j) rows d)) ^ 2) n_sa) k / (INR k * INR n_sa)).
Proof. exact (@tuning_score_mean). Qed.
Print Assumptions C136_aligned_partial.
Theorem C136_short_refuted :
  forall (X M : Type) (target : X -> R) (fit : list X -> M) (predict : M -> list X -> list (list R)) (ratio : R) (n_sa : nat) (rows : list X),
  (length rows <= n_training ratio (length rows) + n_sa)%nat -> (0 < n_sa)%nat ->
  score_autoregressive target fit predict ratio n_sa rows = None.
Proof. exact (@tuning_score_short). Qed.
Print Assumptions C136_short_refuted.
Example C136_case : n_training (7 / 10) 10 = 7%nat /\ (n_training (7 / 10) 10 + 2 < 10)%nat.
Proof. assert (E : n_training (7 / 10) 10 = 7%nat) by (unfold n_training; apply floor_eq; cbn; lra). rewrite E. split; [reflexivity|lia]. Qed.

(** C137 *)
Theorem C137_within :
  forall (N : Type) (lims : list (N * limit)) (us : list (list R)),
  Forall (fun nl => ordered_limit (snd nl)) lims -> Forall2 (fun nl u => fits (snd nl) u) lims us ->
  Forall2 (fun nl nv => fst nl = fst nv /\ allowed (snd nl) (snd nv)) lims (trial lims us).
Proof. exact (@trial_within). Qed.
Print Assumptions C137_within.
Theorem C137_best_partial :
  forall (T : Type) (trials : list T) (scores : list R) (t : T), length scores = length trials ->
  best_trial trials (map Some scores) = Some t ->
  exists k, nth_error trials k = Some t /\ (k < length scores)%nat /\ (forall j, (j < length scores)%nat -> nth k scores 0 <= nth j scores 0) /\
    (forall j, (j < k)%nat -> nth k scores 0 < nth j scores 0).
Proof. exact (@best_without_nan). Qed.
Print Assumptions C137_best_partial.
Theorem C137_best_found_partial :
  forall (T : Type) (trials : list T) (scores : list R), length scores = length trials -> trials <> [] ->
  exists t, best_trial trials (map Some scores) = Some t.
Proof. exact (@tuning_best_exists). Qed.
Print Assumptions C137_best_found_partial.
Theorem C137_nan_refuted :
  forall (T : Type) (before : list (T * R)) (t : T) (others : list (T * option R)),
  best_trial (map fst before ++ t :: map fst others) (map (fun p => Some (snd p)) before ++ None :: map snd others) = Some t.
Proof. exact (@best_with_nan). Qed.
Print Assumptions C137_nan_refuted.
Example C137_case : best_trial [10; 20]%Z [Some 3; Some 1] = Some 20%Z /\ best_trial [10; 20; 30]%Z [Some 3; None; Some 1] = Some 20%Z.
Proof.
  split; [|reflexivity]. unfold best_trial, argmin_nan. cbn. unfold argmin, argmin_from. destruct (Rlt_dec 1 3); [reflexivity|lra].
Qed.

(** C138 *)
Theorem C138_ranks :
  forall (l : list (option R)),
  length (ranks l) = length l /\
  (forall i, nth i l None = None -> nth i (ranks l) None = None) /\
  (forall i v, nth i l None = Some v -> exists r, nth i (ranks l) None = Some r /\ (r = 1%nat <-> (forall w, In (Some w) l -> v <= w))) /\
  (forall i j v w r s, nth i l None = Some v -> nth j l None = Some w -> nth i (ranks l) None = Some r -> nth j (ranks l) None = Some s -> ((r < s)%nat <-> v < w)) /\
  (forall i r s, nth i (ranks l) None = Some r -> (1 <= s <= r)%nat -> exists j, nth j (ranks l) None = Some s).
Proof. exact (@ranks_spec). Qed.
Print Assumptions C138_ranks.
Example C138_case : nth 1 [Some 4; Some 2; None] None = Some 2 /\ (forall w, In (Some w) [Some 4; Some 2; None] -> 2 <= w).
Proof. split; [reflexivity|]. intros w [E|[E|[E|[]]]]; inversion E; lra. Qed.

(** C139 *)
Theorem C139_top_partial :
  forall (order : list R -> list nat) (x : list R) (n_max : nat), descending_order order ->
  let l := find_frequencies order x n_max in
  StronglySorted lt l /\ length l = Nat.min n_max (length x / 2) /\
  forall k k', In (S k) l -> (k' < length x / 2)%nat -> ~ In (S k') l -> magnitude2 x k' <= magnitude2 x k.
Proof. exact (@top_frequencies). Qed.
Print Assumptions C139_top_partial.
Theorem C139_shifted_refuted :
  forall (order : list R -> list nat) (a b : R) (j n : nat), descending_order order ->
  (0 < j)%nat -> (2 * j + 1 < n)%nat -> (a <> 0 \/ b <> 0) ->
  find_frequencies order (sampled_wave a b j n) 1 = [S j].
Proof. exact (@wave_frequency). Qed.
Print Assumptions C139_shifted_refuted.
Example C139_order : exists order, descending_order order.
Proof. exists desc. exact desc_ok. Qed.
Example C139_case : length (sampled_wave 1 0 2 8) = 8%nat /\ (2 * 2 + 1 < 8)%nat /\ (1 <> 0 \/ 0 <> 0).
Proof. split; [reflexivity|]. split; [lia|]. left. lra. Qed.
