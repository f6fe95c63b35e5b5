(** The losses the neural forecasters are trained with: C140 - C147, C208. *)
From Coq Require Import List Arith Bool Reals Lia Lra Permutation.
From Verif Require Import Model.Stats Model.Gaussian Model.Losses Spec.LossSpec Proof.StatsProof Proof.LossProof Proof.LossProof2 Proof.LossProof3 Proof.LossProof4 Proof.LossProof5.
Import ListNotations.
Local Open Scope R_scope.

(** C140 *)
Theorem C140_minimum :
  forall (y : list R) (mu s : R), y <> [] -> 0 < variance y -> 0 < s ->
  exists best l,
    normal_loss (everywhere y (average y)) y (everywhere y (variance y)) = Some best /\
    normal_loss (everywhere y mu) y (everywhere y s) = Some l /\
    best <= l /\ (l = best -> mu = average y /\ s = variance y).
Proof. exact (@likelihood_minimum). Qed.
Print Assumptions C140_minimum.
Theorem C140_rows :
  forall (y_hat y s : list R), length y_hat = length y -> length s = length y ->
  (forall i, (i < length y)%nat -> nth i y_hat 0 <> nth i y 0) -> Forall (fun v => 0 < v) s ->
  exists best l,
    normal_loss y_hat y (map (fun p => (fst p - snd p) ^ 2) (combine y_hat y)) = Some best /\
    normal_loss y_hat y s = Some l /\ best <= l.
Proof. exact (@likelihood_cells). Qed.
Print Assumptions C140_rows.
Example C140_case : average [1; 3] = 2 /\ variance [1; 3] = 1 /\ 0 < variance [1; 3].
Proof. assert (average [1; 3] = 2) as A by (unfold average; cbn; lra). assert (variance [1; 3] = 1) as V by (unfold variance; rewrite A; unfold average; cbn; lra). rewrite V. repeat split; [exact A|lra]. Qed.

(** C141 *)
Theorem C141_convex_partial :
  forall (z sigma targets : list R), length z = length targets -> length sigma = length targets ->
  exists l, network_loss (convex_outputs z sigma) targets = Some l.
Proof. exact (@convex_numbers). Qed.
Print Assumptions C141_convex_partial.
Theorem C141_feed_forward_refuted :
  forall (out targets : list R) (v : R), length out = (2 * length targets)%nat ->
  In v (skipn (length targets) out) -> v <= 0 -> network_loss out targets = None.
Proof. exact (@feed_forward_nan). Qed.
Print Assumptions C141_feed_forward_refuted.
Example C141_case : network_loss [1; 2; 1; -1] [0; 0] = None /\ exists l, network_loss (convex_outputs [1; 2] [1; -1]) [0; 0] = Some l.
Proof.
  split; [|apply convex_numbers; reflexivity].
  apply (feed_forward_nan [1; 2; 1; -1] [0; 0] (-1)); [reflexivity | right; left; reflexivity | lra].
Qed.

(** C142 *)
Theorem C142_increasing :
  forall (cdf : R -> R) (y_hat y_hat' y y' s : R), normal_cdf cdf -> 0 < s ->
  Rabs (y - y_hat) < Rabs (y' - y_hat') -> crps_cell cdf y_hat y s < crps_cell cdf y_hat' y' s.
Proof. exact (@crps_increasing). Qed.
Print Assumptions C142_increasing.
Theorem C142_symmetric :
  forall (cdf : R -> R) (y_hat y_hat' y y' s : R), normal_cdf cdf -> 0 < s ->
  Rabs (y - y_hat) = Rabs (y' - y_hat') -> crps_cell cdf y_hat y s = crps_cell cdf y_hat' y' s.
Proof. exact (@crps_symmetric). Qed.
Print Assumptions C142_symmetric.
Theorem C142_exact :
  forall (cdf : R -> R) (y s : R), normal_cdf cdf -> 0 < s -> crps_cell cdf y y s = sqrt s * ((sqrt 2 - 1) / sqrt PI).
Proof. exact (@crps_exact). Qed.
Print Assumptions C142_exact.
Theorem C142_positive :
  forall (cdf : R -> R) (y_hat y s : R), normal_cdf cdf -> 0 < s -> sqrt s * ((sqrt 2 - 1) / sqrt PI) <= crps_cell cdf y_hat y s /\ 0 < crps_cell cdf y_hat y s.
Proof. exact (@crps_positive). Qed.
Print Assumptions C142_positive.
Theorem C142_units :
  forall (cdf : R -> R) (c y_hat y s : R), 0 < c -> 0 < s -> crps_cell cdf (c * y_hat) (c * y) (c ^ 2 * s) = c * crps_cell cdf y_hat y s.
Proof. exact (@crps_units). Qed.
Print Assumptions C142_units.
Example C142_case : exists cdf, normal_cdf cdf /\ crps_cell cdf 0 1 1 < crps_cell cdf 0 (-2) 1.
Proof.
  destruct normal_cdf_exists as (cdf & N). exists cdf. split; [exact N|]. apply crps_increasing; [exact N | lra |].
  rewrite (Rabs_right (1 - 0)), (Rabs_left (-2 - 0)) by lra. lra.
Qed.

(** C143 *)
Theorem C143_crps_partial :
  forall (erfinv : R -> R) (m s : R), erfinv 0 = 0 -> s <> 0 -> structured_lognormal erfinv m s (1 / 2) = exp (crps_mu m s).
Proof. exact (@crps_median). Qed.
Print Assumptions C143_crps_partial.
Theorem C143_crps_mean_partial :
  forall (m s : R), m <> 0 -> exp (crps_mu m s + ln (1 + Rabs s / m ^ 2) / 2) = Rabs m.
Proof. exact (@crps_mean). Qed.
Print Assumptions C143_crps_mean_partial.
Theorem C143_crps_spread_partial :
  forall (m s : R), m <> 0 -> log_sigma m (sqrt (Rabs s)) < crps_sigma m s /\ exp (crps_sigma m s ^ 2) = 1 + (sqrt (Rabs s) + / 10 ^ 10) ^ 2 / m ^ 2.
Proof. exact (@crps_wider). Qed.
Print Assumptions C143_crps_spread_partial.
Theorem C143_fitted_partial :
  forall (y : list R) (m s l : R), y <> [] -> Forall (fun v => 0 < v) y -> 0 < variance (map ln y) ->
  0 < m -> s <> 0 -> lognormal_loss (everywhere y m) y (everywhere y s) = Some l ->
  ((forall m' s' l', lognormal_loss (everywhere y m') y (everywhere y s') = Some l' -> l <= l') <->
   m = exp (average (map ln y)) /\ Rabs s = variance (map ln y)).
Proof. exact (@lognormal_fitted). Qed.
Print Assumptions C143_fitted_partial.
Theorem C143_likelihood_refuted :
  forall (erfinv : R -> R) (y : list R) (m s l : R), erfinv 0 = 0 -> y <> [] -> Forall (fun v => 0 < v) y -> 0 < variance (map ln y) ->
  0 < m -> s <> 0 -> lognormal_loss (everywhere y m) y (everywhere y s) = Some l ->
  (forall m' s' l', lognormal_loss (everywhere y m') y (everywhere y s') = Some l' -> l <= l') ->
  m = exp (average (map ln y)) /\ structured_lognormal erfinv m s (1 / 2) < exp (average (map ln y)).
Proof. exact (@likelihood_median). Qed.
Print Assumptions C143_likelihood_refuted.
Theorem C143_negative_refuted :
  forall (y_hat y s : list R) (v : R), length y_hat = length y -> length s = length y -> In v y -> v <= 0 -> lognormal_loss y_hat y s = None.
Proof. exact (@lognormal_negative). Qed.
Print Assumptions C143_negative_refuted.
Example C143_case : 0 < variance (map ln [1; exp 2]) /\ Forall (fun v => 0 < v) [1; exp 2] /\
  exists l, lognormal_loss (everywhere [1; exp 2] (exp 1)) [1; exp 2] (everywhere [1; exp 2] 1) = Some l.
Proof.
  assert (map ln [1; exp 2] = [0; 2]) as E by (cbn [map]; rewrite ln_1, ln_exp; reflexivity).
  assert (Forall (fun v => 0 < v) [1; exp 2]) as P by (constructor; [lra|]; constructor; [apply exp_pos | constructor]).
  split; [|split; [exact P|]].
  - rewrite E. assert (average [0; 2] = 1) as A by (unfold average; cbn; lra). unfold variance. rewrite A. unfold average. cbn. lra.
  - rewrite lognormal_constant; [eexists; reflexivity | easy | exact P | apply exp_pos | lra].
Qed.

(** C144 *)
Theorem C144_best_partial :
  forall (argsort : list R -> list nat) (objs_hat objs : list R),
  (forall l, sorts l (argsort l)) -> length objs_hat = length objs -> (2 <= length objs)%nat -> distinct objs -> distinct objs_hat ->
  exists v, order_penalty argsort objs_hat objs = Some v /\ -1 <= v <= 1 /\ (v = -1 <-> same_order objs objs_hat).
Proof. exact (@order_best). Qed.
Print Assumptions C144_best_partial.
Theorem C144_reversed_refuted :
  forall (argsort : list R -> list nat), (forall l, sorts l (argsort l)) ->
  exists objs reversed near,
    distinct objs /\ distinct reversed /\ distinct near /\ length reversed = length objs /\ length near = length objs /\
    (forall i j, (i < length objs)%nat -> (j < length objs)%nat -> (nth i objs 0 < nth j objs 0 <-> nth j reversed 0 < nth i reversed 0)) /\
    length (swapped objs near) = 1%nat /\
    order_penalty argsort reversed objs = Some (- (1 / 2)) /\ order_penalty argsort near objs = Some 1.
Proof. exact (@order_reversed). Qed.
Print Assumptions C144_reversed_refuted.
Theorem C144_flat_refuted :
  forall (argsort : list R -> list nat) (objs_hat objs : list R),
  (forall l, sorts l (argsort l)) -> distinct objs_hat ->
  exists e, 0 < e /\ forall objs_hat', length objs_hat' = length objs_hat ->
    (forall i, (i < length objs_hat)%nat -> Rabs (nth i objs_hat' 0 - nth i objs_hat 0) < e) ->
    order_penalty argsort objs_hat' objs = order_penalty argsort objs_hat objs.
Proof. exact (@order_flat). Qed.
Print Assumptions C144_flat_refuted.
Example C144_case : sorts [3; 1; 2] [1; 2; 0]%nat /\ distinct [3; 1; 2] /\ same_order [3; 1; 2] [9; 0; 5].
Proof.
  split; [split|split].
  - cbn [length seq]. apply Permutation_sym, (Permutation_cons_append [1; 2]%nat 0%nat).
  - cbn [length]. intros i j IJ. destruct i as [|[|[|i]]]; [| | |lia]; (destruct j as [|[|[|j]]]; [| | |lia]); cbn [nth]; try lia; lra.
  - unfold distinct. constructor; [intros [K | [K | []]]; lra|]. constructor; [intros [K | []]; lra|]. constructor; [easy | constructor].
  - intros i j I J. cbn [length] in I, J. destruct i as [|[|[|i]]]; [| | |lia]; (destruct j as [|[|[|j]]]; [| | |lia]); cbn [nth]; lra.
Qed.

(** C145 *)
Theorem C145_embedding :
  forall (columns : list (list R)),
  columns <> [] -> (forall c, In c columns -> exists v, In v c /\ v <> 0) ->
  0 <= embedding_penalty columns /\
  (embedding_penalty columns = 0 <-> (forall c, In c columns -> average c = 0 /\ variance c = 1)).
Proof. exact (@embedding_nonneg). Qed.
Print Assumptions C145_embedding.
Example C145_case : average [1; -1] = 0 /\ variance [1; -1] = 1.
Proof. assert (average [1; -1] = 0) as A by (unfold average; cbn; lra). split; [exact A|]. unfold variance. rewrite A. unfold average. cbn. lra. Qed.

(** C146 *)
Theorem C146_penalty_partial :
  forall (causes : list (list bool)) (targets : nat) (jacobians : list (list (list R))),
  causes <> [] -> (0 < targets)%nat -> jacobians <> [] ->
  (forall row, In row causes -> length row = targets) ->
  (forall j, In j jacobians -> length j = targets /\ forall row, In row j -> length row = length causes) ->
  0 <= causal_penalty causes targets jacobians /\
  (causal_penalty causes targets jacobians = 0 <->
   forall j control target, In j jacobians -> (control < length causes)%nat -> (target < targets)%nat ->
     nth target (nth control causes []) true = false -> nth control (nth target j []) 0 = 0).
Proof. exact (@causal_zero). Qed.
Print Assumptions C146_penalty_partial.
Theorem C146_loss_partial :
  forall (causes : list (list bool)) (n : nat) (jacobians : list (list (list R))) (predictions targets : list R),
  causes <> [] -> (0 < n)%nat -> jacobians <> [] -> (forall row, In row causes -> length row = n) ->
  (forall j, In j jacobians -> length j = n /\ forall row, In row j -> length row = length causes) ->
  length predictions = length targets -> targets <> [] ->
  squared_loss predictions targets <= causal_loss causes n jacobians predictions targets /\
  (causal_loss causes n jacobians predictions targets = 0 <->
   predictions = targets /\
   forall j control target, In j jacobians -> (control < length causes)%nat -> (target < n)%nat ->
     nth target (nth control causes []) true = false -> nth control (nth target j []) 0 = 0).
Proof. exact (@causal_loss_zero). Qed.
Print Assumptions C146_loss_partial.
Theorem C146_probabilistic_partial :
  forall (k : kind) (d : distribution), trained_with Convex true true k d = Some (CausalLikelihood, k, Normal).
Proof. exact (@causal_convex). Qed.
Print Assumptions C146_probabilistic_partial.
Theorem C146_deterministic_refuted :
  forall (k : kind) (d : distribution), trained_with Convex false true k d = None.
Proof. exact (@causal_deterministic). Qed.
Print Assumptions C146_deterministic_refuted.
Theorem C146_ignored_refuted :
  forall (n : network) (probabilistic : bool) (k : kind) (d : distribution), n <> Convex -> trained_with n probabilistic true k d = trained_with n probabilistic false k d.
Proof. exact (@causal_ignored). Qed.
Print Assumptions C146_ignored_refuted.
Example C146_case : causal_penalty [[true; false]; [true; true]] 2 [[[5; 7]; [0; 7]]] = 0 /\ causal_penalty [[true; false]; [true; true]] 2 [[[5; 7]; [4; 7]]] = 1.
Proof.
  unfold causal_penalty, sensitivity_penalty, transpose, mask, Subsample.map2, jmean.
  cbn [map seq nth combine fst snd concat app length fold_right].
  rewrite !Rmult_0_r, !Rmult_0_l, !Rabs_R0, (Rabs_right (4 * 1)) by lra. simpl INR. split; field.
Qed.

(** C147 *)
Theorem C147_requested_partial :
  forall (n : network) (k : kind) (d : distribution), n <> FeedForward -> n <> Recurrent -> n <> Invertible -> exists l, trained_with n true false k d = Some (l, k, d).
Proof. exact (@requested_used). Qed.
Print Assumptions C147_requested_partial.
Theorem C147_ignored_refuted :
  forall (k : kind) (d : distribution),
  trained_with FeedForward true false k d = trained_with FeedForward true false MaximumLikelihood Normal /\
  trained_with Recurrent true false k d = trained_with Recurrent true false MaximumLikelihood Normal /\
  trained_with Convex true true k d = trained_with Convex true true k Normal /\
  trained_with Invertible true false k d = trained_with Invertible false false k d.
Proof. exact (@requested_ignored). Qed.
Print Assumptions C147_ignored_refuted.
Example C147_case : trained_with Quasi true false Crps LogNormal = Some (Likelihood, Crps, LogNormal) /\
  trained_with FeedForward true false Crps LogNormal = Some (Likelihood, MaximumLikelihood, Normal).
Proof. split; reflexivity. Qed.

(** C208 *)
Theorem C208_exact :
  forall (predictions targets : list R), length predictions = length targets -> targets <> [] ->
  0 <= squared_loss predictions targets /\ (squared_loss predictions targets = 0 <-> predictions = targets).
Proof. exact (@squared_zero). Qed.
Print Assumptions C208_exact.
Theorem C208_mean :
  forall (y : list R) (mu : R), y <> [] -> ((forall nu, squared_loss (everywhere y mu) y <= squared_loss (everywhere y nu) y) <-> mu = average y).
Proof. exact (@squared_best). Qed.
Print Assumptions C208_mean.
Example C208_case : squared_loss [1; 3] [1; 1] = 2 /\ squared_loss (everywhere [1; 3] 2) [1; 3] = 1 /\ squared_loss (everywhere [1; 3] 3) [1; 3] = 2.
Proof. unfold squared_loss, everywhere, jmean, Subsample.map2. cbn. repeat split; lra. Qed.
