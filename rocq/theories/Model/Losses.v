(** Model of the losses the neural forecasters are trained with (neural_models/base_nn.py:42-93,
    neural_models/ICNN.py:33-112, 333-339). Reals instead of floats; [None] is NaN or an error. *)
From Coq Require Import List Reals Arith Bool.
From Verif Require Import Model.Stats Model.Subsample Model.Quantiles.
Import ListNotations.
Local Open Scope R_scope.

(** jnp.mean of a vector. Used by [mean_loss], base_nn.py:88-92. *)
Definition jmean (l : list R) : R := fold_right Rplus 0 l / INR (length l).
(** A loss that is NaN in one cell is NaN. Used by [normal_loss], base_nn.py:88-92. *)
Definition mean_loss (cells : list (option R)) : option R :=
  match all_some cells with Some l => Some (jmean l) | None => None end.

(** base_nn.py:42-44. *)
Definition squared_loss (predictions targets : list R) : R := jmean (map2 (fun p t => (p - t) ^ 2) predictions targets).

(** base_nn.py:51-52: the likelihood of a normal distribution, a number for a positive variance only
    (log of a negative number is NaN; a zero variance gives NaN or an infinity). *)
Definition normal_cell (y_hat y s : R) : option R :=
  if Rltb 0 s then Some ((y_hat - y) ^ 2 / s + ln s) else None.
(** Used by [network_loss], base_nn.py:88-92. *)
Definition normal_loss (y_hat y s : list R) : option R :=
  mean_loss (map2 (fun p s => normal_cell (fst p) (snd p) s) (combine y_hat y) s).
(** base_nn.py:53-56: the likelihood of a log-normal distribution. *)
Definition lognormal_cell (y_hat y s : R) : option R :=
  if Req_EM_T s 0 then None else
  if (Rltb 0 y_hat && Rltb 0 y)%bool
  then Some ((ln y_hat - ln y) ^ 2 / (sqrt (Rabs s)) ^ 2 + ln ((sqrt (Rabs s)) ^ 2)) else None.
(** With [lognormal_cell], base_nn.py:53-56. *)
Definition lognormal_loss (y_hat y s : list R) : option R :=
  mean_loss (map2 (fun p s => lognormal_cell (fst p) (snd p) s) (combine y_hat y) s).

(** base_nn.py:59-64: the continuous ranked probability score of a normal distribution, for a positive
    variance. [cdf] is the distribution function of the standard normal distribution. *)
Definition pdf (u : R) : R := / sqrt (2 * PI) * exp (- (u ^ 2 / 2)).
(** With [pdf], base_nn.py:59-64. *)
Definition crps_cell (cdf : R -> R) (y_hat y s : R) : R :=
  let sigma := sqrt s in let u := (y - y_hat) / sigma in
  sigma * (u * (2 * cdf u - 1) + 2 * pdf u - 1 / sqrt PI).
(** base_nn.py:65-72: the parameters of the log-normal distribution of which [y_hat] is the mean. *)
Definition crps_mu (y_hat s : R) : R := ln (y_hat ^ 2 / sqrt (Rabs s + y_hat ^ 2)).
(** With [crps_mu], base_nn.py:65-72. *)
Definition crps_sigma (y_hat s : R) : R := sqrt (ln (1 + (sqrt (Rabs s) + / 10 ^ 10) ^ 2 / y_hat ^ 2)).

(** base_nn.py:88-92: the outputs of the network are means, then variances. *)
Definition network_loss (out targets : list R) : option R :=
  let half := (length out / 2)%nat in normal_loss (firstn half out) targets (skipn half out).
(** ICNN.py:147-164: the outputs of a convex network. *)
Definition softplus (v : R) : R := ln (1 + exp v).
(** With [softplus], ICNN.py:147-164. *)
Definition convex_outputs (z sigma : list R) : list R := z ++ map (fun v => softplus v + / 10 ^ 10) sigma.

(** ICNN.py:70-73: minus the correlation of the sorting permutations. [argsort] is the library's. *)
Definition covariance (a b : list R) : R := jmean (map2 (fun u v => (u - jmean a) * (v - jmean b)) a b).
(** With [covariance], ICNN.py:70-73. *)
Definition corrcoef (a b : list R) : option R :=
  let d := sqrt (covariance a a) * sqrt (covariance b b) in
  if Req_EM_T d 0 then None else Some (covariance a b / d).
(** With [corrcoef], ICNN.py:70-73. *)
Definition order_penalty (argsort : list R -> list nat) (objs_hat objs : list R) : option R :=
  match corrcoef (map INR (argsort objs)) (map INR (argsort objs_hat)) with Some c => Some (- c) | None => None end.

(** ICNN.py:64-65: the penalty of the embeddings of the controls, one column per embedding. *)
Definition embedding_cell (column : list R) : R :=
  jmean (map (fun v => v ^ 2) column) + jmean column ^ 2 - ln (jmean (map (fun v => v ^ 2) column)) - 1.
(** With [embedding_cell], ICNN.py:64-65. *)
Definition embedding_penalty (columns : list (list R)) : R := jmean (map embedding_cell columns).

(** ICNN.py:83-102: the sensitivities of the outputs to the controls, masked and averaged; the masks are
    those of 334-335: one where the table of causes has a zero. [causes]: controls by targets. *)
Definition mask (causes : list (list bool)) : list (list R) := map (map (fun c : bool => if c then 0 else 1)) causes.
(** Used by [causal_penalty], ICNN.py:83-102. *)
Definition transpose (width : nat) (m : list (list R)) : list (list R) := map (fun j => map (fun row => nth j row 0) m) (seq 0 width).
(** Used by [causal_penalty], ICNN.py:83-102. *)
Definition sensitivity_penalty (jacobian m : list (list R)) : R :=
  jmean (concat (map2 (map2 (fun j v => Rabs (j * v))) jacobian m)).
(** [jacobians]: one per row of data, outputs by controls. ICNN.py:83-102. *)
Definition causal_penalty (causes : list (list bool)) (targets : nat) (jacobians : list (list (list R))) : R :=
  jmean (map (fun j => sensitivity_penalty j (transpose targets (mask causes))) jacobians).
(** ICNN.py:97-102. *)
Definition causal_loss (causes : list (list bool)) (n_targets : nat) (jacobians : list (list (list R))) (predictions targets : list R) : R :=
  squared_loss predictions targets + causal_penalty causes n_targets jacobians.

(** The loss a network is trained with and the keywords it is called with: base_nn.py:334-335, 543-544, 558-559
    (FeedForward and Recurrent: NN, FFNN, LSTMNN), ICNN.py:333-339 (Convex: PICNN), 468-469 (Quasi: PIQCNN),
    505-506 (Sigmoid: PIQCNNSigmoid), 536-537 (Stable: RecStablePICNN), 575-576 (Structured: StructuredPICNN),
    690 (Latent: LatentStructuredPICNN), INN.py:162-163 (Invertible: CausalInvertibleNN, end_to_end 'none'). *)
Inductive network := FeedForward | Recurrent | Convex | Quasi | Sigmoid | Stable | Structured | Latent | Invertible.
(** Used by [set_arch], base_nn.py:33-36. *)
Inductive loss_used := Squared | Likelihood | Causal | CausalLikelihood | StructuredLoss | StructuredLikelihood | Embedded | Gaussianise.
(** Used by [keyword_dec], base_nn.py:33-36. *)
Inductive keyword := Kind | Distribution | Objective | CausalMatrix | FullModel.
(** Used by [trained_with], base_nn.py:33-36. *)
Inductive kind := MaximumLikelihood | Crps.
(** Used by [trained_with], base_nn.py:33-36. *)
Inductive distribution := Normal | LogNormal.
(** Used by [has], base_nn.py:33-36. *)
Definition keyword_dec (a b : keyword) : {a = b} + {a <> b}.
Proof. decide equality. Defined.
(** Used by [trained_with], base_nn.py:33-36. *)
Definition has (ks : list keyword) (k : keyword) : bool := if in_dec keyword_dec k ks then true else false.
(** Used by [trained_with], base_nn.py:33-36. *)
Definition set_arch (n : network) (probabilistic causal : bool) : loss_used * list keyword :=
  match n with
  | FeedForward | Recurrent => if probabilistic then (Likelihood, []) else (Squared, [])
  | Convex =>
      if causal then (if probabilistic then CausalLikelihood else Causal, [CausalMatrix; Kind])
      else if probabilistic then (Likelihood, [Kind; Distribution]) else (Squared, [])
  | Quasi | Sigmoid | Stable => if probabilistic then (Likelihood, [Kind; Distribution]) else (Squared, [])
  | Structured => if probabilistic then (StructuredLikelihood, [Kind; Objective; Distribution]) else (StructuredLoss, [Objective])
  | Latent => if probabilistic then (Likelihood, [Kind; Distribution]) else (Embedded, [FullModel])
  | Invertible => (Gaussianise, [])
  end.
(** The keywords in the signatures: base_nn.py:42, 88, ICNN.py:33, 42, 55, 97, 104, INN.py:17. *)
Definition signature (l : loss_used) : list keyword :=
  match l with
  | Squared => []
  | Likelihood => [Kind; Distribution]
  | Causal => [CausalMatrix]
  | CausalLikelihood => [CausalMatrix; Kind]
  | StructuredLoss => [Objective]
  | StructuredLikelihood => [Kind; Objective; Distribution]
  | Embedded => [FullModel]
  | Gaussianise => []
  end.
(** The first training step calls the loss: an unknown keyword is a TypeError, a keyword that is not
    passed has its default. base_nn.py:33-36. *)
Definition trained_with (n : network) (probabilistic causal : bool) (k : kind) (d : distribution) : option (loss_used * kind * distribution) :=
  let '(l, ks) := set_arch n probabilistic causal in
  if forallb (has (signature l)) ks
  then Some (l, if has ks Kind then k else MaximumLikelihood, if has ks Distribution then d else Normal)
  else None.
