(** Model of the probabilistic predictions of the neural forecasters: NN.predict and NN.predict_quantiles
    (neural_models/base_nn.py:466-506) and StructuredPICNN.predict_quantiles (ICNN.py:616-646). One row; reals
    instead of floats; [erfinv] is a function. *)
From Coq Require Import Reals List Arith Bool.
From Verif Require Import Model.Stats.
Import ListNotations.
Local Open Scope R_scope.

Section Gaussian.
Context (erfinv : R -> R).
(** The target scaler: mean and deviation by column; [inverse_transform] of scikit-learn.
    Used by [predict_sigma], base_nn.py:466-485. *)
Definition inverse_transform (scaler : list (R * R)) (l : list R) : list R :=
  map (fun e => snd e * snd (fst e) + fst (fst e)) (combine scaler l).
(** base_nn.py:466-485 with [probabilistic]: the first half of the outputs are means, the second half variances. *)
Definition predict_sigma (scaler : option (list (R * R))) (out : list R) : list R * list R :=
  let half := (length out / 2)%nat in
  let mu := firstn half out in
  let var := skipn half out in
  match scaler with
  | Some s => (inverse_transform s mu, inverse_transform s (map sqrt var))   (* 473-474 *)
  | None => (mu, var)                                                        (* 477-481 *)
  end.
(** base_nn.py:487-501: the quantiles by column, then by level. *)
Definition gaussian_quantiles (levels mu sigma : list R) : list (list R) :=
  map (fun ms => map (fun q => fst ms + snd ms * sqrt 2 * erfinv (2 * q - 1)) levels) (combine mu sigma).
(** With [gaussian_quantiles], base_nn.py:487-501. *)
Definition predict_quantiles (scaler : option (list (R * R))) (levels out : list R) : list (list R) :=
  let '(mu, sigma) := predict_sigma scaler out in gaussian_quantiles levels mu sigma.
(** base_nn.py:493-501: [normalize=False]. *)
Definition raw_quantiles (levels out : list R) : list (list R) :=
  let half := (length out / 2)%nat in gaussian_quantiles levels (firstn half out) (map sqrt (skipn half out)).

(** ICNN.py:635-644. *)
Definition sign (x : R) : R := if Rltb x 0 then -1 else if Rltb 0 x then 1 else 0.
(** ICNN.py:632-634, [distribution='normal']: one objective value and the signed deviation of 595. *)
Definition structured_normal (obj out : R) (q : R) : R := obj + sqrt (Rabs out) * sqrt 2 * erfinv (2 * q - 1).
(** ICNN.py:635-644, [distribution='log-normal'], for a non-zero objective. *)
Definition log_sigma (obj sigma : R) : R := sqrt (ln (1 + sigma ^ 2 / obj ^ 2)).
(** With [log_sigma], ICNN.py:635-644. *)
Definition log_mu (obj sigma : R) : R := ln (obj ^ 2 / sqrt (sigma ^ 2 + obj ^ 2)).
(** With [log_mu], ICNN.py:635-644. *)
Definition structured_lognormal (obj out : R) (q : R) : R :=
  let s := sign out in
  let sigma := sqrt (Rabs out) in
  let pos := exp (log_mu obj sigma + log_sigma obj sigma * sqrt 2 * erfinv (2 * q - 1)) in
  let neg := 2 * exp (log_mu obj sigma) - exp (log_mu obj sigma + log_sigma obj sigma * sqrt 2 * erfinv (2 * (1 - q) - 1)) in
  (if Rltb s 0 then neg else 0) + (if Rltb 0 s then pos else 0).
End Gaussian.
