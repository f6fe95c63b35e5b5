(** Model of CausalInvertibleLayer (neural_models/layers.py 175-252, without layer normalisation), of
    CausalInvertibleModule and of the end-to-end forecaster (INN.py:53-109, 190-224): one input row, exact numbers. *)
From Coq Require Import Reals List Arith Bool.
From Verif Require Import Model.Activations Model.FourierEs Model.Quantiles.
Import ListNotations.
Local Open Scope R_scope.

(** vector_to_lower_triangular layers.py:268-278: [jnp.tril_indices(n, -1)] runs through the rows. *)
Definition tril_position (i j : nat) : nat := (i * (i - 1) / 2 + j)%nat.
(** Used by [kernel], layers.py:212, 226, 232. *)
Definition lower (v : list R) (i j : nat) : R := if (j <? i)%nat then nth (tril_position i j) v 0 else 0.

(** Used by [kernel], layers.py:212, 226, 232. *)
Record layer := Layer { features : nat; weights : list R; bias : list R; scaling : R; negative_slope : R; activation : act; prediction_layer : bool }.
(** layers.py:212, 226, 232: [tanh(kernel) * scaling_factor / features + eye]. *)
Definition kernel (l : layer) (i j : nat) : R :=
  tanh (lower (weights l) i j) * scaling l / INR (features l) + (if (i =? j)%nat then 1 else 0).
(** layers.py:213-214, 233-234 *)
Definition affine (l : layer) (x : list R) : list R :=
  map (fun i => rsum (fun j => kernel l i j * nth j x 0) (features l) + nth i (bias l) 0) (seq 0 (features l)).
(** layers.py:231-240 ([__call__] on one row is the same) *)
Definition layer_predict (l : layer) (x : list R) : list R :=
  if prediction_layer l then affine l x else map (activate (activation l)) (affine l x).
(** [solve_triangular(kernel, r, lower=True)]: forward substitution. Used by [layer_invert], layers.py:222-230. *)
Fixpoint substitute (K : nat -> nat -> R) (r : list R) (n : nat) : list R :=
  match n with
  | O => []
  | S i => let x := substitute K r i in x ++ [(nth i r 0 - rsum (fun j => K i j * nth j x 0) i) / K i i]
  end.
(** layers.py:222-230 *)
Definition layer_invert (l : layer) (y : list R) : option (list R) :=
  option_map (fun z => substitute (kernel l) (map (fun i => nth i z 0 - nth i (bias l) 0) (seq 0 (features l))) (features l))
    (if prediction_layer l then Some y else all_some (map (invert_activation (negative_slope l) (activation l)) y)).

(** INN.py:60-73 *)
Definition module_predict (ls : list layer) (x : list R) : list R := fold_left (fun x l => layer_predict l x) ls x.
(** Used by [decode_future], INN.py:198-201. *)
Fixpoint module_invert (ls : list layer) (y : list R) : option (list R) :=
  match ls with
  | [] => Some y
  | l :: ls' => match module_invert ls' y with Some z => layer_invert l z | None => None end
  end.

(** Used by [decode_future], INN.py:198-201. *)
Definition last_of {A} (n : nat) (l : list A) : list A := skipn (length l - n) l.
(** INN.py:198-201: the embedding of the row, without its first [n] entries, followed by the predicted
    embedding of the future, is inverted and its last [n] entries are the forecast ([n] = len e_hat). *)
Definition decode_future (ls : list layer) (x e_hat : list R) : option (list R) :=
  option_map (last_of (length e_hat)) (module_invert ls (skipn (length e_hat) (module_predict ls x) ++ e_hat)).
(** Used by [mean_square], INN.py:39-50. *)
Definition square (v : R) : R := v * v.
(** Used by [full_loss], INN.py:39-50. *)
Definition mean_square (a b : list R) : R := rsum (fun i => square (nth i a 0 - nth i b 0)) (length a) / INR (length a).
(** full_end_to_end_loss_fn INN.py:39-50 (one row) *)
Definition full_loss (ls : list layer) (predictor : list R -> list R) (x target : list R) : option R :=
  option_map (mean_square target) (decode_future ls x (predictor x)).
(** quasi_end_to_end_loss_fn INN.py:23-36 (one row): error between the embeddings, as a numerator of the skill score. *)
Definition quasi_error (ls : list layer) (predictor : list R -> list R) (x target : list R) : R :=
  mean_square (last_of (length target) (module_predict ls (skipn (length target) x ++ target))) (predictor x).
