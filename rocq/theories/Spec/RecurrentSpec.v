(** Vocabulary of the recurrent networks. *)
From Coq Require Import List Arith Reals.
From Verif Require Import Model.FeedForward Model.Recurrent Spec.FeedForwardSpec.
Import ListNotations.
Local Open Scope R_scope.

(** The logistic curve. *)
Definition logistic (v : R) : R := exp v / (exp v + 1).
(** What drives a gate: its inputs and the outputs of the previous time, weighted, and its bias. *)
Definition driven (g : gate) (x h : list R) : R := weighted (g_in g) x + weighted (g_back g) h + g_bias g.
(** [c t j] and [h t j] are the memory and the output of unit [j] after [t] times, of a layer of [n] units that starts empty
    and reads [x 0], [x 1], ... *)
Definition layer_values (p : list neuron) (n times : nat) (x : nat -> list R) (c h : nat -> nat -> R) : Prop :=
  (forall j, (j < n)%nat -> c O j = 0 /\ h O j = 0) /\
  forall t j u, (t < times)%nat -> nth_error p j = Some u ->
    let prev := map (h t) (seq 0 n) in
    c (S t) j = logistic (driven (n_forget u) (x t) prev) * c t j + logistic (driven (n_input u) (x t) prev) * tanh (driven (n_cand u) (x t) prev) /\
    h (S t) j = logistic (driven (n_output u) (x t) prev) * tanh (c (S t) j).
(** The outputs of a layer of [n] units after [t] times. *)
Definition outputs (n : nat) (h : nat -> nat -> R) (t : nat) : list R := map (h t) (seq 0 n).
(** What layer [l] reads at time [t]: the [t]-th value of the row, or the outputs of the layer below at that time. *)
Definition reads (sizes : list nat) (row : list R) (h : nat -> nat -> nat -> R) (l t : nat) : list R :=
  match l with O => [nth t row 0] | S k => outputs (nth k sizes O) (h k) (S t) end.
(** Sum of absolute values. *)
Definition weight (w : list R) : R := fold_right Rplus 0 (map Rabs w).
(** A network that accepts windows of [history] values with [d] further columns. *)
Definition accepts (history horizon d : nat) (k : keras) : Prop :=
  forall w e, length w = history -> length e = d -> network history horizon k (w, e) <> None.
(** Its forecast of a sample. *)
Definition forecast (history horizon : nat) (k : keras) (s : list R * list R) : list R :=
  match network history horizon k s with Some z => z | None => [] end.
