(** Model of fast_adaptive_models.py: the weights of FK_multi. *)
From Coq Require Import Reals List Arith.
From Verif Require Import Model.FourierEs.
Import ListNotations.
Local Open Scope R_scope.

(** Used by [weights], fast_adaptive_models.py:561. *)
Definition add_up (l : list R) : R := fold_right Rplus 0 l.
(** fast_adaptive_models.py:561 (for a coefficient vector): absolute values divided by their sum; [None] = NaN. *)
Definition weights (c : list R) : option (list R) :=
  let s := add_up (map Rabs c) in if Req_EM_T s 0 then None else Some (map (fun x => Rabs (x / s)) c).
(** fast_adaptive_models.py:562: forecasts (steps x experts) times weights. *)
Definition combine_experts (preds : list (list R)) (w : list R) : list R :=
  map (fun row => add_up (map (fun ab => fst ab * snd ab) (combine row w))) preds.
(** fast_adaptive_models.py:545-547: [preds t h e] is expert e's forecast at row t, step h (0-based, i.e. of row t+1+h);
    errors at row i. *)
Definition expert_error (n_sa : nat) (preds : nat -> nat -> nat -> R) (y : nat -> R) (i e : nat) : R :=
  add_up (map (fun sa => Rabs (preds (i - sa)%nat sa e - y i)) (seq 0 n_sa)) / INR n_sa.
(** fast_adaptive_models.py:548-549: normalised by their mean, then softmax; [None] = 0/0. *)
Definition expert_coeffs (n_sa n_experts : nat) (preds : nat -> nat -> nat -> R) (y : nat -> R) (i : nat) : option (list R) :=
  let err := map (expert_error n_sa preds y i) (seq 0 n_experts) in
  let mean := add_up err / INR n_experts in
  if Req_EM_T mean 0 then None
  else let e := map (fun v => exp (- (v / mean))) err in Some (map (fun v => v / add_up e) e).
(** fast_adaptive_models.py:525-577: the loop over rows. [kal st x z] is the Kalman step with the periodic update of its
    matrices (its memory is [st]); [None] = a vector with NaN. Forecasts of row i: [preds i h e]. *)
Definition choose {A} (a b : option A) : option A := match a with Some v => Some v | None => b end.
(** With [choose], fast_adaptive_models.py:525-577. *)
Fixpoint mix_rows {K} (kal : K -> option (list R) -> option (list R) -> K * option (list R)) (n_sa n_experts : nat)
  (preds : nat -> nat -> nat -> R) (y : nat -> R) (st : K) (x : option (list R)) (rows : list nat) : list (option (list R)) :=
  match rows with
  | [] => []
  | i :: rest =>
      let z := if (n_sa <=? i)%nat then expert_coeffs n_sa n_experts preds y i else x in
      let '(st', x') := kal st x z in
      let row := match choose x' z with
                 | Some c => option_map (combine_experts (map (fun h => map (preds i h) (seq 0 n_experts)) (seq 0 n_sa))) (weights c)
                 | None => None end in
      row :: mix_rows kal n_sa n_experts preds y st' x' rest
  end.
