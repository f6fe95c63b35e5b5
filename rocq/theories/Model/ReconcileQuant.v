(** Model of the quantiles of reconciled forecasts (reconciliation/reconciliation.py:103-126,
    223-233) and of the kind of object [predict_quantiles] returns (forecaster.py:248-256). *)
From Coq Require Import List Bool Arith Reals.
From Verif Require Import Model.Stats Model.ReconcileScen.
Import ListNotations.

Section Quant.
Context {N : Type}.
(** Quantiles for every row: an array, or a frame with labelled columns.
    Used by [base_predict_quantiles], forecaster.py:248-256. *)
Inductive q_object := QArray (at_ : nat -> nat -> nat -> R) | QFrame (at_ : nat -> nat -> nat -> R).
(** forecaster.py:248-256; the conversions keep the numbers (C20). *)
Definition base_predict_quantiles (dataframe : bool) (q : q_object) : q_object :=
  match q, dataframe with
  | QArray f, true => QFrame f
  | QFrame f, false => QArray f
  | _, _ => q
  end.
(** utilities.py:8-12 indexes three axes; a frame has two. [None] = IndexError. *)
Definition to_multiindex (q : q_object) : option (nat -> nat -> nat -> R) :=
  match q with QArray f => Some f | QFrame _ => None end.
(** reconciliation.py:103-126: quantiles of the base forecasts of a series. *)
Definition vanilla_quantiles (own : N -> q_object) (c : N) : option (nat -> nat -> nat -> R) :=
  to_multiindex (base_predict_quantiles true (own c)).

(** reconciliation.py:229-231: quantiles over the scenarios, for every row, series and step. *)
Definition scenario_quantiles (q_vect : list R) (scens : list (nat * list (N -> nat -> R))) : list (nat * (N -> nat -> list R)) :=
  map (fun p => (fst p, fun c s => map (quantile (map (fun v => v c s) (snd p))) q_vect)) scens.
(** With [scenario_quantiles], reconciliation.py:229-231. *)
Definition reconciled_quantiles (q_vect : list R) (train_hours : list nat) (errs y_tilde : list (N -> nat -> R)) (n_scen : nat)
    (draw : nat -> nat -> nat -> nat) : option (list (nat * (N -> nat -> list R))) :=
  option_map (scenario_quantiles q_vect)
    (predict_scenarios (fun a b c s => (a c s + b c s)%R) train_hours errs y_tilde n_scen draw (fun _ _ => 0%R)).
End Quant.
