(** Model of the training of reconciled forecasts (reconciliation/reconciliation.py:86-102,
    157-203, 236-267, 291-293, 334-350): which model forecasts which series, the errors that are
    bootstrapped, and the covariance behind the weights. *)
From mathcomp Require Import all_ssreflect all_algebra.
From Verif Require Import Model.Hierarchy Model.Reconcile Model.ReconcileScen.
Set Implicit Arguments.
Unset Strict Implicit.
Unset Printing Implicit Defensive.
Import GRing.Theory.

(** * Models *)
Section Models.
Context {N : eqType} {X M P : Type}.
(** A row of the frame in global form: the name of its series and everything else.
    Used by [fit_models], reconciliation.py:163-175. *)
Definition rows_of (c : N) (rows : seq (N * X)) : seq X := [seq r.2 | r <- rows & r.1 == c].
(** Assignment to a key of a dictionary. Used by [fit_models], reconciliation.py:163-175. *)
Definition assign (d : seq (N * M)) (k : N) (m : M) : seq (N * M) :=
  if k \in map fst d then [seq if p.1 == k then (k, m) else p | p <- d] else d ++ [:: (k, m)].
(** Used by [series_forecast], reconciliation.py:86-102. *)
Definition fetch (d : seq (N * M)) (k : N) : option M :=
  if [seq p.2 | p <- d & p.1 == k] is m :: _ then Some m else None.
(** reconciliation.py:163-175. [bottom] is the key of the model of the bottom series, the
    string 'bottom'; [train] fits a model to rows. *)
Definition fit_models (train : seq X -> M) (bottom : N) (h : hierarchy N) (rows : seq (N * X)) : seq (N * M) :=
  let d := foldl (fun d k => assign d k (train (rows_of k rows))) [::] (aggregates h) in
  assign d bottom (train [seq r.2 | r <- rows & r.1 \in bottoms h (first_seen (map fst rows))]).
(** reconciliation.py:86-102: the forecasts of a series; [None] = KeyError. *)
Definition series_forecast (predict : M -> X -> P) (bottom : N) (h : hierarchy N) (models : seq (N * M)) (rows : seq (N * X)) (c : N)
  : option (seq P) :=
  if fetch models (if c \in aggregates h then c else bottom) is Some m then Some (map (predict m) (rows_of c rows)) else None.
End Models.

Local Open Scope ring_scope.
(** * Errors and scenarios *)
Section Scenarios.
Context {F : fieldType} {N : eqType}.
(** A row: a value for every series and step. Used by [plus], reconciliation.py:245-267. *)
Definition wide := N -> nat -> F.
(** Used by [scenarios], reconciliation.py:252-267. *)
Definition plus (a b : wide) : wide := fun c s => a c s + b c s.
(** reconciliation.py:198-202: errors after reconciliation. *)
Definition errs_tilde (y y_tilde : seq wide) : seq wide := [seq (fun c s => p.1 c s - p.2 c s) | p <- zip y y_tilde].
(** reconciliation.py:245-267; [y_hat] = base forecasts, [y_tilde] = reconciled ones. *)
Inductive scen_method := VanillaScen | ReconciledScen.
(** reconciliation.py:252-267. *)
Definition scenarios (m : scen_method) (train_hours : seq nat) (errs : seq wide) (y_hat y_tilde : seq wide) (n_scen : nat)
    (draw : nat -> nat -> nat -> nat) : option (seq (nat * seq wide)) :=
  predict_scenarios plus train_hours errs (if m is VanillaScen then y_hat else y_tilde) n_scen draw (fun _ _ => 0).
End Scenarios.

(** * Covariance *)
Section Covariance.
Context {F : fieldType}.
(** scikit-learn's empirical covariance of [n] rows of errors of [p] series.
    Used by [emp_cov], reconciliation.py:343-344. *)
Definition centred n p (E : 'M[F]_(n, p)) : 'M[F]_(n, p) := \matrix_(i, j) (E i j - (\sum_k E k j) / n%:R).
(** Used by [shrunk_cov], reconciliation.py:343-344. *)
Definition emp_cov n p (E : 'M[F]_(n, p)) : 'M[F]_p := n%:R^-1 *: ((centred E)^T *m centred E).
(** reconciliation.py:343-344: [ShrunkCovariance] with its default shrinkage, a tenth. *)
Definition shrunk_cov n p (E : 'M[F]_(n, p)) : 'M[F]_p :=
  (9%:R / 10%:R) *: emp_cov E + (1 / 10%:R * (\tr (emp_cov E) / p%:R)) *: 1%:M.
(** reconciliation.py:292-293; [pinv] is the pseudo-inverse that gives [precision_]. *)
Definition mint_weights m n k (pinv : 'M[F]_m -> 'M[F]_m) (S : 'M[F]_(m, n)) (E : 'M[F]_(k, m)) : option 'M[F]_(n, m) :=
  p_matrix S (pinv (shrunk_cov E)).
End Covariance.
