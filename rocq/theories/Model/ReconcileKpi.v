(** Model of the scores by level of the hierarchy (reconciliation/reconciliation.py:373-386, 41-59, 128-134) for one step ahead.
    A metric is a function of the forecasts and of the observations of one series. *)
From mathcomp Require Import all_ssreflect all_algebra.
From Verif Require Import Model.Hierarchy.
Set Implicit Arguments.
Unset Strict Implicit.
Unset Printing Implicit Defensive.
Import GRing.Theory.
Local Open Scope ring_scope.

Section Kpi.
Context {F : fieldType} {N : eqType} {P Y : Type}.
(** reconciliation.py:373, metrics.py:18-90: score of one series. *)
Context (metric : P -> Y -> F).
(** reconciliation.py:128-134: columns of the matrix of targets. *)
Definition target_columns (h : hierarchy N) (names : seq N) : seq N := aggregates h ++ bottoms h (first_seen names).
(** Point forecasts stay a frame (utilities.py:15-16); the difference of two frames pairs columns by name, metrics.py:10-11,
    reconciliation.py:378-380. *)
Definition frame_scores (cols : seq N) (hat : N -> P) (y : N -> Y) : seq (N * F) := [seq (c, metric (hat c) (y c)) | c <- cols].
(** Quantile forecasts become an array (utilities.py:17-19); scores pair columns by position and take the names of the targets,
    metrics.py:70-90, reconciliation.py:378-380. *)
Definition array_scores (hat_cols cols : seq N) (hat : N -> P) (y : N -> Y) : seq (N * F) :=
  [seq (p.2, metric (hat p.1) (y p.2)) | p <- zip hat_cols cols].
(** reconciliation.py:384-386: mean of the scores of the series of a level; [None]: the level is not in the result. *)
Definition level_mean (levels : levels N) (scores : seq (N * F)) (l : nat) : option F :=
  let s := [seq q.2 | q <- scores & level_of levels q.1 == Some l] in
  if s is [::] then None else Some ((\sum_(v <- s) v) / (size s)%:R).
(** reconciliation.py:41-46: the levels of the hierarchy; [None]: the constructor or the search fails. *)
Definition hierarchy_levels (h : hierarchy N) : option (levels N) :=
  if unroll_dict h is Some flat then if root_of h flat is Some r then explore (size h) h r 0 else None else None.
(** The kind of forecasts scored: reconciliation.py:373-386. *)
Inductive forecast_kind := Points | Quantiles.
(** reconciliation.py:373-386. [leN] is the order of the names: predict_quantiles groups the scenarios by name, which sorts the
    names (reconciliation.py:230). [None]: an exception. *)
Definition compute_kpis (leN : rel N) (kind : forecast_kind) (h : hierarchy N) (names : seq N) (hat : N -> P) (y : N -> Y)
  : option (nat -> option F) :=
  let cols := target_columns h names in
  if hierarchy_levels h is Some ls then
    Some (level_mean ls (match kind with Points => frame_scores cols hat y | Quantiles => array_scores (sort leN cols) cols hat y end))
  else None.
End Kpi.
