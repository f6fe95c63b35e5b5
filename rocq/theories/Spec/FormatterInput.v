(** Histories of calls and requests for the formatter properties. *)
From Coq Require Import List ZArith Bool Ascii.
From Verif Require Import Model.Names Model.Series Model.Transformer Model.Formatter Spec.FormatterSpec.
Import ListNotations.
Local Open Scope Z_scope.

(** A history of calls [add_target_normalizer(targets, lags, name)] on a new formatter. *)
Definition registrations := list (list text * lag_arg * text).
Definition run_registry (calls : registrations) : list (text * text) :=
  fold_left (fun reg c => fst (add_normalizer reg (fst (fst c)) (snd (fst c)) (snd c))) calls [].

(** A history of calls of [add_time_features] (number of columns and index of each frame). *)
Definition run_time (calls : list (nat * list stamp)) (st : option bool) : option bool :=
  fold_left (fun st c => fst (add_time_features st (fst c) (snd c))) calls st.

(** When [prune_dataset_at_stepahead] keeps the feature described by [m], the target
    window being [t_start, t_end]. Delays count from the feature to the target. *)
Definition aligned (method : prune_method) (t_start t_end : Z) (m : meta) : Prop :=
  match method with
  | Periodic p tol => late_by_at_most p tol t_start (m_start m) \/ late_by_at_most p tol t_end (m_end m)
  | UpTo => m_end m <= t_end
  | KeepAll => True
  end.
Definition recent_lag (n : Z) (m : meta) : Prop := exists l, m_lag m = Some l /\ 0 <= l < n.
Definition kept_by_code (method : prune_method) (n_lags ns t_start t_end : Z) (m : meta) : Prop :=
  aligned method t_start t_end m \/ recent_lag n_lags m \/ (0 < ns /\ m_end m <= ns /\ m_end m <= t_end).

(** What the arguments promise: alignment up to the tolerance on either side, and
    only features that end within the last [ns] nanoseconds. *)
Definition within (period tol a b : Z) : Prop := exists k, Z.abs (a - b - k * period) <= tol.
Definition aligned_promised (method : prune_method) (t_start t_end : Z) (m : meta) : Prop :=
  match method with
  | Periodic p tol => within p tol t_start (m_start m) \/ within p tol t_end (m_end m)
  | UpTo => m_end m <= t_end
  | KeepAll => True
  end.
Definition kept_as_promised (method : prune_method) (n_lags ns t_start t_end : Z) (m : meta) : Prop :=
  aligned_promised method t_start t_end m \/ recent_lag n_lags m \/
  (0 < ns /\ - ns <= m_end m <= t_end).
