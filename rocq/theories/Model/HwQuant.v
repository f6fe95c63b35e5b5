(** Model of the error distributions and quantile forecasts of the smoothing models (holtwinters.py:188-247,
    fast_adaptive_models.py:136-148, 252-254) and of the states of Holt-Winters (279-291). No missing values. *)
From Coq Require Import List ZArith Bool Arith Reals.
From Verif Require Import Model.Stats Model.Subsample Model.HoltWinters.
Import ListNotations.
Local Open Scope R_scope.

(** Used by [minus_table], holtwinters.py:191-211. *)
Definition table := list (list R).
(** Used by [hw_errors], holtwinters.py:191-211. *)
Definition minus_table (a b : table) : table := map2 (map2 Rminus) a b.
(** Used by [hw_errors], holtwinters.py:191-211. *)
Definition plus_table (a b : table) : table := map2 (map2 Rplus) a b.
(** np.quantile(resid, q_vect, axis=0).T: one list of quantiles per step. Used by [hw_errors], holtwinters.py:191-211. *)
Definition error_quantiles (steps : nat) (levels : list R) (resid : table) : table :=
  map (fun j => map (quantile (map (fun r => nth j r 0) resid)) levels) (seq 0 steps).
(** holtwinters.py:245-247: row by row, step by step, quantile by quantile. *)
Definition quantile_forecast (err : table) (row : list R) : table := map2 (fun p e => map (Rplus p) e) row err.

(** holtwinters.py:191-211 for a given run: [smooth] are the forecasts of the recursion for the rows with a
    target, [target] their targets; [regress] is the least squares correction, row by row (195-197). *)
Definition hw_errors (regress : table -> table) (steps : nat) (levels : list R) (smooth target : table) : table :=
  error_quantiles steps levels (minus_table target (plus_table smooth (regress (minus_table target smooth)))).
(** holtwinters.py:235-239: the correction is applied if the frame has more than one column. *)
Definition hw_corrected (columns : nat) (smooth correction : table) : table :=
  if (1 <? columns)%nat then plus_table smooth correction else smooth.
(** fast_adaptive_models.py:136-148. *)
Definition stateful_errors (steps : nat) (levels : list R) (preds target : table) : table :=
  error_quantiles steps levels (minus_table target preds).

(** The correction for one column and one step: x (x'x)^+ x' resid. holtwinters.py:199. *)
Definition regress_one (x : list R) (resid : table) : table :=
  let r := map (fun row => nth 0 row 0) resid in
  let xx := fold_right Rplus 0 (map2 Rmult x x) in
  let c := if Req_EM_T xx 0 then 0 else fold_right Rplus 0 (map2 Rmult x r) / xx in
  map (fun v => [v * c]) x.

(** holtwinters.py:280-291: the attributes, [None] before fitting. *)
Record attributes A B := Attributes { at_a : option A; at_b : option A; at_s1 : option B; at_s2 : option B }.
Arguments Attributes {A B}. Arguments at_a {A B}. Arguments at_b {A B}. Arguments at_s1 {A B}. Arguments at_s2 {A B}.
(** With [attributes], holtwinters.py:280-291. *)
Definition get_states {A B} (o : attributes A B) : attributes A B := o.
(** With [get_states], holtwinters.py:280-291. *)
Definition or_keep {V} (new old : option V) : option V := match new with Some _ => new | None => old end.
(** With [or_keep], holtwinters.py:280-291. *)
Definition set_states {A B} (o new : attributes A B) : attributes A B :=
  Attributes (or_keep (at_a new) (at_a o)) (or_keep (at_b new) (at_b o)) (or_keep (at_s1 new) (at_s1 o)) (or_keep (at_s2 new) (at_s2 o)).
