(** Model of forecast reconciliation (reconciliation/reconciliation.py). Numbers are taken
    from an arbitrary field; one row of a frame is a function from column names. *)
From mathcomp Require Import all_ssreflect all_algebra.
From Verif Require Import Model.Hierarchy.
Set Implicit Arguments.
Unset Strict Implicit.
Unset Printing Implicit Defensive.
Import GRing.Theory.
Local Open Scope ring_scope.

Section Reconcile.
Context {F : fieldType} {N : eqType}.

(** reconciliation.py:326, 330-331: the rows follow [hierarchy_flatten], the columns the bottom
    series. *)
Definition a_matrix (ks bs : seq N) (flat : seq (seq N)) : 'M[F]_(size ks, size bs) :=
  \matrix_(i, j) (tnth (in_tuple bs) j \in nth [::] flat i)%:R.
(** With [a_matrix], reconciliation.py:326, 330-331. *)
Definition s_matrix (ks bs : seq N) (flat : seq (seq N)) : 'M[F]_(size ks + size bs, size bs) :=
  col_mx (a_matrix ks bs flat) 1%:M.
(** reconciliation.py:287-293: [None] = LinAlgError. 'dummy' has the identity as precision. *)
Definition p_matrix m n (S : 'M[F]_(m, n)) (precision : 'M[F]_m) : option 'M[F]_(n, m) :=
  let K := S^T *m precision *m S in
  if K \in unitmx then Some (invmx K *m (S^T *m precision)) else None.

(** reconciliation.py:276, 312: a row in the order of [ordered_cols]. *)
Definition ordered_row (ks bs : seq N) (y : N -> F) : 'cV[F]_(size ks + size bs) :=
  \col_i y (tnth [tuple of in_tuple ks ++ in_tuple bs] i).
(** reconciliation.py:310-322, methods 'dummy' and 'minT': the result gets the columns of the argument. [None]:
    KeyError or length mismatch. *)
Definition reconcile (ks bs : seq N) (S : 'M[F]_(size ks + size bs, size bs)) (P : 'M[F]_(size bs, size ks + size bs))
    (cols : seq N) (y : N -> F) : option (N -> F) :=
  if all (mem cols) (ks ++ bs) && (size cols == size ks + size bs)%N then
    let r := S *m P *m ordered_row ks bs y in
    Some (fun c => nth 0 [seq r i 0 | i <- enum 'I_(size ks + size bs)] (index c cols))
  else None.

(** reconciliation.py:186-199: one reconciliation per step ahead overwrites the previous matrix; [precisions]
    are those estimated for the steps. [None]: LinAlgError at some step. *)
Fixpoint fit_steps m n (S : 'M[F]_(m, n)) (precisions : seq 'M[F]_m) (kept : option 'M[F]_(n, m)) : option 'M[F]_(n, m) :=
  if precisions is w :: precisions' then
    if p_matrix S w is Some P then fit_steps S precisions' (Some P) else None
  else kept.
(** reconciliation.py:212-219: every step is reconciled with the matrix kept; [rows] = a row of base forecasts per step. *)
Definition predict_steps (ks bs : seq N) (S : 'M[F]_(size ks + size bs, size bs)) (kept : option 'M[F]_(size bs, size ks + size bs))
    (cols : seq N) (rows : seq (N -> F)) : seq (option (N -> F)) :=
  [seq if kept is Some P then reconcile S P cols y else None | y <- rows].

(** reconciliation.py:313-317, method 'bayes': row labels are names or, for products of arrays and frames,
    positions; sums of frames align labels (union when they differ). Only the labels are
    modelled; [None] = ValueError, the shapes of a product do not match. *)
Definition aligned (a b : seq (N + nat)) : seq (N + nat) := if a == b then a else a ++ [seq x <- b | x \notin a].
(** With [aligned], reconciliation.py:313-317. *)
Definition product_rows (n_rows n_cols : nat) (rows : seq (N + nat)) : option (seq (N + nat)) :=
  if size rows == n_cols then Some (map inr (iota 0 n_rows)) else None.
(** With [product_rows], reconciliation.py:313-317. *)
Definition bayes_rows (ks bs aggregated : seq N) : option (seq (N + nat)) :=
  if product_rows (size ks) (size bs) (map inl bs) is Some ab then
    if product_rows (size bs) (size ks) (aligned (map inl aggregated) ab) is Some gb then
      product_rows (size ks + size bs) (size bs) (aligned (map inl bs) gb)
    else None
  else None.
End Reconcile.
