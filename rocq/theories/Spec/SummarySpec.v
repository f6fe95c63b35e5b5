(** Vocabulary of the grouped scores. *)
From Coq Require Import List ZArith Reals.
From Verif Require Import Model.Metrics Model.Summary Spec.MetricsSpec.
Import ListNotations.
Local Open Scope R_scope.

(** The cells of a list that a mask keeps. *)
Definition kept (mask : nat -> nat -> bool) (cells : list (nat * nat)) : list (nat * nat) :=
  filter (fun c => mask (fst c) (snd c)) cells.
(** Two frames of the same size with the same values where the mask is true. *)
Definition same_where (mask : nat -> nat -> bool) (x x' : frame) : Prop :=
  f_rows x = f_rows x' /\ f_cols x = f_cols x' /\ forall i j, mask i j = true -> f_at x i j = f_at x' i j.
(** The point scores of the package. *)
Inductive point_score : (frame -> frame -> option (list Z) -> option table) -> Prop :=
| is_rmse : point_score rmse
| is_mape : point_score mape
| is_nmae inter : point_score (fun x t agg => nmae x t agg inter).

(** The number of elements with a given label. *)
Definition group_size (labels : list Z) (g : Z) : nat := count_occ Z.eq_dec labels g.
(** 64 bit integers or floats. *)
Definition standard (c : column) : Prop :=
  match c with integers _ => True | floats _ => True | _ => False end.
