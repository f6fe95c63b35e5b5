(** Vocabulary for the widths and options of the convex networks. *)
From Coq Require Import List Arith Bool Reals.
From Verif Require Import Model.PicnnShape.

(** Two widths that can meet in an element-wise operation. *)
Definition compatible (a b : nat) : Prop := a = b \/ a = 1 \/ b = 1.
(** No bounds, or both of them, each a number or one per output. *)
Definition proper_bounds (lo hi : bound) (out : nat) : Prop :=
  (lo = Unset /\ hi = Unset) \/ ((lo = Scalar \/ lo = Vector out) /\ (hi = Scalar \/ hi = Vector out)).
(** The networks whose forecasts are made by one convex module. *)
Definition plain (k : network) : Prop := k = Convex \/ k = SigmoidConvex \/ k = RecStable.
