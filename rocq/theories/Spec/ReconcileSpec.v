(** Vocabulary of hierarchical reconciliation. *)
From mathcomp Require Import all_ssreflect all_algebra.
Set Implicit Arguments.
Unset Strict Implicit.
Unset Printing Implicit Defensive.
Import GRing.Theory Num.Theory.
Local Open Scope ring_scope.

(** A hierarchy lists aggregates with their members; a member that is no aggregate is a
    leaf. [leaf_below h a b]: following members downwards from [a] reaches the leaf [b]. *)
Definition is_aggregate {N : eqType} (h : seq (N * seq N)) (a : N) : Prop := exists l, (a, l) \in h.
Inductive leaf_below {N : eqType} (h : seq (N * seq N)) : N -> N -> Prop :=
| leaf_member a l b : (a, l) \in h -> b \in l -> ~ is_aggregate h b -> leaf_below h a b
| leaf_deeper a l c b : (a, l) \in h -> c \in l -> is_aggregate h c -> leaf_below h c b -> leaf_below h a b.
(** Each aggregate is listed once, has members, and is not, directly or indirectly, a member of itself. *)
Definition well_formed {N : eqType} (h : seq (N * seq N)) : Prop :=
  uniq (map fst h) /\ (forall a l, (a, l) \in h -> l <> [::]) /\
  exists rank : N -> nat, forall a l c, (a, l) \in h -> c \in l -> is_aggregate h c -> (rank c < rank a)%N.
(** Every aggregate of some nonempty group has a member in the group. *)
Definition goes_round {N : eqType} (h : seq (N * seq N)) (C : N -> Prop) : Prop :=
  forall a, C a -> is_aggregate h a /\ forall l, (a, l) \in h -> exists2 c, c \in l & C c.

(** Every aggregate is the sum of the bottom series [bs] below it. *)
Definition coherent {F : fieldType} {N : eqType} (h : seq (N * seq N)) (bs : seq N) (y : N -> F) : Prop :=
  forall a (below : pred N), is_aggregate h a -> (forall b, reflect (leaf_below h a b) (below b)) -> y a = \sum_(b <- bs | below b) y b.

Definition quadratic {F : fieldType} m (W : 'M[F]_m) (v : 'cV[F]_m) : F := (v^T *m W *m v) 0 0.
Definition positive_definite {F : realFieldType} m (W : 'M[F]_m) : Prop := W^T = W /\ forall v, v <> 0 -> 0 < quadratic W v.
(** Distance of two rows over the aggregates [ks] and the bottom series [bs], weighted by [W]. *)
Definition deviation {F : fieldType} {N : eqType} (ks bs : seq N) (W : 'M[F]_(size ks + size bs)) (y z : N -> F) : F :=
  quadratic W (\col_i (y (tnth [tuple of in_tuple ks ++ in_tuple bs] i) - z (tnth [tuple of in_tuple ks ++ in_tuple bs] i))).

(** A path of members, of the given length, from one series to another. *)
Inductive steps_down {N : eqType} (h : seq (N * seq N)) : N -> N -> nat -> Prop :=
| down_zero a : steps_down h a a 0
| down_step a b l c n : steps_down h a b n -> (b, l) \in h -> c \in l -> steps_down h a c n.+1.
(** Every series is a member once. *)
Definition one_parent {N : eqType} (h : seq (N * seq N)) : Prop := uniq (flatten (map snd h)).
