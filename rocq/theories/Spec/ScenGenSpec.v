(** Vocabulary of scenario generation. *)
From Coq Require Import List ZArith Reals Sorted.
From Verif Require Import Model.ScenGen.
Import ListNotations.
Local Open Scope R_scope.

(** Levels in increasing order, with one value each; at least two. *)
Definition quantile_curve (levels values : list R) : Prop :=
  StronglySorted Rlt levels /\ length values = length levels /\ (2 <= length levels)%nat.
Definition non_crossing (values : list R) : Prop := StronglySorted Rle values.

(** The straight line through points [i] and [i+1]. *)
Definition segment (levels values : list R) (i : nat) (x : R) : R :=
  nth i values 0 + (x - nth i levels 0) / (nth (S i) levels 0 - nth i levels 0) * (nth (S i) values 0 - nth i values 0).

(** [Q] passes through the points, is straight in between, and continues the first and
    last segments outside. *)
Definition piecewise_linear (levels values : list R) (Q : R -> R) : Prop :=
  (forall i, (i < length levels)%nat -> Q (nth i levels 0) = nth i values 0) /\
  (forall i x, (S i < length levels)%nat -> nth i levels 0 <= x <= nth (S i) levels 0 -> Q x = segment levels values i x) /\
  (forall x, x <= nth 0 levels 0 -> Q x = segment levels values 0 x) /\
  (forall x, nth (length levels - 1) levels 0 <= x -> Q x = segment levels values (length levels - 2) x).

(** Shifting a tree by a forecast: only values change, by the forecast of the node's step. *)
Definition shifted (x : list R) (t t' : tree) : Prop :=
  tr_edges t' = tr_edges t /\ length (tr_nodes t') = length (tr_nodes t) /\
  forall i n n', nth_error (tr_nodes t) i = Some n -> nth_error (tr_nodes t') i = Some n' ->
    nd_time n' = nd_time n /\ nd_prob n' = nd_prob n /\ nd_value n' = nd_value n + nth (nd_time n) x 0.
(** Rows of the same hour, and a numbering that tells them apart. *)
Definition rows_of_hour (hours : list Z) (h : Z) : nat := length (filter (Z.eqb h) hours).
Definition numbers_rows (hours : list Z) (rank : nat -> nat) : Prop :=
  forall i, (i < length hours)%nat ->
    (rank i < rows_of_hour hours (nth i hours 0%Z))%nat /\
    forall i', (i' < length hours)%nat -> nth i hours 0%Z = nth i' hours 0%Z -> rank i = rank i' -> i = i'.

(** The forecasts a tree is shifted by: the row itself, preceded by the value of the
    root when there is an additional node. *)
Definition tree_signal (additional : bool) (init : option (list R)) (k : nat) (x : list R) : list R :=
  if additional then match init with Some l => nth k l 0 | None => nth 0 x 0 end :: x else x.

(** The tree object kept for an hour of the day. *)
Definition stored_tree (h : heap) (stored : list (Z * nat)) (hour : Z) (t : tree) : Prop :=
  exists a, find (fun p => Z.eqb (fst p) hour) stored = Some (hour, a) /\ nth_error h a = Some t.
