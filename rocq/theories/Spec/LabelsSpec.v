(** Vocabulary for the claims on the labels of quantile frames. *)
From Coq Require Import List.
From Verif Require Import Model.Names Model.Labels.
Import ListNotations.

(** The columns of a quantile frame belong to the point forecast with columns
    [points]: the first level lists its labels in its order, and below each
    label stand the levels in their order; column [i * #levels + j] is target
    [i] at level [j]. *)
Definition belongs_to {Q} (columns : list (label * Q)) (points : list label) (levels : list Q) : Prop :=
  length columns = length points * length levels /\
  forall i j p q, nth_error points i = Some p -> nth_error levels j = Some q ->
    nth_error columns (i * length levels + j) = Some (p, q).

(** No label of the frame is a label of the point forecast. *)
Definition no_common_label {Q} (columns : list (label * Q)) (points : list label) : Prop :=
  forall l q, In (l, q) columns -> ~ In l points.
