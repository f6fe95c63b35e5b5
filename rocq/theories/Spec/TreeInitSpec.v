(** Vocabulary: how the scenarios of a node are shared among its children. *)
From Coq Require Import List Reals.
From Verif Require Import Model.Stats.
Import ListNotations.
Local Open Scope R_scope.

(** Values of the scenarios [f] at one step. *)
Definition values_of (row : list R) (f : list nat) : list R := map (fun c => nth c row 0) f.
(** The [i]-th of the [m] + 1 boundaries between the cells of [m] children: minimum, quantiles, maximum. *)
Definition boundary (row : list R) (f : list nat) (m i : nat) : R := quantile (values_of row f) (INR i / INR m).
(** Scenario [c] is in the [i]-th cell; cells overlap by a millionth. *)
Definition in_cell (row : list R) (f : list nat) (m i c : nat) : Prop :=
  boundary row f m i - 1 / 1000000 < nth c row 0 <= boundary row f m (S i).
(** Those of [f] in the cell; all of [f] if there are none. *)
Definition share (row : list R) (f : list nat) (m i : nat) (f' : list nat) : Prop :=
  ((exists c, In c f /\ in_cell row f m i c) /\ forall c, In c f' <-> In c f /\ in_cell row f m i c) \/
  ((forall c, In c f -> ~ in_cell row f m i c) /\ f' = f).
