(** Vocabulary of the scores. *)
From Coq Require Import List ZArith Reals Sorted.
From Verif Require Import Model.Metrics Spec.StatsSpec.
Import ListNotations.
Local Open Scope R_scope.

(** Two frames of the same size. *)
Definition same_size (x t : frame) : Prop := f_rows t = f_rows x /\ f_cols t = f_cols x.

(** The user groups rows (one label per row) or columns (one label per column); entry
    ([g], [k]) of a score then belongs to column [k] in the rows labelled [g], or to row
    [k] in the columns labelled [g]. *)
Inductive axis := over_rows | over_columns.
Definition axis_size (ax : axis) (t : frame) : nat := match ax with over_rows => f_rows t | over_columns => f_cols t end.
Definition other_size (ax : axis) (t : frame) : nat := match ax with over_rows => f_cols t | over_columns => f_rows t end.
Definition cell_of (ax : axis) (i k : nat) : nat * nat := match ax with over_rows => (i, k) | over_columns => (k, i) end.
Definition group_cells (ax : axis) (labels : list Z) (g : Z) (k : nat) : list (nat * nat) :=
  flat_map (fun i => if Z.eq_dec (nth i labels 0%Z) g then [cell_of ax i k] else []) (seq 0 (length labels)).

(** One label per row, or one per column and the number of columns tells them apart. *)
Definition grouped (ax : axis) (labels : list Z) (t : frame) : Prop :=
  length labels = axis_size ax t /\ (ax = over_columns -> f_cols t <> f_rows t).

(** The result has one row per distinct label, in increasing order. *)
Definition listed (labels rows : list Z) : Prop :=
  StronglySorted Z.lt rows /\ forall g, In g rows <-> In g labels.

(** The (forecast, observation) pairs, both present, of some cells. *)
Definition observed_pair (x t : frame) (c : nat * nat) : list (R * R) :=
  match f_at x (fst c) (snd c), f_at t (fst c) (snd c) with Some a, Some b => [(a, b)] | _, _ => [] end.
Definition pairs (x t : frame) (cells : list (nat * nat)) : list (R * R) := flat_map (observed_pair x t) cells.
Definition perfect (l : list (R * R)) : Prop := Forall (fun p => fst p = snd p) l.

Definition total (l : list R) : R := fold_right Rplus 0 l.
Definition average (l : list R) : R := total l / INR (length l).

(** [v] is the root mean square difference / the mean of [f] (NaN for no data). *)
Definition root_mean_square (l : list (R * R)) (v : option R) : Prop :=
  match v with
  | None => l = []
  | Some v => l <> [] /\ 0 <= v /\ v * v * INR (length l) = total (map (fun p => (fst p - snd p) * (fst p - snd p)) l)
  end.
Definition mean_of {A} (f : A -> R) (l : list A) (v : option R) : Prop :=
  match v with
  | None => l = []
  | Some v => l <> [] /\ v * INR (length l) = total (map f l)
  end.

(** mape. *)
Definition percentage_error (p : R * R) : R := Rabs (fst p - snd p) / (Rabs (snd p) + 1 / 10 ^ 5).

(** Normalisation of nmae: mean absolute observation of the row, plus an offset. *)
Definition row_observations (t : frame) (i : nat) : list R :=
  flat_map (fun j => match f_at t i j with Some b => [Rabs b] | None => [] end) (seq 0 (f_cols t)).
Definition row_averages (t : frame) : list R :=
  flat_map (fun i => match row_observations t i with [] => [] | l => [average l] end) (seq 0 (f_rows t)).
Definition nmae_offset_spec (t : frame) (inter : bool) (off : R) : Prop :=
  if inter then exists s Q, sorted_copy (row_averages t) s /\ interpolates s Q /\ off = Q (1 / 2) / 100 + 1 / 10 ^ 12
  else off = 1 / 10 ^ 12.
(** Pairs with the weight of their row. *)
Definition weighted_pairs (w : nat -> R) (x t : frame) (cells : list (nat * nat)) : list (R * (R * R)) :=
  flat_map (fun c => map (pair (w (fst c))) (observed_pair x t c)) cells.
Definition relative_error (p : R * (R * R)) : R := Rabs (fst (snd p) - snd (snd p)) / fst p.

(** The forecast of level number [k] for row [i] and target [j], in the two accepted
    layouts (rows, targets, levels) and (rows, levels, targets). *)
Definition laid_out (q : array3) (t : frame) (levels : nat) (forecast : nat -> nat -> nat -> R) : Prop :=
  (a_dim1 q = f_cols t /\ a_dim2 q = levels /\ forall k i j, forecast k i j = a_at q i j k) \/
  (a_dim1 q = levels /\ a_dim2 q = f_cols t /\ levels <> f_cols t /\ forall k i j, forecast k i j = a_at q i k j).

(** Observations of some cells with the forecasts made for them. *)
Definition level_pairs (forecast : nat -> nat -> R) (t : frame) (cells : list (nat * nat)) : list (R * R) :=
  flat_map (fun c => match f_at t (fst c) (snd c) with Some b => [(forecast (fst c) (snd c), b)] | None => [] end) cells.
(** The pinball loss of forecasting [q] when [y] happens. *)
Definition pinball (alpha : R) (p : R * R) : R :=
  let (q, y) := p in Rmax ((1 - alpha) * (q - y)) (alpha * (y - q)).

(** [c] is a quantile of level [alpha] of the data. *)
Definition below (c : R) (l : list R) : list R := filter (fun y => if Rlt_dec y c then true else false) l.
Definition at_most (c : R) (l : list R) : list R := filter (fun y => if Rle_dec y c then true else false) l.
Definition empirical_quantile (l : list R) (alpha c : R) : Prop :=
  INR (length (below c l)) <= alpha * INR (length l) <= INR (length (at_most c l)).

(** Fraction of observations strictly below their forecast. *)
Definition exceeded (l : list (R * R)) : list (R * R) :=
  filter (fun p => if Rlt_dec (snd p) (fst p) then true else false) l.
Definition fraction_below (l : list (R * R)) (v : R) : Prop :=
  l <> [] /\ v = INR (length (exceeded l)) / INR (length l).
Definition all_observed (t : frame) (cells : list (nat * nat)) : Prop :=
  Forall (fun c => f_at t (fst c) (snd c) <> None) cells.

(** All cells of a column. *)
Definition column_cells (x : frame) (k : nat) : list (nat * nat) := map (fun i => (i, k)) (seq 0 (f_rows x)).
(** Without labels: one row, labelled 1, with an entry for each column. *)
Definition one_row (x : frame) (r : option table) (entries : nat -> option R -> Prop) : Prop :=
  exists row, r = Some [(1%Z, row)] /\ length row = f_cols x /\ forall k, (k < f_cols x)%nat -> entries k (nth k row None).
