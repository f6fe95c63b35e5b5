(** Model of the [nested=False] branch of [Transformer.transform]
    (formatter.py:777-788) and of [Reducer] (formatter.py:851-864). *)
From Coq Require Import List ZArith Bool Ascii.
From Verif Require Import Model.Names Model.Series Model.Transformer.
Import ListNotations.
Local Open Scope Z_scope.

Section FlatBins.
Context {V : Type}.

(** formatter.py:748: [np.max(agg_bins) - np.min(agg_bins)]; [orig] is
    [original_agg_bins], in descending order (691). *)
Definition flat_steps (orig : list Z) : Z := nth 0 orig 0 - nth (length orig - 1) orig 0.

(** formatter.py:693: the edges [max(agg_bins) - sorted descending bins]. *)
Definition flat_edge (orig : list Z) (j : nat) : nat := Z.to_nat (nth 0 orig 0 - nth j orig 0).

(** The forward window of [m] rows starting with row [i]
    ([FixedForwardWindowIndexer], formatter.py:784), cut at the end of the series. *)
Definition forward_window (m : nat) (d : series V) (i : nat) : series V := firstn m (skipn i d).

(** Rows for which [rolling(...).apply] calls the reducer (formatter.py:785): those
    with at least [min_periods = m] observations. The others are NaN, and dropped at 787. *)
Definition kept_rows (m : nat) (d : series V) : list nat :=
  filter (fun i => Nat.leb m (observed (forward_window m d i))) (seq 0 (length d)).

(** [binned_statistic(np.arange(len(x)), x, agg_fun, bins)] for bin [j]
    (formatter.py:862): the function of the values at positions
    [edge j .. edge (j+1) - 1]. The last bin is closed on the right, but position
    [m] does not exist. The statistic is taken to be the function that pandas applies
    under the same name. *)
Definition bin_statistic (orig : list Z) (f : aggfun V) (w : series V) (j : nat) : option V :=
  fn f (firstn (flat_edge orig (S j) - flat_edge orig j) (skipn (flat_edge orig j) w)).

(** formatter.py:778-788: one column per function and bin, function outermost, on the
    kept rows only, shifted by [max(bins) - 1] of these rows. *)
Definition flat_base (orig : list Z) (fs : list (aggfun V)) (name : text) (d : series V)
  : list (text * series V) :=
  let m := Z.to_nat (flat_steps orig) in
  flat_map (fun f => map (fun j =>
      (name ++ us ++ fn_name f ++ us ++ bin_text (nth j orig 0) ++ us ++ bin_text (nth (S j) orig 0),
       shift (nth 0 orig 0 - 1)
             (map (fun i => bin_statistic orig f (forward_window m d i) j) (kept_rows m d))))
    (seq 0 (length orig - 1))) fs.

(** Position of a row in the index of the reduced frame. Used by [realign], formatter.py:810. *)
Fixpoint position (i : nat) (rows : list nat) : option nat :=
  match rows with
  | [] => None
  | r :: rest => if Nat.eqb r i then Some O else option_map S (position i rest)
  end.

(** [pd.concat([data, d], axis=1)] (formatter.py:810): rows missing from the reduced
    frame get NaN. *)
Definition realign (n : nat) (rows : list nat) (col : series V) : series V :=
  map (fun i => match position i rows with Some r => nth r col None | None => None end) (seq 0 n).

(** The new columns of one source column (formatter.py:733-810, [nested=False], with
    bins and functions). [None]: [np.vstack] of an empty list raises (786). *)
Definition flat_columns (lags : option (list Z)) (rel : bool) (orig : list Z) (fs : list (aggfun V))
    (name : text) (d : series V) : option (list (text * series V)) :=
  let rows := kept_rows (Z.to_nat (flat_steps orig)) d in
  match rows with
  | [] => None
  | _ => Some (map (fun c => (fst c, realign (length d) rows (snd c)))
                   (lagged lags (fun l => if rel then l * flat_steps orig else l)
                           (flat_base orig fs name d)))
  end.

(** Metadata of these columns (formatter.py:825-829, 835-840): the index are the
    column names; function and lag, and the times, come from products in another order. *)
Definition flat_meta (lags : option (list Z)) (rel : bool) (orig : list Z) (dt : Z)
    (fs : list (aggfun V)) (name : text) (labels : list text) : list meta :=
  let nb := (length orig - 1)%nat in
  let lag_steps := match lags with
                   | None => [0]
                   | Some ls => map (fun l => if rel then l * flat_steps orig else l) ls
                   end in
  let fnames := map fn_name fs in
  let fun_lag := list_prod fnames (flat_map (fun l => repeat l nb) lag_steps) in
  let starts := flat_map (fun _ => flat_map (fun i => map (fun l => - (dt * (nth i orig 0 + l)) + dt) lag_steps)
                                            (seq 0 nb)) fnames in
  let ends := flat_map (fun _ => flat_map (fun i => map (fun l => - (dt * (nth (S i) orig 0 + l)) + dt) lag_steps)
                                          (seq 0 nb)) fnames in
  map (fun p => let '(nm, ((f, l), (st, en))) := p in Meta nm f (Some l) st en name)
      (combine labels (combine fun_lag (combine starts ends))).

End FlatBins.
