(** Model of the scores (metrics.py). A frame is its dimensions and its cells, NaN is
    [None]; row and column labels play no role except through [agg_index], whose labels
    are integers. Exact arithmetic. *)
From Coq Require Import List ZArith Bool Arith Reals.
From Verif Require Import Model.Series Model.Subsample Model.Stats Model.Quantiles.
Import ListNotations.
Local Open Scope R_scope.

(** Used by [transpose], metrics.py:22-25, 33-36, 45-48. *)
Record frame := Frame { f_rows : nat; f_cols : nat; f_at : nat -> nat -> option R }.
(** Used by [aggregate], metrics.py:22-25, 33-36, 45-48. *)
Definition transpose (f : frame) : frame := Frame (f_cols f) (f_rows f) (fun i j => f_at f j i).

(** Used by [err], metrics.py:10-15. *)
Definition lift2 (f : R -> R -> R) (a b : option R) : option R :=
  match a, b with Some x, Some y => Some (f x y) | _, _ => None end.
(** Used by [nanmean], metrics.py:22-25, 33-36, 45-48. *)
Definition Rsum (l : list R) : R := fold_right Rplus 0 l.
(** Used by [nanmean], metrics.py:22-25, 33-36, 45-48. *)
Definition present_values (l : list (option R)) : list R :=
  flat_map (fun o => match o with Some v => [v] | None => [] end) l.
(** pandas [mean]: missing values are skipped, NaN when nothing is left.
    Used by [group_mean], metrics.py:22-25, 33-36, 45-48. *)
Definition nanmean (l : list (option R)) : option R :=
  match present_values l with
  | [] => None
  | v => Some (Rsum v / INR (length v))
  end.

(** A grouped frame: one row per label, in increasing order. Used by [group_mean], metrics.py:22-25, 33-36, 45-48. *)
Definition table := list (Z * list (option R)).
(** Used by [group_mean], metrics.py:22-25, 33-36, 45-48. *)
Definition group_rows (labels : list Z) (g : Z) : list nat :=
  filter (fun i => Z.eqb (nth i labels 0%Z) g) (seq 0 (length labels)).
(** Used by [aggregate], metrics.py:22-25, 33-36, 45-48. *)
Definition group_mean (labels : list Z) (f : frame) : table :=
  map (fun g => (g, map (fun j => nanmean (map (fun i => f_at f i j) (group_rows labels g))) (seq 0 (f_cols f))))
      (unique_hours labels).
(** Used by [rmse], metrics.py:18-26. *)
Definition map_table (f : R -> R) (t : table) : table :=
  map (fun r => (fst r, map (option_map f) (snd r))) t.

(** metrics.py:6-7. *)
Definition chose_axis (n : nat) (agg : list Z) : nat := if (n =? length agg)%nat then 0%nat else 1%nat.

(** metrics.py:22-25, 33-36, 45-48: [res.groupby(agg_index).mean()] or
    [res.T.groupby(agg_index).mean()]; [None] = ValueError, grouper of the wrong length. *)
Definition aggregate (n : nat) (agg : list Z) (res : frame) : option table :=
  if (chose_axis n agg =? 0)%nat then Some (group_mean agg res)
  else if (length agg =? f_cols res)%nat then Some (group_mean agg (transpose res)) else None.
(** [np.ones_like(x.index)]. Used by [rmse], metrics.py:18-26. *)
Definition agg_or_ones (n : nat) (agg : option (list Z)) : list Z :=
  match agg with Some a => a | None => repeat 1%Z n end.

(** metrics.py:10-15. *)
Definition err (x t : frame) : frame := Frame (f_rows x) (f_cols x) (fun i j => lift2 Rminus (f_at x i j) (f_at t i j)).
(** Used by [rmse], metrics.py:18-26. *)
Definition squerr (x t : frame) : frame :=
  Frame (f_rows x) (f_cols x) (fun i j => option_map (fun e => e * e) (f_at (err x t) i j)).

(** metrics.py:18-26. *)
Definition rmse (x t : frame) (agg : option (list Z)) : option table :=
  option_map (map_table sqrt) (aggregate (f_rows x) (agg_or_ones (f_rows x) agg) (squerr x t)).

(** metrics.py:29-37. *)
Definition mape (x t : frame) (agg : option (list Z)) : option table :=
  aggregate (f_rows x) (agg_or_ones (f_rows x) agg)
    (Frame (f_rows x) (f_cols x) (fun i j =>
       option_map Rabs (lift2 (fun e b => e / (Rabs b + 1 / 100000)) (f_at (err x t) i j) (f_at t i j)))).

(** metrics.py:40-49. [t.abs().mean(axis=1)]. *)
Definition row_level (t : frame) (i : nat) : option R :=
  nanmean (map (fun j => option_map Rabs (f_at t i j)) (seq 0 (f_cols t))).
(** With [row_level], metrics.py:40-49. *)
Definition tiny : R := / 1000000000000.
(** With [tiny], metrics.py:40-49. *)
Definition nmae_offset (t : frame) (inter : bool) : option R :=
  if inter then
    match present_values (map (row_level t) (seq 0 (f_rows t))) with
    | [] => None
    | l => Some (quantile l (1 / 2) * (1 / 100) + tiny)
    end
  else Some tiny.
(** With [nmae_offset], metrics.py:40-49. *)
Definition nmae (x t : frame) (agg : option (list Z)) (inter : bool) : option table :=
  aggregate (f_rows x) (agg_or_ones (f_rows x) agg)
    (Frame (f_rows x) (f_cols x) (fun i j =>
       option_map Rabs (lift2 Rdiv (f_at (err x t) i j) (lift2 Rplus (row_level t i) (nmae_offset t inter))))).

(** Three-dimensional arrays of quantile forecasts. Used by [level_error], metrics.py:70-73. *)
Record array3 := Array3 { a_dim0 : nat; a_dim1 : nat; a_dim2 : nat; a_at : nat -> nat -> nat -> R }.

(** metrics.py:70-73: [err_alpha] of level number [a]. *)
Definition level_error (q : array3) (t : frame) (a i j : nat) : option R :=
  let v := if (a_dim1 q =? f_cols t)%nat then a_at q i j a else a_at q i a j in
  option_map (fun b => v - b) (f_at t i j).
(** metrics.py:74-75: comparisons with NaN are false. *)
Definition indicator (e : option R) : R := match e with Some v => if Rltb 0 v then 1 else 0 | None => 0 end.

(** metrics.py:52-90 for given levels: a (score, reliability) pair per level. [None] =
    IndexError (more levels than quantiles) or a grouper of the wrong length. *)
Definition n_quantiles (q : array3) (t : frame) : nat :=
  if (a_dim1 q =? f_cols t)%nat then a_dim2 q else a_dim1 q.
(** Used by [quantile_scores], metrics.py:103-111. *)
Definition level_scores (q : array3) (t : frame) (agg : list Z) (a : nat) (alpha : R) : option (table * table) :=
  let score := aggregate (f_rows t) agg (Frame (f_rows t) (f_cols t) (fun i j =>
                 option_map (fun e => (indicator (level_error q t a i j) - alpha) * e) (level_error q t a i j))) in
  let rel := aggregate (f_rows t) agg (Frame (f_rows t) (f_cols t) (fun i j =>
                 Some (indicator (level_error q t a i j)))) in
  match score, rel with Some s, Some r => Some (s, r) | _, _ => None end.
(** Used by [reliability], metrics.py:103-111. *)
Definition quantile_scores (q : array3) (t : frame) (alphas : list R) (agg : option (list Z))
  : option (list (R * (table * table))) :=
  if (n_quantiles q t <? length alphas)%nat then None
  else
    all_some (map (fun k => option_map (pair (nth k alphas 0))
                              (level_scores q t (agg_or_ones (f_rows t) agg) k (nth k alphas 0)))
                  (seq 0 (length alphas))).

(** metrics.py:93-100: mean over the levels, per column. *)
Definition entry (t : table) (g : Z) (j : nat) : option R :=
  match find (fun r => Z.eqb (fst r) g) t with Some r => nth j (snd r) None | None => None end.
(** With [entry], metrics.py:93-100. *)
Definition crps (q : array3) (t : frame) (alphas : list R) (agg : option (list Z)) : option table :=
  option_map (fun l =>
      match l with
      | [] => []
      | (_, (s0, _)) :: _ =>
          map (fun r => (fst r, map (fun j => nanmean (map (fun p => entry (fst (snd p)) (fst r) j) l))
                                    (seq 0 (length (snd r))))) s0
      end)
    (quantile_scores q t alphas agg).

(** metrics.py:103-111; per level, with [get_score] the level is subtracted. *)
Definition reliability (q : array3) (t : frame) (alphas : list R) (agg : option (list Z)) (get_score : bool)
  : option (list (R * table)) :=
  option_map (map (fun p => (fst p, if get_score then map_table (fun v => v - fst p) (snd (snd p)) else snd (snd p))))
    (quantile_scores q t alphas agg).

(** metrics.py:115-138: one group over the horizon, then the mean of the column means. *)
Definition scorer_value (metric : option (list Z) -> option table) (cols : nat) : option R :=
  match metric (Some (repeat 0%Z cols)) with
  | None => None
  | Some tbl =>
      let width := match tbl with [] => 0%nat | r :: _ => length (snd r) end in
      nanmean (map (fun j => nanmean (map (fun r => nth j (snd r) None) tbl)) (seq 0 width))
  end.
