(** Model of metrics.summary_scores and metrics.summary_score (metrics.py:141-188). Exact
    arithmetic; frames as in Model.Metrics, the index test (158-162) is passed. *)
From Coq Require Import List ZArith Bool Arith Reals.
From Verif Require Import Model.Series Model.Subsample Model.Stats Model.Quantiles Model.Metrics.
Import ListNotations.
Local Open Scope R_scope.

(** metrics.py:167-169: [x * mask[mask].values] keeps the cells where the mask is true, the others
    become NaN. *)
Definition masked (mask : option (nat -> nat -> bool)) (f : frame) : frame :=
  match mask with
  | None => f
  | Some m => Frame (f_rows f) (f_cols f) (fun i j => if m i j then f_at f i j else None)
  end.
(** The same product for an array of quantile forecasts: numpy aligns the mask, of [rows] rows and
    [cols] columns, with the last two dimensions; [None] = ValueError. Dimensions of size one, which
    numpy repeats, are left out. metrics.py:141-188. *)
Record cube := Cube { c_dim0 : nat; c_dim1 : nat; c_dim2 : nat; c_at : nat -> nat -> nat -> option R }.
(** metrics.py:141-188. *)
Definition masked3 (rows cols : nat) (m : nat -> nat -> bool) (q : cube) : option cube :=
  if (c_dim1 q =? rows)%nat && (c_dim2 q =? cols)%nat then
    Some (Cube (c_dim0 q) (c_dim1 q) (c_dim2 q) (fun i j k => if m j k then c_at q i j k else None))
  else None.

(** A column of [idxs]: 64 bit integers, the other listed integers (int32, int8), floats, texts
    (dtype object; texts are numbered in their order). No missing values. Used by [is_floats], metrics.py:171-176. *)
Inductive column := integers (l : list Z) | small_integers (l : list Z) | floats (l : list R) | texts (l : list Z).
(** Used by [groupings], metrics.py:171-176. *)
Definition is_floats (c : column) : bool := match c with floats _ => true | _ => false end.
(** Used by [distinct], metrics.py:173. *)
Definition distinct_numbers (l : list R) : nat := length (nodup Req_EM_T l).
(** [len(agg_indexes[k].value_counts())]. Used by [selected], metrics.py:173. *)
Definition distinct (c : column) : nat :=
  match c with
  | integers l | small_integers l | texts l => length (nodup Z.eq_dec l)
  | floats l => distinct_numbers l
  end.
(** metrics.py:173: [dtype != int and len(value_counts) >= n_quantiles]. *)
Definition selected (nq : nat) (c : column) : bool :=
  match c with integers _ => false | _ => (nq <=? distinct c)%nat end.

(** [pd.qcut(l, nq, duplicates='drop')]: bins between the quantiles at 0, 1/nq, .., 1, closed on the
    right, the first also on the left. The label, an interval, is replaced by the number of edges
    below the value (repeated edges are counted repeatedly): the groups and their order are the
    same. Used by [bin], metrics.py:171-176. *)
Definition edges (nq : nat) (l : list R) : list R := map (fun k => quantile l (INR k / INR nq)) (seq 0 (nq + 1)).
(** Used by [qcut], metrics.py:171-176. *)
Definition bin (nq : nat) (l : list R) (v : R) : Z := Z.of_nat (Nat.max 1 (count (fun e => Rltb e v) (edges nq l))).
(** [None] = TypeError (texts). Used by [groupings], metrics.py:171-176. *)
Definition qcut (nq : nat) (c : column) : option (list Z) :=
  match c with
  | integers l | small_integers l => let r := map IZR l in Some (map (bin nq r) r)
  | floats l => Some (map (bin nq l) l)
  | texts _ => None
  end.
(** The labels of a column that is left as it is; a float is replaced by its rank.
    Used by [groupings], metrics.py:171-176. *)
Definition plain (c : column) : list Z :=
  match c with
  | integers l | small_integers l | texts l => l
  | floats l => map (fun v => Z.of_nat (count (fun w => Rltb w v) l)) l
  end.
(** metrics.py:171-176: as soon as one column is not of a listed type, all the selected columns are cut. *)
Definition groupings (nq : nat) (cols : list column) : option (list (list Z)) :=
  if existsb is_floats cols then all_some (map (fun c => if selected nq c then qcut nq c else Some (plain c)) cols)
  else Some (map plain cols).

(** metrics.py:141-188 for one of the metrics: a table of scores per column of [idxs]. *)
Definition summary_scores (metric : frame -> frame -> option (list Z) -> option table) (x t : frame)
  (mask : option (nat -> nat -> bool)) (nq : nat) (cols : list column) : option (list table) :=
  match groupings nq cols with
  | None => None
  | Some gs => all_some (map (fun g => metric (masked mask x) (masked mask t) (Some g)) gs)
  end.
(** The same for a metric of quantile forecasts, with a mask of the size of [t]. metrics.py:141-188. *)
Definition summary_scores3 (metric : cube -> frame -> option (list Z) -> option table) (q : cube) (t : frame)
  (mask : option (nat -> nat -> bool)) (nq : nat) (cols : list column) : option (list table) :=
  match (match mask with None => Some q | Some m => masked3 (f_rows t) (f_cols t) m q end), groupings nq cols with
  | Some q', Some gs => all_some (map (fun g => metric q' (masked mask t) (Some g)) gs)
  | _, _ => None
  end.
