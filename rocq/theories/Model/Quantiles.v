(** Model of the error distributions, quantile forecasts and their containers
    (forecaster.py:197-209, 233-270, 349-355, 409-415). Tables are lists of rows. *)
From Coq Require Import List ZArith Bool Arith Reals.
From Verif Require Import Model.Stats Model.Series Model.Subsample.
Import ListNotations.
Local Open Scope R_scope.

(** [np.quantile(errs, q_vect, axis=0).T]: one row per step, one entry per level.
    Used by [quantile_table], forecaster.py:197-209. *)
Definition column (errs : list (list R)) (j : nat) : list R := map (fun r => nth j r 0) errs.
(** Used by [estimate_err_distr], forecaster.py:197-209. *)
Definition quantile_table (steps : nat) (errs : list (list R)) (qs : list R) : list (list R) :=
  map (fun j => map (quantile (column errs j)) qs) (seq 0 steps).

(** [errs.loc[errs.index.hour == h, :]]. Used by [estimate_err_distr], forecaster.py:197-209. *)
Definition rows_at {A} (hours : list Z) (h : Z) (rows : list A) : list A :=
  map snd (filter (fun p => Z.eqb (fst p) h) (combine hours rows)).

(** [err_distr]: one table per hour, or a single table. Used by [estimate_err_distr], forecaster.py:197-209. *)
Inductive distr := PerHour (t : list (list (list R))) | Single (t : list (list R)).

(** forecaster.py:197-209. *)
Definition estimate_err_distr (conditional : bool) (steps : nat) (qs : list R)
    (hours : list Z) (errs : list (list R)) : distr :=
  if conditional then
    if (length (unique_hours hours) =? 24)%nat
    then PerHour (map (fun h => quantile_table steps (rows_at hours (Z.of_nat h) errs) qs) (seq 0 24))
    else PerHour (map (fun _ => quantile_table steps errs qs) (seq 0 24))
  else Single (quantile_table steps errs qs).

(** forecaster.py:215-216: validation errors. *)
Definition errors (y preds : list (list R)) : list (list R) := map2 (map2 Rminus) y preds.

(** [err_distr[h]] broadcast to a (steps, levels) table: with a single table the
    index selects a row (one step), which numpy then adds to every step. Used by [add_hours], forecaster.py:351-355. *)
Definition distr_at (d : distr) (steps : nat) (h : Z) : option (list (list R)) :=
  match d with
  | PerHour t => nth_error t (Z.to_nat h)
  | Single t => option_map (fun row => repeat row steps) (nth_error t (Z.to_nat h))
  end.

(** Used by [add_hours], forecaster.py:351-355. *)
Definition add_table (a b : list (list R)) : list (list R) := map2 (map2 Rplus) a b.

(** forecaster.py:351-355 and 409-415: copies of the point forecast, one per level,
    then one pass per hour present in the input. [None] = KeyError / IndexError. *)
Fixpoint add_hours (d : distr) (steps : nat) (hours : list Z) (us : list Z)
    (q : list (list (list R))) : option (list (list (list R))) :=
  match us with
  | [] => Some q
  | h :: us' =>
      match distr_at d steps h with
      | None => None
      | Some t =>
          add_hours d steps hours us'
            (map2 (fun hr row => if Z.eqb hr h then add_table row t else row) hours q)
      end
  end.
(** forecaster.py:351-355, without the call to [predict]. *)
Definition predict_quantiles (d : distr) (steps nq : nat) (hours : list Z) (preds : list (list R))
  : option (list (list (list R))) :=
  add_hours d steps hours (unique_hours hours) (map (map (fun v => repeat v nq)) preds).

(** forecaster.py:233-239: a frame with (target, level) column labels. *)
Record qframe T L A := QFrame { qf_columns : list (T * L); qf_rows : list (list A) }.
Arguments QFrame {T L A}. Arguments qf_columns {T L A}. Arguments qf_rows {T L A}.
(** With [qframe], forecaster.py:233-239. *)
Definition quantiles_to_df {T L A} (targets : list T) (levels : list L) (q : list (list (list A))) : qframe T L A :=
  QFrame (list_prod targets levels) (map (@concat A) q).

(** [np.reshape(row, (-1, k))]; [None] when the length is not a multiple of k.
    Used by [quantiles_to_numpy], forecaster.py:241-246. *)
Fixpoint chunks {A} (fuel k : nat) (l : list A) : option (list (list A)) :=
  match l with
  | [] => Some []
  | _ =>
      match fuel with
      | O => None
      | S f => if (length l <? k)%nat then None
               else option_map (cons (firstn k l)) (chunks f k (skipn k l))
      end
  end.
(** Used by [quantiles_to_numpy], forecaster.py:241-246. *)
Fixpoint all_some {A} (l : list (option A)) : option (list A) :=
  match l with
  | [] => Some []
  | None :: _ => None
  | Some a :: l' => option_map (cons a) (all_some l')
  end.
(** forecaster.py:241-246; [np.reshape] with 0 levels or 0 rows (unknown dimension) raises. *)
Definition quantiles_to_numpy {T L A} (eqd : forall a b : L, {a = b} + {a <> b}) (f : qframe T L A)
  : option (list (list (list A))) :=
  let k := length (nodup eqd (map snd (qf_columns f))) in
  if (k =? 0)%nat || (length (qf_rows f) =? 0)%nat then None
  else all_some (map (fun r => chunks (length r) k r) (qf_rows f)).

(** forecaster.py:258-270: one histogram per row and step, divided by the number of levels. *)
Definition pmf_cell (nq : nat) (edges : list R) (quantiles : list R) : option (list R) :=
  option_map (map (fun c => IZR c / INR nq)) (histogram quantiles edges).
(** With [pmf_cell], forecaster.py:258-270. *)
Definition predict_pmf (nq : nat) (edges : list R) (q : list (list (list R))) : option (list (list (list R))) :=
  all_some (map (fun row => all_some (map (pmf_cell nq edges) row)) q).
