(** Model of the estimation of the hourly Gaussian copula (copula.py:35-71) and of the
    seeding of its samples (copula.py:73-101). Exact arithmetic. [xs r j] is the error of
    row [r] of an hour at step [j]; [n] rows, [dim] steps. [None] is a value that is not
    a finite number. GraphicalLasso is not modelled (only the choice of the hour it is
    tuned on). *)
From Coq Require Import List ZArith Bool Arith Reals.
From Verif Require Import Model.Series Model.Subsample Model.Stats Model.Quantiles Model.Metrics Model.FourierEs Model.ScenGen.
Import ListNotations.
Local Open Scope R_scope.

(** Used by [deviation], copula.py:52. *)
Definition average (f : nat -> R) (n : nat) : R := rsum f n / INR n.
(** Used by [cov_est], copula.py:52. *)
Definition deviation (xs : nat -> nat -> R) (n r j : nat) : R := xs r j - average (fun r => xs r j) n.
(** [np.cov] with [ddof]. Used by [corr_vanilla], copula.py:52. *)
Definition cov_est (ddof : R) (xs : nat -> nat -> R) (n i j : nat) : R :=
  rsum (fun r => deviation xs n r i * deviation xs n r j) n / (INR n - ddof).

(** Used by [corr_vanilla], copula.py:52. *)
Definition clip1 (x : R) : R := Rmax (-1) (Rmin 1 x).
(** copula.py:52: [np.corrcoef(x_h.T) + np.eye(dim) * 1e-6]; [corrcoef] divides the
    covariances by the deviations and clips to [-1, 1]. *)
Definition corr_vanilla (xs : nat -> nat -> R) (n i j : nat) : option R :=
  if (n <=? 1)%nat then None
  else if Rlt_dec 0 (cov_est 1 xs n i i) then
    if Rlt_dec 0 (cov_est 1 xs n j j) then
      Some (clip1 (cov_est 1 xs n i j / sqrt (cov_est 1 xs n i i) / sqrt (cov_est 1 xs n j j))
            + (if (i =? j)%nat then / 1000000 else 0))
    else None
  else None.

(** copula.py:54-56: scikit-learn's [ShrunkCovariance] with its default shrinkage 0.1
    (a tenth of the mean variance is added to the diagonal of nine tenths of the
    empirical covariance), divided by the product of the empirical deviations. *)
Definition corr_shrunk (xs : nat -> nat -> R) (n dim i j : nat) : option R :=
  if Rlt_dec 0 (cov_est 0 xs n i i) then
    if Rlt_dec 0 (cov_est 0 xs n j j) then
      Some ((9 / 10 * cov_est 0 xs n i j
             + (if (i =? j)%nat then 1 / 10 * (rsum (fun k => cov_est 0 xs n k k) dim / INR dim) else 0))
            / (sqrt (cov_est 0 xs n i i) * sqrt (cov_est 0 xs n j j)))
    else None
  else None.

(** Used by [corr_est], copula.py:35-101. *)
Inductive cov_method := Vanilla | Shrunk.
(** Used by [hour_cov], copula.py:35-101. *)
Definition corr_est (m : cov_method) (xs : nat -> nat -> R) (n dim i j : nat) : option R :=
  match m with Vanilla => corr_vanilla xs n i j | Shrunk => corr_shrunk xs n dim i j end.

(** The errors of an hour. Used by [hour_cov], copula.py:35-101. *)
Definition hour_data (hours : list Z) (errs : list (list R)) (h : Z) : nat -> nat -> R :=
  fun r j => nth j (nth r (rows_at hours h errs) []) 0.
(** Used by [copula_fit_sample], copula.py:35-101. *)
Definition hour_cov (m : cov_method) (hours : list Z) (errs : list (list R)) (dim : nat) (h : Z) (i j : nat) : option R :=
  corr_est m (hour_data hours errs h) (length (rows_at hours h errs)) dim i j.

(** copula.py:87: [scipy.stats.multivariate_normal] rejects a matrix with entries that
    are not finite. *)
Definition finite_matrix (dim : nat) (f : nat -> nat -> option R) : bool :=
  forallb (fun i => forallb (fun j => match f i j with Some _ => true | None => false end) (seq 0 dim)) (seq 0 dim).

(** copula.py:35-101: fit on [fit_hours], [errs], sample for [hours]. *)
Definition copula_fit_sample (m : cov_method) (cdf : R -> R) (fit_hours : list Z) (errs : list (list R))
    (dim n_scen : nat) (hours : list Z) (draws : Z -> list nat -> R) : option array3 :=
  if forallb (fun h => finite_matrix dim (hour_cov m fit_hours errs dim h)) (unique_hours hours)
  then copula_sample cdf fit_hours dim n_scen hours draws else None.

(** copula.py:92 with an integer [random_state]: each hour asks a fresh generator with
    that seed for draws with the hour's covariance and shape (rows, scenarios, dim).
    [rvs] is scipy's sampler. *)
Definition seeded_draws (rvs : Z -> (nat -> nat -> option R) -> list nat -> list nat -> R) (seed : Z) (m : cov_method)
    (fit_hours : list Z) (errs : list (list R)) (dim n_scen : nat) (hours : list Z) (h : Z) : list nat -> R :=
  rvs seed (hour_cov m fit_hours errs dim h) [count_hour hours h; n_scen; dim].

(** copula.py:42: [y.index.hour.value_counts().argmax()]: the counts of the hours, in
    decreasing order, and the position of the first largest one. *)
Fixpoint insert_count (p : Z * nat) (l : list (Z * nat)) : list (Z * nat) :=
  match l with
  | [] => [p]
  | q :: l' => if (snd q <? snd p)%nat then p :: q :: l' else q :: insert_count p l'
  end.
(** With [insert_count], copula.py:42. *)
Definition value_counts (hours : list Z) : list (Z * nat) :=
  fold_left (fun l h => insert_count (h, count_hour hours h) l) (unique_hours hours) [].
(** With [value_counts], copula.py:42. *)
Definition glasso_cv_hour (hours : list Z) : Z := Z.of_nat (argmax (map snd (value_counts hours))).

(** scenarios_generator.py:154-178 with an integer [random_state] passed down to the
    copula; the noise [nz] comes from numpy's global generator. *)
Definition seeded_scenarios (rvs : Z -> (nat -> nat -> option R) -> list nat -> list nat -> R) (seed : Z) (m : cov_method)
    (cdf : R -> R) (fit_hours : list Z) (errs : list (list R)) (q_vect : list R) (additional : bool)
    (init : option (list R)) (nz : noise) (steps n_scen : nat) (hours : list Z) (quantiles : nat -> nat -> list R)
  : option (nat * (nat -> nat -> nat -> option R)) :=
  match copula_fit_sample m cdf fit_hours errs steps n_scen hours
          (seeded_draws rvs seed m fit_hours errs steps n_scen hours) with
  | None => None
  | Some samples => sample_scenarios q_vect additional init nz (length hours) steps n_scen quantiles samples
  end.
