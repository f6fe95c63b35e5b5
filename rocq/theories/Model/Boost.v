(** Model of forecasting_models/random_fourier_features.py: stagewise fits. One target column;
    numbers are [option R] ([None] = NaN). Random draws and learners are parameters. *)
From Coq Require Import Reals List Arith Bool.
From Verif Require Import Model.Stats Model.HoltWinters.
Import ListNotations.
Local Open Scope R_scope.

(** Used by [boost_fit], random_fourier_features.py:373-384. *)
Definition minus_all (a b : list num) : list num := map (fun uv => minus (fst uv) (snd uv)) (combine a b).
(** Used by [boost_predict], random_fourier_features.py:386-394. *)
Definition plus_all (a b : list num) : list num := map (fun uv => plus (fst uv) (snd uv)) (combine a b).

(** ** AdditiveRFFRegression (361-399) *)
(** random_fourier_features.py:373-384: each model is fitted on the residuals of the previous ones ([fit] may depend on the
    old model object: its random weights are kept). Returns models and residuals. *)
Fixpoint boost_fit {M X} (fit : M -> X -> list num -> M) (pred : M -> X -> list num) (ms : list M) (x : X) (err : list num) : list M * list num :=
  match ms with
  | [] => ([], err)
  | m :: ms' => let m' := fit m x err in let '(r, e) := boost_fit fit pred ms' x (minus_all err (pred m' x)) in (m' :: r, e)
  end.
(** random_fourier_features.py:386-394 without the denormalisation. *)
Definition boost_predict {M X} (pred : M -> X -> list num) (ms : list M) (x : X) (rows : nat) : list num :=
  fold_left (fun acc m => plus_all acc (pred m x)) ms (repeat (Some 0) rows).

(** ** BrutalRegressor (random_fourier_features.py:18-121) *)
Record stage := Stage { inner_cuts : list R; bin_means : list num; feature : nat }.
(** random_fourier_features.py:81-83: the quantiles 1/(n+1), .., n/(n+1) of a column of the sample; the outer ones are replaced by
    -inf and inf. *)
Definition cuts_of (n_bins : nat) (xs : list R) : list R := map (fun i => quantile xs (INR i / INR (n_bins + 1))) (seq 1 n_bins).
(** [np.digitize(v, cuts) - 1] for a finite v: how many inner cuts are <= v.
    Used by [mean_of_bin], random_fourier_features.py:25-42. *)
Definition bin (cuts : list R) (v : R) : nat := length (filter (fun c => Rleb c v) cuts).
(** Used by [mean_of_bin], random_fourier_features.py:25-42. *)
Definition total (l : list num) : num := fold_right plus (Some 0) l.
(** random_fourier_features.py:25-42 *)
Definition mean_of_bin (cuts : list R) (xs : list R) (err : list num) (j : nat) : num :=
  match filter (fun ve => (bin cuts (fst ve) =? j)%nat) (combine xs err) with
  | [] => None
  | sel => scale (/ INR (length sel)) (total (map snd sel))
  end.
(** Used by [brutal_fit], random_fourier_features.py:90-104. *)
Definition fit_feature (n_bins : nat) (x : list (list R)) (err : list num) (f : nat) : stage :=
  let xs := map (fun r => nth f r 0) x in
  let cuts := cuts_of n_bins xs in
  Stage cuts (map (mean_of_bin cuts xs err) (seq 0 (S n_bins))) f.
(** random_fourier_features.py:46-48 *)
Definition response (s : stage) (row : list R) : num := nth (bin (inner_cuts s) (nth (feature s) row 0)) (bin_means s) None.
(** random_fourier_features.py:90-104: [draws] are the bootstrap indices and [best] the feature with the least error. *)
Fixpoint brutal_fit (lr : R) (n_bins n_features : nat) (best : list stage -> nat) (x : list (list R)) (draws : list (list nat)) (err : list num)
  : list stage * list num :=
  match draws with
  | [] => ([], err)
  | idx :: draws' =>
      let cands := map (fit_feature n_bins (map (fun i => nth i x []) idx) (map (fun i => nth i err None) idx)) (seq 0 n_features) in
      let s := nth (best cands) cands (Stage [] [] 0) in
      let '(ss, e) := brutal_fit lr n_bins n_features best x draws' (minus_all err (map (fun r => scale lr (response s r)) x)) in
      (s :: ss, e)
  end.
(** random_fourier_features.py:114-121: only the first [n_iter] stored stages. *)
Definition brutal_predict (lr : R) (n_iter : nat) (stages : list stage) (row : list R) : num :=
  fold_left (fun acc s => plus acc (scale lr (response s row))) (firstn n_iter stages) (Some 0).
(** random_fourier_features.py:104: fitting extends the stored list. *)
Definition brutal_refit (lr : R) (n_bins n_features : nat) (best : list stage -> nat) (stored : list stage) (x : list (list R)) (draws : list (list nat)) (y : list num)
  : list stage := stored ++ fst (brutal_fit lr n_bins n_features best x draws y).
