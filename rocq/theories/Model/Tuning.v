(** Model of the scoring and sampling of hyper-parameters of the smoothing models (holtwinters.py:51-132),
    of the table of trials (trainer.py:167-174) and of the dominant frequencies of a signal
    (utilities.py:50-58). *)
From Coq Require Import List ZArith Bool Arith Reals.
From Verif Require Import Model.Stats Model.Subsample Model.HoltWinters Model.FourierEs.
Import ListNotations.
Local Open Scope R_scope.

(** ** holtwinters.py:120-132 *)
(** holtwinters.py:122: [int(tr_ratio*len(x))]. *)
Definition n_training (ratio : R) (n : nat) : nat := Z.to_nat (Int_part (ratio * INR n)).
(** np.mean of an array; NaN ([None]) for an empty one. holtwinters.py:120-132. *)
Definition nan_mean (l : list R) : option R :=
  match l with [] => None | _ => Some (fold_right Rplus 0 l / INR (length l)) end.
(** [rows] is the frame, [target] reads the target column of a row; a model forecasts [n_sa] values per
    row. If the test part has fewer than n_sa + 1 rows the array of targets is empty. holtwinters.py:120-132. *)
Definition score_autoregressive {X M} (target : X -> R) (fit : list X -> M) (predict : M -> list X -> list (list R))
    (ratio : R) (n_sa : nat) (rows : list X) : option R :=
  let n := n_training ratio (length rows) in
  let test := skipn n rows in
  let targets := hankel (tl (map target test)) n_sa in
  let y_hat := predict (fit (firstn n rows)) test in
  nan_mean (concat (map2 (map2 (fun a b => (a - b) * (a - b))) (firstn (length targets) y_hat) targets)).

(** ** holtwinters.py:64-73 *)
(** A limit is a pair or a list of pairs; [u] are the numbers drawn in [0, 1). holtwinters.py:64-73. *)
Inductive limit := interval (lo hi : R) | box (l : list (R * R)).
(** holtwinters.py:64-73. *)
Inductive value := scalar (v : R) | vector (l : list R).
(** holtwinters.py:64-73. *)
Definition draw (lim : limit) (u : list R) : value :=
  match lim with
  | interval lo hi => scalar (nth 0 u 0 * (hi - lo) + lo)
  | box l => vector (map2 (fun u p => u * (snd p - fst p) + fst p) u l)
  end.
(** One trial: the parameters in the order of the limits; [us] are the draws of each. holtwinters.py:64-73. *)
Definition trial {N} (lims : list (N * limit)) (us : list (list R)) : list (N * value) :=
  map2 (fun nl u => (fst nl, draw (snd nl) u)) lims us.
(** holtwinters.py:107-108: np.argmin, which stops at the first NaN. *)
Definition argmin_nan (scores : list (option R)) : option nat :=
  match find (fun k => match nth k scores None with None => true | Some _ => false end) (seq 0 (length scores)) with
  | Some k => Some k
  | None => argmin (map (fun s => match s with Some v => v | None => 0 end) scores)
  end.
(** With [argmin_nan], holtwinters.py:107-108. *)
Definition best_trial {T} (trials : list T) (scores : list (option R)) : option T :=
  match argmin_nan scores with Some k => nth_error trials k | None => None end.

(** ** trainer.py:167-174 *)
(** pandas' rank(method='dense'), ascending; a trial without value has no rank. trainer.py:167-174. *)
Definition values (l : list (option R)) : list R := flat_map (fun v => match v with Some x => [x] | None => [] end) l.
(** trainer.py:167-174. *)
Definition dense_rank (l : list (option R)) (v : R) : nat := S (length (nodup Req_EM_T (filter (fun x => Rltb x v) (values l)))).
(** trainer.py:167-174. *)
Definition ranks (l : list (option R)) : list (option nat) := map (option_map (dense_rank l)) l.

(** ** utilities.py:50-58 *)
(** Squared magnitude of entry [k] of the discrete Fourier transform (the square does not change the order).
    utilities.py:50-58. *)
Definition magnitude2 (x : list R) (k : nat) : R :=
  let n := length x in
  let c := rsum (fun t => nth t x 0 * cos (2 * PI * INR k * INR t / INR n)) n in
  let s := rsum (fun t => nth t x 0 * sin (2 * PI * INR k * INR t / INR n)) n in
  c * c + s * s.
(** [argsort_desc] is numpy's argsort read backwards: any order by decreasing magnitude. utilities.py:50-58. *)
Definition find_frequencies (argsort_desc : list R -> list nat) (x : list R) (n_max : nat) : list nat :=
  map S (sort_by Z.of_nat (firstn n_max (argsort_desc (map (magnitude2 x) (seq 0 (length x / 2)))))).
