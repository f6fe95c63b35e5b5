(** Vocabulary of the re-initialisation and of the random search of Holt-Winters. *)
From Coq Require Import List Arith Reals.
From Verif Require Import Model.HoltWinters Model.HwSearch.
Import ListNotations.
Local Open Scope R_scope.

(** The same state with an amount moved from the first seasonal memory to the level. *)
Definition moved (d : R) (s : state) : state :=
  State (option_map (fun v => v + d) (level s)) (trend s) (map (option_map (fun v => v - d)) (season1 s)) (season2 s).
(** No limits on the seasonal values. *)
Definition unconstrained (p : params) : Prop := lower p = None /\ upper p = None.
(** The states after [n] re-initialisations with the same values. *)
Fixpoint reinit_times (n : nat) (p : params) (st : stored) (ys : list num) : stored :=
  match n with O => st | S n' => reinit_times n' p (reinit p st ys) ys end.
(** Root of the mean squared error of a row of numbers, and its mean over rows. *)
Definition row_error (a b : list R) : R := sqrt (fold_right Rplus 0 (map (fun i => (nth i a 0 - nth i b 0) * (nth i a 0 - nth i b 0)) (seq 0 (length a))) / INR (length a)).
Definition mean_error (x y : list (list R)) : R := fold_right Rplus 0 (map (fun i => row_error (nth i x []) (nth i y [])) (seq 0 (length x))) / INR (length x).
(** The parameters with the smoothing of a trial, the trend smoothing being [b]. *)
Definition tried (p : params) (b : R) (t : R * R * R) : params :=
  Params (fst (fst t)) b (snd (fst t)) (snd t) (lower p) (upper p) (period1 p) (period2 p) (steps p).
(** [e] is the error of a trial run from [st]: the mean over the last nine tenths of the rows. *)
Definition trial_error (p : params) (st : stored) (ys : list num) (target : list (list R)) (t : R * R * R) (e : R) : Prop :=
  exists rows : list (list R), fst (run_from (tried p (/ 1000) t) st ys) = map (map Some) rows /\ length rows = length ys /\
    e = mean_error (skipn (length ys / 10)%nat rows) (skipn (length ys / 10)%nat target).
(** A target row for each value of the series. *)
Definition targets (p : params) (ys : list num) (target : list (list R)) : Prop := length target = length ys /\ Forall (fun r => length r = steps p) target.
(** The states after [n] re-initialisations with the start of the series. *)
Definition restarted (n : nat) (p : params) (s : state) (ys : list num) : stored := reinit_times n p (Some s) (firstn (Nat.max (period1 p) (period2 p)) ys).
(** A run of a trial from [st] that leaves a missing forecast in the rows its error is taken over. *)
Definition trial_misses (p : params) (st : stored) (ys : list num) (t : R * R * R) : Prop :=
  exists row, In row (skipn (length ys / 10)%nat (fst (run_from (tried p (/ 1000) t) st ys))) /\ In None row.
