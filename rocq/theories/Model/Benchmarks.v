(** Model of forecasting_models/benchmarks.py. *)
From Coq Require Import Reals List Arith Bool.
From Verif Require Import Model.HoltWinters.
Import ListNotations.
Local Open Scope R_scope.

(** benchmarks.py:20-22: every row repeats its own value. *)
Definition persistent_predict {V} (n_sa : nat) (x : list V) : list (list V) := map (fun v => repeat v n_sa) x.
(** benchmarks.py:45-50: the last [seasonality] values of the training part. [iloc[-0:]] would be the whole part. *)
Definition seasonal_state {V} (seasonality : nat) (train : list V) : list V :=
  if (seasonality =? 0)%nat then train else skipn (length train - seasonality) train.
(** benchmarks.py:52-55; [None] = fewer rows than the index (ValueError). *)
Definition seasonal_predict {V} (n_sa : nat) (state x : list V) : option (list (list V)) :=
  let rows := firstn (length x) (hankel (state ++ x) n_sa) in
  if (length rows =? length x)%nat then Some rows else None.

(** Used by [occurrences], benchmarks.py:80-107. *)
Definition Reqb (a b : R) : bool := if Req_EM_T a b then true else false.
(** benchmarks.py:80-107: one target column with its times of day; [None] = missing. Occurrences of [v] at
    time [k] ([x == v] is false for missing values). *)
Definition occurrences (obs : list (nat * option R)) (k : nat) (v : R) : nat :=
  length (filter (fun o => (fst o =? k)%nat && match snd o with Some w => Reqb w v | None => false end) obs).
(** Used by [probability_of], benchmarks.py:102-103, 115-125. *)
Definition seen (obs : list (nat * option R)) (k : nat) : bool := existsb (fun o => (fst o =? k)%nat) obs.
(** Used by [probability_of], benchmarks.py:102-103, 115-125. *)
Definition regularisation : R := / 10 ^ 12.
(** benchmarks.py:102-103, 115-125: probability of [v] at time [k]; [None] = NaN for a time of day not in the table. *)
Definition probability_of (support : list R) (obs : list (nat * option R)) (k : nat) (v : R) : option R :=
  if seen obs k
  then Some (INR (occurrences obs k v) / (fold_right Rplus 0 (map (fun u => INR (occurrences obs k u)) support) + regularisation))
  else None.
(** benchmarks.py:111-112: the expected value; pandas' sum skips NaN. *)
Definition expected (support : list R) (obs : list (nat * option R)) (k : nat) : R :=
  fold_right Rplus 0 (map (fun v => match probability_of support obs k v with Some p => p * v | None => 0 end) support).
