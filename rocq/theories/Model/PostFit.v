(** Model of what every forecaster does after its learner has been trained
    (forecaster.py:96-102, 171-219, 224-227, 333-355; scenarios_generator.py:51-70).
    Rows carry a time stamp, its hour and the features. The learner is an argument that
    predicts row by row; [denorm] is the formatter's inverse normalisation
    (the identity without one). *)
From Coq Require Import List ZArith Bool Arith Reals.
From Verif Require Import Model.Series Model.Subsample Model.Stats Model.Quantiles.
Import ListNotations.
Local Open Scope R_scope.

(** Used by [predict], forecaster.py:345-349. *)
Record sample X := Sample { sm_time : Z; sm_hour : Z; sm_x : X }.
Arguments Sample {X}. Arguments sm_time {X}. Arguments sm_hour {X}. Arguments sm_x {X}.

(** forecaster.py:345-349 (and the same lines of the other forecasters): [predict]. *)
Definition predict {X} (denorm : sample X -> list R -> list R) (model : sample X -> list R) (x : list (sample X)) : list (list R) :=
  map (fun r => denorm r (model r)) x.

(** scenarios_generator.py:61-64: the first observation of each of the 24 hours is
    looked up; [false] = IndexError. *)
Definition prefit_ok (hours : list Z) : bool :=
  forallb (fun h => existsb (Z.eqb (Z.of_nat h)) hours) (seq 0 24).

(** forecaster.py:211-218. [gen] is [np.random.default_rng]. Result: the rows kept, their
    targets, and [err_distr]. [None]: an exception. The fitted copula and the trees
    themselves are modelled elsewhere. *)
Definition post_fit {X} (gen : Z -> rng) (scengen_state random_state : option Z) (cap : option nat)
    (prefit conditional : bool) (steps : nat) (qs : list R) (denorm : sample X -> list R -> list R)
    (model : sample X -> list R) (d0 : sample X) (x : list (sample X)) (ytimes : list Z) (y : list (list R))
  : option (list (sample X) * list (list R) * distr) :=
  let y1 := map2 denorm x y in
  match maybe_subsample (gen (subsample_seed scengen_state random_state)) cap (map sm_time x) ytimes
          (Some (map sm_hour x)) d0 [] x y1 with
  | None => None
  | Some (xs, ys) =>
      let hours := map sm_hour xs in
      if prefit && negb (prefit_ok hours) then None
      else Some (xs, ys, estimate_err_distr conditional steps qs hours (errors ys (predict denorm model xs)))
  end.

(** forecaster.py:351-355. *)
Definition forecast_quantiles {X} (d : distr) (steps : nat) (qs : list R) (denorm : sample X -> list R -> list R)
    (model : sample X -> list R) (x : list (sample X)) : option (list (list (list R))) :=
  predict_quantiles d steps (length qs) (map sm_hour x) (predict denorm model x).
