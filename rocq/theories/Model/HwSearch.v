(** Model of HoltWinters.rand_search and rmse (holtwinters.py:249-278), on the model of the recursion. *)
From Coq Require Import List Arith Bool Reals.
From Verif Require Import Model.HoltWinters Model.Subsample Model.Quantiles.
Import ListNotations.
Local Open Scope R_scope.

(** np.mean of numbers that are not NaN. Used by [rmse], holtwinters.py:277-278. *)
Definition mean_num (l : list num) : num :=
  match all_some l with Some v => Some (fold_right Rplus 0 v / INR (length v)) | None => None end.
(** holtwinters.py:277-278. *)
Definition rmse (x y : list (list num)) : num :=
  mean_num (map2 (fun a b => option_map sqrt (mean_num (map2 (fun u v => option_map Rsqr (minus u v)) a b))) x y).
(** The parameters tried: alpha, gamma_1, gamma_2. holtwinters.py:253. *)
Definition trial := (R * R * R)%type.
(** holtwinters.py:264: a run with the parameters of a trial; [b] is the trend smoothing, 1e-3 in the search. *)
Definition with_trial (p : params) (b : R) (t : trial) : params :=
  let '(a, g1, g2) := t in Params a b g1 g2 (lower p) (upper p) (period1 p) (period2 p) (steps p).
(** holtwinters.py:264. *)
Definition search_beta : R := / 1000.
(** [hw_input[:np.max(self.periods)]], holtwinters.py:259, 262. *)
Definition warm_up (p : params) (ys : list num) : list num := firstn (Nat.max (period1 p) (period2 p)) ys.
(** holtwinters.py:264-265: the score of a trial from the stored states. *)
Definition score (p : params) (st : stored) (ys : list num) (target : list (list num)) (t : trial) : num :=
  let rows := fst (run_from (with_trial p search_beta t) st ys) in
  let from := (length ys / 10)%nat in rmse (skipn from rows) (skipn from target).
(** holtwinters.py:261-265: the scores, and the states after the last trial. *)
Fixpoint scores (p : params) (st : stored) (ys : list num) (target : list (list num)) (ts : list trial) : list num * stored :=
  match ts with
  | [] => ([], st)
  | t :: ts' =>
      let st' := reinit p st (warm_up p ys) in
      let '(l, st'') := scores p st' ys target ts' in (score p st' ys target t :: l, st'')
  end.
(** The first NaN. np.argmin returns it if there is one. holtwinters.py:266. *)
Fixpoint first_nan (k : nat) (l : list num) : option nat :=
  match l with [] => None | None :: _ => Some k | Some _ :: l' => first_nan (S k) l' end.
(** holtwinters.py:266. *)
Definition argmin_num (l : list num) : option nat :=
  match first_nan 0 l with
  | Some k => Some k
  | None => match all_some l with Some v => argmin v | None => None end
  end.
(** holtwinters.py:249-275: the parameters set on the object, the rows returned and the states stored. [None]: no trials.
    [target] has a row for each value of the series. *)
Definition rand_search (p : params) (st : stored) (ys : list num) (target : list (list num)) (ts : list trial)
  : option (trial * list (list num) * stored) :=
  let st0 := reinit p st (warm_up p ys) in
  let '(l, st1) := scores p st0 ys target ts in
  match argmin_num l with
  | None => None
  | Some i =>
      match nth_error ts i with
      | None => None
      | Some t => let '(rows, s) := run_from (with_trial p (beta p) t) st1 ys in Some (t, rows, Some s)
      end
  end.
