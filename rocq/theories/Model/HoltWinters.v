(** Model of forecasting_models/holtwinters.py. Numbers are [option R]: [None] is NaN, which
    every operation propagates. *)
From Coq Require Import Reals List Arith Bool.
Import ListNotations.
Local Open Scope R_scope.

(** Used by [lift2], holtwinters.py:352-376. *)
Definition num := option R.
(** Used by [plus], holtwinters.py:352-376. *)
Definition lift2 (f : R -> R -> R) (x y : num) : num := match x, y with Some a, Some b => Some (f a b) | _, _ => None end.
(** Used by [step], holtwinters.py:352-376. *)
Definition plus (x y : num) : num := lift2 Rplus x y.
(** Used by [step], holtwinters.py:352-376. *)
Definition minus (x y : num) : num := lift2 Rminus x y.
(** Used by [step], holtwinters.py:352-376. *)
Definition scale (c : R) (x : num) : num := option_map (Rmult c) x.
(** Used by [step], holtwinters.py:352-376. *)
Definition is_nan (x : num) : bool := match x with None => true | Some _ => false end.

(** holtwinters.py:19-28 without [generate_me]: row w holds x[w], .., x[w+n-1]. *)
Definition hankel {V} (x : list V) (n : nat) : list (list V) := map (fun w => firstn n (skipn w x)) (seq 0 (length x + 1 - n)).

(** Smoothing parameters; [None] bounds are infinite (holtwinters.py:331-332). *)
Record params := Params { alpha : R; beta : R; gamma1 : R; gamma2 : R; lower : option R; upper : option R; period1 : nat; period2 : nat; steps : nat }.
(** The state carried over: level, trend and the two seasonal memories. Used by [step], holtwinters.py:352-376. *)
Record state := State { level : num; trend : num; season1 : list num; season2 : list num }.

(** holtwinters.py:380-382. *)
Definition constrainify (p : params) (x : num) : num :=
  let x1 := match lower p with Some l => option_map (Rmax l) x | None => x end in
  match upper p with Some u => option_map (Rmin u) x1 | None => x1 end.
(** holtwinters.py:368-371. *)
Definition shift (s : list num) (v : num) : list num := tl s ++ [v].

(** holtwinters.py:352-376: one row. [cell] is the entry of the output array in this row, first column, which
    _run (338) fills with the observation itself. *)
Definition step (p : params) (s : state) (y cell : num) : state * list num :=
  let v := if is_nan y then cell else y in
  let s1h := hd None (season1 s) in
  let s2h := hd None (season2 s) in
  let a := plus (scale (alpha p) (minus (minus v s1h) s2h)) (scale (1 - alpha p) (plus (level s) (trend s))) in
  let s1 := plus (scale (gamma1 p) (minus (minus v a) s2h)) (scale (1 - gamma1 p) s1h) in
  let s2 := plus (scale (gamma2 p) (minus (minus v a) s1h)) (scale (1 - gamma2 p) s2h) in
  let b := plus (scale (beta p) (minus a (level s))) (scale (1 - beta p) (trend s)) in
  let s1mp := shift (season1 s) (constrainify p s1) in
  let s2mp := shift (season2 s) (constrainify p s2) in
  (State a b s1mp s2mp,
   map (fun i => plus (plus (plus a (scale (INR (S i)) b)) (nth (i mod period1 p) s1mp None)) (nth (i mod period2 p) s2mp None)) (seq 0 (steps p))).
(** holtwinters.py:343-376. *)
Fixpoint run (p : params) (s : state) (ys : list num) : list (list num) * state :=
  match ys with
  | [] => ([], s)
  | y :: ys' => let '(s1, row) := step p s y y in let '(rows, s2) := run p s1 ys' in (row :: rows, s2)
  end.

(** What the object stores: nothing before the first run (holtwinters.py:157-160). *)
Definition stored := option state.
(** Used by [initial], holtwinters.py:315-340. *)
Definition or_zero (x : num) : num := match x with None => Some 0 | Some v => Some v end.
(** holtwinters.py:321-324: a memory that is entirely NaN starts again from the last value of this call. *)
Definition memory (n : nat) (ys : list num) (s : list num) : list num :=
  if forallb is_nan s then repeat (last ys None) n else s.
(** Used by [run_from], holtwinters.py:315-340. *)
Definition initial (p : params) (st : stored) (ys : list num) : state :=
  match st with
  | None => State (Some 0) (Some 0) (repeat (last ys None) (period1 p)) (repeat (last ys None) (period2 p))
  | Some s => State (or_zero (level s)) (or_zero (trend s)) (memory (period1 p) ys (season1 s)) (memory (period2 p) ys (season2 s))
  end.
(** holtwinters.py:315-340. *)
Definition run_from (p : params) (st : stored) (ys : list num) : list (list num) * state := run p (initial p st ys) ys.

(** Used by [predict], holtwinters.py:214-243. *)
Definition no_trend (p : params) : params :=
  Params (alpha p) 0 (gamma1 p) (gamma2 p) (lower p) (upper p) (period1 p) (period2 p) (steps p).
(** holtwinters.py:214-243: beta is 0 here. [effect] are the covariates' corrections of a row ([None]: the frame
    has one column only). *)
Definition predict (p : params) (st : stored) (ys : list num) (effect : option (list (list num))) : list (list num) * stored :=
  let '(rows, s) := run_from (no_trend p) st ys in
  (match effect with
   | Some e => map (fun re => map (fun ab => plus (fst ab) (snd ab)) (combine (fst re) (snd re))) (combine rows e)
   | None => rows end, Some s).
(** holtwinters.py:293-313: the last [max periods] values are run through twenty times. *)
Fixpoint rerun (n : nat) (p : params) (st : stored) (ys : list num) : stored :=
  match n with O => st | S n' => rerun n' p (Some (snd (run_from p st ys))) ys end.
(** Used by [reinit], holtwinters.py:188-208. *)
Definition last_values {V} (n : nat) (l : list V) : list V := skipn (length l - n) l.
(** Used by [fit_rows], holtwinters.py:188-208. *)
Definition reinit (p : params) (st : stored) (ys : list num) : stored :=
  rerun 20 p st (last_values (Nat.max (period1 p) (period2 p)) ys).
(** holtwinters.py:188-208: targets, trimmed predictions and the state after fitting (regression on covariates
    not modelled). *)
Definition fit_rows (p : params) (st : stored) (ys : list num) : list (list num) * list (list num) * stored :=
  let '(rows, s) := run_from p st ys in
  let target := hankel (skipn 1 ys) (steps p) in
  (target, firstn (length target) rows, reinit p (Some s) ys).

(** * Several models *)
(** holtwinters.py:434-457: each model, with its number of steps and its row, fills the steps [k .. n-1] of
    [out]; [next] gives the next k. [None] = IndexError. *)
Fixpoint assign {V} (models : list (nat * list V)) (next : nat * list V -> nat) (k : nat) (out : list V) : option (list V) :=
  match models with
  | [] => Some out
  | m :: ms =>
      let n := fst m in
      if (k <? n)%nat && (length out <? n)%nat then None
      else assign ms next (next m)
        (firstn k out ++ firstn (n - k) (skipn k (snd m)) ++ skipn (Nat.max k n) out)
  end.
(** holtwinters.py:449-457: the next model starts where this one stops. *)
Definition multi_row {V} (n_sa : nat) (zero : V) (models : list (nat * list V)) : option (list V) :=
  assign models fst 0 (repeat zero n_sa).
(** holtwinters.py:434-440: here the next model starts at the number of quantiles. *)
Definition multi_errors {V} (n_sa n_quantiles : nat) (zero : V) (models : list (nat * list V)) : option (list V) :=
  assign models (fun _ => n_quantiles) 0 (repeat zero n_sa).

(** * Random search *)
(** holtwinters.py:30-49: the score of a sample, and what remains of the entry 'targets_names' of the shared
    arguments (overwritten by [None] in the loop). [None]: UnboundLocalError. *)
Definition fit_sample {T N} (score : list N -> T -> R) (targets : option (list N)) (t : T) : option R * option (list N) :=
  match targets with Some names => (Some (score names t), None) | None => (None, None) end.
(** holtwinters.py:90-93. *)
Fixpoint scores_serial {T N} (score : list N -> T -> R) (targets : option (list N)) (ts : list T) : option (list R) :=
  match ts with
  | [] => Some []
  | t :: ts' =>
      let '(s, targets') := fit_sample score targets t in
      match s, scores_serial score targets' ts' with Some s, Some l => Some (s :: l) | _, _ => None end
  end.
(** holtwinters.py:82-88: each worker has its own copy of the arguments. *)
Fixpoint scores_parallel {T N} (score : list N -> T -> R) (targets : option (list N)) (ts : list T) : option (list R) :=
  match ts with
  | [] => Some []
  | t :: ts' => match fst (fit_sample score targets t), scores_parallel score targets ts' with Some s, Some l => Some (s :: l) | _, _ => None end
  end.
(** np.argmin: position of the first smallest element. Used by [argmin], holtwinters.py:51-111. *)
Fixpoint argmin_from (best : nat) (v : R) (k : nat) (l : list R) : nat :=
  match l with
  | [] => best
  | x :: l' => if Rlt_dec x v then argmin_from k x (S k) l' else argmin_from best v (S k) l'
  end.
(** Used by [tune], holtwinters.py:51-111. *)
Definition argmin (l : list R) : option nat := match l with [] => None | x :: l' => Some (argmin_from 0 x 1 l') end.
(** holtwinters.py:51-111: the chosen trial; [None] = an exception. *)
Definition tune {T N} (parallel : bool) (score : list N -> T -> R) (targets : option (list N)) (ts : list T) : option T :=
  match (if parallel then scores_parallel score targets ts else scores_serial score targets ts) with
  | Some l => match argmin l with Some i => nth_error ts i | None => None end
  | None => None
  end.
