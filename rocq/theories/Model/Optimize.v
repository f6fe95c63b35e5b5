(** Model of PICNN.optimize (neural_models/ICNN.py:369-413) for a frame of one row. The network, the objective and the
    optimiser are functions; reals instead of floats. [None] = an exception. *)
From Coq Require Import Reals String List Arith Bool.
From Verif Require Import Model.Names Model.Encoder Model.Quantiles Model.Stats.
Import ListNotations.
Local Open Scope R_scope.

Section Loop.
Context {S Y : Type}.
(** ICNN.py:382-387: one update, from the optimiser state and the controls; the gradient is inside [step]. *)
Context (step : S -> Y -> S * Y) (objective : Y -> R).
(** Used by [iterate], ICNN.py:379-388. *)
Fixpoint updates (n : nat) (sy : S * Y) : S * Y :=
  match n with O => sy | Datatypes.S n' => updates n' (step (fst sy) (snd sy)) end.
(** ICNN.py:379-388: ten updates; the value is the one computed before the last of them, and the state is dropped. *)
Definition iterate (s0 : S) (y : Y) : Y * R :=
  let sy := updates 9 (s0, y) in
  (snd (step (fst sy) (snd sy)), objective (snd sy)).
(** ICNN.py:398 *)
Definition rel_improvement (old new : R) : R := (old - new) / (Rabs old + / 10 ^ 12).
(** ICNN.py:396-401; the number counts the rounds. *)
Fixpoint rounds (n : nat) (rel_tol : R) (s0 : S) (y : Y) (old : R) (done : nat) (last : option R) : option (Y * R * nat) :=
  match n with
  | O => match last with Some v => Some (y, v, done) | None => None end     (* [values] is unbound at 403-405 *)
  | Datatypes.S n' =>
      let '(y', v) := iterate s0 y in
      if Rltb (rel_improvement old v) rel_tol then Some (y', v, Datatypes.S done)
      else rounds n' rel_tol s0 y' v (Datatypes.S done) (Some v)
  end.
(** ICNN.py:391-405: [init] makes a fresh optimiser state; the same one starts every round. *)
Definition minimise (init : Y -> S) (n_iter : nat) (rel_tol : R) (y : Y) : option (Y * R * nat) :=
  let s0 := init y in
  let '(y1, v1) := iterate s0 y in
  rounds (n_iter / 10) rel_tol s0 y1 v1 0 None.
End Loop.

(** A one-row frame: columns in order. Used by [scaled], ICNN.py:352-359. *)
Definition row := list (text * R).
(** ICNN.py:352-359: the scaler has a mean and a deviation by column. *)
Definition scaled (normalized : list text) (mu sd : text -> R) (r : row) : row :=
  map (fun e => (fst e, if member normalized (fst e) then (snd e - mu (fst e)) / sd (fst e) else snd e)) r.
(** Used by [optimize], ICNN.py:369-413. *)
Definition unscaled (normalized : list text) (mu sd : text -> R) (r : row) : row :=
  map (fun e => (fst e, if member normalized (fst e) then snd e * sd (fst e) + mu (fst e) else snd e)) r.
(** Used by [optimize], ICNN.py:369-413. *)
Definition others (vars : list text) (r : row) : list text := filter (fun n => negb (member vars n)) (map fst r).
(** Used by [optimize], ICNN.py:369-413. *)
Definition pick (names : list text) (r : row) : option (list R) := all_some (map (fun n => lookup n r) names).
(** [inputs.loc[:, names] = values] on one row. Used by [optimize], ICNN.py:369-413. *)
Definition assign (names : list text) (values : list R) (r : row) : row :=
  map (fun e => (fst e, match lookup (fst e) (combine names values) with Some v => v | None => snd e end)) r.
(** ICNN.py:369-413: the optimal controls, the frame, and the value. [solve x y] is the loop above. *)
Definition optimize {N} (normalized vars : list text) (mu sd : text -> R)
    (solve : list R -> list R -> option (list R * R * N)) (r : row) : option (list R * row * R) :=
  let r1 := scaled normalized mu sd r in
  match pick (others vars r) r1, pick vars r1 with
  | Some x, Some y =>
      match solve x y with
      | Some (y', v, _) =>
          let r2 := assign (others vars r) x (assign vars y' r) in
          let r3 := unscaled normalized mu sd r2 in
          match pick vars r3 with Some y_opt => Some (y_opt, r3, v) | None => None end
      | None => None
      end
  | _, _ => None
  end.
(** ICNN.py:383-384: [vanilla_gd]. *)
Definition vanilla (grad : R -> R) (s : unit) (y : R) : unit * R := (s, y - grad y * (1 / 10)).
