(** Vocabulary for changes of units: data multiplied by a factor (kW to W) or moved by an offset (Celsius to Kelvin). *)
From Coq Require Import List ZArith Reals.
From Verif Require Import Model.HoltWinters Model.Metrics Model.FourierEs Model.FourierKalman.
Import ListNotations.
Local Open Scope R_scope.

(** A number, possibly missing, in the new unit. *)
Definition in_units (c : R) (x : num) : num := match x with Some v => Some (c * v) | None => None end.
(** The configuration in the new unit: only the constraints have a unit. *)
Definition params_in (c : R) (p : params) : params :=
  Params (alpha p) (beta p) (gamma1 p) (gamma2 p) (in_units c (lower p)) (in_units c (upper p)) (period1 p) (period2 p) (steps p).
(** The stored state in the new unit. *)
Definition state_in (c : R) (s : state) : state :=
  State (in_units c (level s)) (in_units c (trend s)) (map (in_units c) (season1 s)) (map (in_units c) (season2 s)).

(** A number, possibly missing, with an offset. *)
Definition moved_by (d : R) (x : num) : num := match x with Some v => Some (v + d) | None => None end.
(** The state of a series with an offset: the level is moved, trend and seasons are not. *)
Definition level_moved (d : R) (s : state) : state := State (moved_by d (level s)) (trend s) (season1 s) (season2 s).
(** A state as a run with observations leaves it. *)
Definition has_numbers (s : state) : Prop :=
  level s <> None /\ trend s <> None /\ ~ Forall (eq None) (season1 s) /\ ~ Forall (eq None) (season2 s).

(** Frames, quantile arrays and tables of scores in the new unit. *)
Definition frame_in (c : R) (f : frame) : frame := Frame (f_rows f) (f_cols f) (fun i j => in_units c (f_at f i j)).
Definition array_in (c : R) (q : array3) : array3 := Array3 (a_dim0 q) (a_dim1 q) (a_dim2 q) (fun i j k => c * a_at q i j k).
Definition scores_in (c : R) (t : table) : table := map (fun r => (fst r, map (in_units c) (snd r))) t.
(** A frame with an offset. *)
Definition frame_moved (d : R) (f : frame) : frame := Frame (f_rows f) (f_cols f) (fun i j => moved_by d (f_at f i j)).
Definition array_moved (d : R) (q : array3) : array3 := Array3 (a_dim0 q) (a_dim1 q) (a_dim2 q) (fun i j k => a_at q i j k + d).

(** The state of the Fourier smoother in the new unit. *)
Definition fourier_in (c : R) (st : fstored) : fstored :=
  FStored (option_map (map (Rmult c)) (st_x st)) (c * st_eps st) (c * st_last st) (map (Rmult c) (st_w st)).
(** The state of the Fourier smoother of a series with an offset: the window and the last forecast are moved, the
    coefficient of the constant, whose function is 1 / sqrt m, is moved by d * sqrt m; the smoothed error is not. *)
Definition constant_moved (d m : R) (x : list R) : list R := match x with a :: x' => a + d * sqrt m :: x' | [] => [] end.
Definition fourier_moved (d : R) (p : fparams) (st : fstored) : fstored :=
  FStored (option_map (constant_moved d (INR (fm p))) (st_x st)) (st_eps st) (st_last st + d) (map (fun v => v + d) (st_w st)).
(** The stored state has the shapes of the model. *)
Definition fourier_shaped (p : fparams) (st : fstored) : Prop :=
  length (st_w st) = fm p /\ forall x, st_x st = Some x -> length x = dim p.

(** The operations of the FK forecaster follow the change [v -> k v + d] of the data when the coefficients change by [f]:
    the filter and the products with the basis commute with it and the correlations of the coefficients stay as they are. *)
Record follows {X C : Type} (o : ops X C) (m n_sa : nat) (k d : R) (f : X -> X) : Prop := Follows {
  filter_follows : forall x P Q Rm z, kalman_op o (f x) P Q Rm (f z) = (f (fst (kalman_op o x P Q Rm z)), snd (kalman_op o x P Q Rm z));
  correlation_same : forall l, corr_op o (map f l) = corr_op o l;
  analysis_follows : forall i w, length w = m -> analyse o i (map (fun v => k * v + d) w) = f (analyse o i w);
  synthesis_follows : forall i x, synthesise o i (f x) = map (fun v => k * v + d) (synthesise o i x);
  synthesis_length : forall i x, length (synthesise o i x) = n_sa }.
(** The state of FK after that change. *)
Definition fk_changed {X C : Type} (k d : R) (f : X -> X) (s : kstate X C) : kstate X C :=
  KState (f (kx s)) (kP s) (kQ s) (kR s) (k * keps s) (k * klast s + d) (map (fun v => k * v + d) (kw s)).
