(** Vocabulary for the options of the tree-based forecasters. *)
From Coq Require Import String List Reals.
From Verif Require Import Model.FkConfig Model.Forest.
Import ListNotations.

(** [sub] occurs in [c]. *)
Definition occurs (sub c : string) : Prop := exists p s, c = (p ++ sub ++ s)%string.
(** Names of the columns that describe past control actions. *)
Definition control_column (c : string) : Prop := occurs "force_off" c /\ occurs "-" c.
(** A row without control actions. *)
Definition no_control (x : inputs) : Prop := forall c v, In (c, v) x -> control_column c -> v = 0%R.
(** The same row with the actions removed. *)
Definition control_removed (x x' : inputs) : Prop :=
  Forall2 (fun e e' => fst e' = fst e /\ (control_column (fst e) -> snd e' = 0%R) /\ (~ control_column (fst e) -> snd e' = snd e)) x x'.
(** A learner that wants one weight per row. *)
Definition checks_weights {X Y M} (learn : list X -> list Y -> nat -> option (list R) -> option M) : Prop :=
  forall x y i w, length w <> length x -> learn x y i (Some w) = None.
(** Distinct keys. *)
Definition proper (d : dict) : Prop := NoDup (map fst d).
(** A row is among the observations drawn for a step. *)
Definition drawn (draw : nat -> nat) (rows k : nat) (red_frac : R) (row : nat) : Prop :=
  exists step, (step < k)%nat /\ In row (sampled_rows draw rows k red_frac step).
(** The draws are rows of the table. *)
Definition valid_draw (draw : nat -> nat) (rows : nat) : Prop := forall i, (draw i < rows)%nat.
(** The sum of the first terms. *)
Fixpoint sum_to (f : nat -> R) (n : nat) : R := match n with O => 0%R | S n' => (sum_to f n' + f n')%R end.
