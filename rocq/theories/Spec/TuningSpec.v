(** Vocabulary of hyper-parameter tuning. *)
From Coq Require Import List Reals Permutation.
From Verif Require Import Model.Tuning.
Import ListNotations.
Local Open Scope R_scope.

(** A value within its limits. *)
Definition allowed (lim : limit) (v : value) : Prop :=
  match lim, v with
  | interval lo hi, scalar x => lo <= x <= hi
  | box l, vector xs => Forall2 (fun p x => fst p <= x <= snd p) l xs
  | _, _ => False
  end.
(** Limits in order. *)
Definition ordered_limit (lim : limit) : Prop :=
  match lim with interval lo hi => lo <= hi | box l => Forall (fun p => fst p <= snd p) l end.
(** The draws fit the limits: one number, or one per component, each in [0, 1). *)
Definition fits (lim : limit) (u : list R) : Prop :=
  Forall (fun x => 0 <= x < 1) u /\ length u = match lim with interval _ _ => 1%nat | box l => length l end.
(** [order] lists all the positions, the largest entries first. *)
Definition descending_order (order : list R -> list nat) : Prop :=
  forall l, Permutation (order l) (seq 0 (length l)) /\
  forall i k, (i < k < length l)%nat -> nth (nth k (order l) 0%nat) l 0 <= nth (nth i (order l) 0%nat) l 0.
(** A sampled wave that goes through [j] periods in [n] samples. *)
Definition sampled_wave (a b : R) (j n : nat) : list R :=
  map (fun t => a * cos (2 * PI * INR j * INR t / INR n) + b * sin (2 * PI * INR j * INR t / INR n)) (seq 0 n).
