(** Vocabulary for cross validation and search. *)
From Coq Require Import Reals List Arith.
From Verif Require Import Model.Trainer.
Import ListNotations.
Local Open Scope R_scope.
(** [m] is the arithmetic mean of [l]. *)
Definition is_mean (l : list R) (m : R) : Prop := m * INR (length l) = fold_right Rplus 0 l.
(** The study's contract: it reports a position with the smallest value. *)
Definition reports_minimum (best : list R -> nat) : Prop := forall l, l <> [] -> exists v, nth_error l (best l) = Some v /\ Forall (Rle v) l.
