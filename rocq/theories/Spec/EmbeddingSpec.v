(** Vocabulary of the invertible forecasters. *)
From Coq Require Import List Reals.
Import ListNotations.
Local Open Scope R_scope.

(** Two tables of the same shape. *)
Definition same_shape (a b : list (list R)) : Prop := Forall2 (fun r s => length r = length s) a b.
(** A row with two different values. *)
Definition varies (row : list R) : Prop := exists u v, In u row /\ In v row /\ u <> v.
(** [n] consecutive values of a series from position [t]. *)
Definition stretch (series : list R) (t n : nat) : list R := map (fun i => nth (t + i) series 0) (seq 0 n).
