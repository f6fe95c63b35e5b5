(** Vocabulary for the benchmark forecasters. *)
From Coq Require Import Reals List Arith.
From Verif Require Import Model.Benchmarks.
Import ListNotations.
Local Open Scope R_scope.

(** Values present at time of day [k]. *)
Definition values_at (obs : list (nat * option R)) (k : nat) : list R :=
  flat_map (fun o => if Nat.eq_dec (fst o) k then match snd o with Some v => [v] | None => [] end else []) obs.
Definition sum_of (l : list R) : R := fold_right Rplus 0 l.
(** The support lists every value once. *)
Definition supports (support : list R) (obs : list (nat * option R)) : Prop :=
  NoDup support /\ forall k v, In (k, Some v) obs -> In v support.
(** Probabilities listed along the support, when they are numbers. *)
Definition numbers (l : list (option R)) (ps : list R) : Prop := l = map Some ps.
