(** Vocabulary of the scores by level. *)
From mathcomp Require Import all_ssreflect all_algebra.
From Verif Require Import Spec.ReconcileSpec.
Set Implicit Arguments.
Unset Strict Implicit.
Unset Printing Implicit Defensive.
Import GRing.Theory.
Local Open Scope ring_scope.

(** [top] is the aggregate above every other series of the hierarchy. *)
Definition is_top {N : eqType} (h : seq (N * seq N)) (top : N) : Prop :=
  is_aggregate h top /\ (forall c, is_aggregate h c -> exists d, steps_down h top c d) /\ forall c d, steps_down h c top d -> c = top.
(** [v] is the mean of [score] over the series of [names] that are [d] steps below [top]; each series counts once. *)
Definition mean_at {F : fieldType} {N : eqType} (h : seq (N * seq N)) (names : seq N) (score : N -> F) (top : N) (d : nat) (v : F) : Prop :=
  exists cs, uniq cs /\ cs <> [::] /\ (forall c, c \in cs <-> c \in names /\ steps_down h top c d) /\
    v = (\sum_(c <- cs) score c) / (size cs)%:R.
(** The series at the place of [c] when the names are put in order. *)
Definition at_place_of {N : eqType} (leN : rel N) (names : seq N) (c : N) : N := nth c (sort leN names) (index c names).
