(** Model of the check of the data of reconciled forecasts (reconciliation/reconciliation.py:80-83). *)
From mathcomp Require Import all_ssreflect.
From Verif Require Import Model.Hierarchy.
Set Implicit Arguments.
Unset Strict Implicit.
Unset Printing Implicit Defensive.

(** reconciliation.py:80-83: the column of names, [None] if there is none; [false]: AssertionError. *)
Definition check_x {N : eqType} (h : hierarchy N) (names : option (seq N)) : bool :=
  if names is Some ns then all (fun k => k \in ns) (aggregates h) else false.
