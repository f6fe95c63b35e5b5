(** Vocabulary of rolling forecasts. *)
From Coq Require Import List ZArith Reals.
From Verif Require Import Model.Rolling.
Import ListNotations.
Local Open Scope Z_scope.

(** The rows of a series from time [start] on. *)
Definition observed {V} (truth : Z -> V) (start : Z) (len : nat) : list (Z * V) :=
  map (fun i => (start + Z.of_nat i, truth (start + Z.of_nat i))) (seq 0 len).

(** A library that forecasts the series [truth] without error: [clock] is the first time the object
    has not seen; it is the time after an observation once that has been added. *)
Record clairvoyant {M V} (lib : library M V) (truth : Z -> V) (clock : M -> Z) : Prop := {
  sees : forall m n, lib_forecast lib m n = map (fun k => truth (clock m + Z.of_nat k)) (seq 0 n);
  after_append : forall m t v m', lib_append lib m t v = Some m' -> clock m' = t + 1;
  after_apply : forall m t v, clock (lib_apply lib m t v) = t + 1 }.
