(** Vocabulary for the causal invertible network. *)
From Coq Require Import Reals List Arith.
From Verif Require Import Model.Activations Model.Invertible.
Import ListNotations.
Local Open Scope R_scope.

(** The activation of [l] is undone at every number it is applied to for input [x]. *)
Definition regular (l : layer) (x : list R) : Prop :=
  prediction_layer l = true \/ Forall (fun v => invert_activation (negative_slope l) (activation l) (activate (activation l) v) = Some v) (affine l x).
Fixpoint regular_all (ls : list layer) (x : list R) : Prop :=
  match ls with [] => True | l :: ls' => regular l x /\ regular_all ls' (layer_predict l x) end.
Definition wide (n : nat) (ls : list layer) : Prop := Forall (fun l => features l = n) ls.
(** No number fed to an activation is nearly zero. *)
Fixpoint away_from_zero (ls : list layer) (x : list R) : Prop :=
  match ls with [] => True | l :: ls' => (prediction_layer l = true \/ Forall (fun v => / 10 ^ 12 <= Rabs v) (affine l x)) /\ away_from_zero ls' (layer_predict l x) end.
