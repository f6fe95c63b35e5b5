(** Model of the initial weights of the input-convex networks (neural_models/neural_utils.py:12-22,
    neural_models/layers.py:149-154). Exact arithmetic; random draws are arguments. *)
From Coq Require Import List Arith Reals.
From Verif Require Import Model.FourierEs Model.Picnn.
Import ListNotations.
Local Open Scope R_scope.

(** neural_utils.py:12-22: [draws] are the normal or uniform numbers, [features_out] is [shape[1]]. *)
Definition positive_lecun (features_out : nat) (draws : nat -> nat -> R) : nat -> nat -> R :=
  fun j k => Rabs (draws j k * (1 / sqrt (INR features_out))) / 10.
(** layers.py:149-154: the kernels 'wz' and 'wy' of a new layer; [plain]: the activation of the recurrent
    branch is [identity], then 'wy' starts from flax's signed numbers [lecun]. The other weights are those of [w]. *)
Definition new_layer (plain : bool) (features_out : nat) (draws_z draws_y lecun : nat -> nat -> R) (w : weights) : weights :=
  {| x_in := x_in w; y_in := y_in w; z_in := z_in w; wzu := wzu w; bzu := bzu w; wyu := wyu w; byu := byu w;
     wz := positive_lecun features_out draws_z; wy := if plain then lecun else positive_lecun features_out draws_y;
     wuz := wuz w; buz := buz w; wu := wu w; bu := bu w |}.
