(** What a partially input-convex network computes, from the dense maps it stores by name. *)
From Coq Require Import Reals String List Arith.
From Verif Require Import Model.Names Model.Encoder Model.Quantiles Model.Reproject.
Import ListNotations.
Local Open Scope R_scope.

Fixpoint sum_to (n : nat) (f : nat -> R) : R := match n with O => 0 | S k => sum_to k f + f k end.
(** Entry of the kernel, and of the bias, of the dense map stored under a name. *)
Definition weight_of (g : group) (name : string) (i o : nat) : R := match lookup (txt name) g with Some d => nth o (nth i (kernel d) []) 0 | None => 0 end.
Definition bias_of (g : group) (name : string) (o : nat) : R := match lookup (txt name) g with Some d => nth o (bias d) 0 | None => 0 end.
Definition affine (g : group) (name : string) (n : nat) (v : nat -> R) (o : nat) : R := sum_to n (fun i => weight_of g name i o * v i) + bias_of g name o.
(** The groups of the entries that belong to the convex network, in order. *)
Definition belongs (name : text) : Prop := exists u v, name = (u ++ txt "PICNNLayer" ++ v)%list.
(** One layer before its activation: [u] are the features, [z] the latent values, [y] the controls as the layer uses them. *)
Definition layer_sum (rec_activation : R -> R) (nx ny nz : nat) (g : group) (y u z : nat -> R) (k : nat) : R :=
  sum_to nz (fun j => weight_of g "wz" j k * (z j * Rmax 0 (affine g "wzu" nx u j))) +
  sum_to ny (fun j => weight_of g "wy" j k * (y j * rec_activation (affine g "wyu" nx u j))) + affine g "wuz" nx u k.
(** [v] is the value of the network whose layers are [gs]: features start at the inputs, latent values at one. *)
Definition network_value (activation rec_activation : R -> R) (nx ny nz : nat) (gs : list group) (x y : nat -> R) (v : nat -> R) : Prop :=
  exists u z : nat -> nat -> R,
    (forall k, u 0%nat k = x k) /\ (forall k, z 0%nat k = 1) /\
    (forall l g k, (S l < length gs)%nat -> nth_error gs l = Some g ->
       u (S l) k = activation (affine g "u_dense" nx (u l) k) /\ z (S l) k = activation (layer_sum rec_activation nx ny nz g y (u l) (z l) k)) /\
    (forall g k, nth_error gs (length gs - 1) = Some g -> v k = layer_sum rec_activation nx ny nz g y (u (length gs - 1)%nat) (z (length gs - 1)%nat) k).
(** Controls as the layers use them, [augmented]: followed by their opposites. *)
Definition as_used (augmented : bool) (n : nat) (y : nat -> R) (j : nat) : R := if augmented then (if (j <? n)%nat then y j else - y (j - n)%nat) else y j.
(** A parameter dictionary with a flat entry for each layer. *)
Definition stores (t : tree) (gs : list group) : Prop :=
  exists names, t = combine names (map Flat gs) /\ length names = length gs /\ Forall belongs names.
(** With bounds on the outputs the value goes through a logistic curve between them. *)
Definition squeezed (limits : option ((nat -> R) * (nat -> R))) (v : nat -> R) (k : nat) : R :=
  match limits with None => v k | Some (lo, hi) => lo k + (hi k - lo k) / (1 + exp (- v k)) end.
