(** Model of PICNNLayer (neural_models/layers.py:131-173, without layer normalisation) and PICNN_module
    (ICNN.py:117-164): one row. A vector is a function of the position; sizes are given apart. *)
From Coq Require Import Reals List Arith Bool.
From Verif Require Import Model.FourierEs Model.Activations.
Import ListNotations.
Local Open Scope R_scope.

(** Used by [dense], layers.py:150-163. *)
Definition vec := nat -> R.
(** Used by [mixed], layers.py:150-163. *)
Definition relu (x : R) : R := Rmax 0 x.
(** Used by [output], layers.py:170-173. *)
Definition sigmoid (x : R) : R := 1 / (1 + exp (- x)).
(** [nn.Dense]: the kernel is indexed by (input, output). Used by [mixed], layers.py:150-163. *)
Definition dense (W : nat -> vec) (b : vec) (n_in : nat) (x : vec) : vec := fun o => rsum (fun j => W j o * x j) n_in + b o.

(** Weights of one layer; [x_in], [y_in], [z_in] are the sizes of u, of y as given to the dense map, and of z.
    Used by [mixed], layers.py:150-163. *)
Record weights := Weights { x_in : nat; y_in : nat; z_in : nat;
  wzu : nat -> vec; bzu : vec; wyu : nat -> vec; byu : vec; wz : nat -> vec; wy : nat -> vec; wuz : nat -> vec; buz : vec; wu : nat -> vec; bu : vec }.
(** Used by [control], layers.py:146-147. *)
Record options := Options { act_fun : R -> R; rec_fun : R -> R; augment : bool; bounds : option (vec * vec) }.
(** layers.py:146-147: [y] has [n] entries. *)
Definition control (o : options) (n : nat) (y : vec) : vec := if augment o then fun j => if (j <? n)%nat then y j else - y (j - n)%nat else y.
(** layers.py:150-163 *)
Definition mixed (o : options) (n : nat) (w : weights) (y u z : vec) : vec := fun k =>
  rsum (fun j => wz w j k * (z j * relu (dense (wzu w) (bzu w) (x_in w) u j))) (z_in w)
  + rsum (fun j => wy w j k * (control o n y j * rec_fun o (dense (wyu w) (byu w) (x_in w) u j))) (y_in w)
  + dense (wuz w) (buz w) (x_in w) u k.
(** Used by [net], ICNN.py:133-146. *)
Definition next_u (o : options) (w : weights) (u : vec) : vec := fun k => act_fun o (dense (wu w) (bu w) (x_in w) u k).
(** Used by [net], ICNN.py:133-146. *)
Definition hidden (o : options) (n : nat) (w : weights) (y u z : vec) : vec := fun k => act_fun o (mixed o n w y u z k).
(** layers.py:170-173 *)
Definition output (o : options) (n : nat) (w : weights) (y u z : vec) : vec := fun k =>
  match bounds o with None => mixed o n w y u z k | Some (lo, hi) => sigmoid (mixed o n w y u z k) * (hi k - lo k) + lo k end.
(** ICNN.py:133-146: the last layer is the prediction layer. *)
Fixpoint net (o : options) (n : nat) (hs : list weights) (last : weights) (y u z : vec) : vec :=
  match hs with
  | [] => output o n last y u z
  | w :: hs' => net o n hs' last y (next_u o w u) (hidden o n w y u z)
  end.
(** Used by [piqcnn], ICNN.py:246-267. *)
Definition picnn (o : options) (n : nat) (hs : list weights) (last : weights) (x y : vec) : vec := net o n hs last y x (fun _ => 1).
(** ICNN.py:147-163: the standard deviations. *)
Definition picnn_sigma (o : options) (n : nat) (hs : list weights) (last : weights) (x y : vec) : vec :=
  fun k => softplus (net o n hs last y x (fun _ => 0) k) + / 10 ^ 10.
(** ICNN.py:246-267 (PartiallyIQCNN_module): [v] is a value of the network, the absolute directional derivative of the
    convex network at [y] along [y], plus the feed-forward term [c]. *)
Definition piqcnn (o : options) (n : nat) (hs : list weights) (last : weights) (x : vec) (c : R) (y : vec) (k : nat) (v : R) : Prop :=
  exists d, derivable_pt_lim (fun t => picnn o n hs last x (fun j => y j + t * y j) k) 0 d /\ v = Rabs d + c.
