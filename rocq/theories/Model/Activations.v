(** Model of the activation functions of neural_models/layers.py, over exact real numbers
    (the code computes them in floating point). *)
From Coq Require Import Reals Bool.
From Verif Require Import Model.Stats.
Local Open Scope R_scope.

(** A boolean mask in an arithmetic expression. Used by [linloglin], layers.py:38-51. *)
Definition mask (b : bool) : R := if b then 1 else 0.
(** [jnp.clip(v, lo)]. Used by [linloglin], layers.py:38-51. *)
Definition clip (v lo : R) : R := Rmax v lo.
(** Used by [linloglin], layers.py:38-51. *)
Definition tiny : R := / 10 ^ 12.

(** linloglin layers.py:38-51; [log1p]-like pieces as in the code. [jnp.log] is [ln] on the positive numbers it is applied to. *)
Definition slope (k : R) : R := 1 / (k + 1).
(** Used by [linloglin], layers.py:38-51. *)
Definition intercept (k : R) : R := ln (k + 1) - slope k * k.
(** Used by [activate], layers.py:38-51. *)
Definition linloglin (k x : R) : R :=
  let first := slope k * x - intercept k in
  let second := - ln (clip (- x) tiny + 1) in
  let third := ln (clip x tiny + 1) in
  let fourth := slope k * x + intercept k in
  mask (Rltb x (- k)) * first + mask (Rleb (- k) x) * mask (Rltb x 0) * second
  + mask (Rleb 0 x) * mask (Rltb x k) * third + mask (Rleb k x) * fourth.
(** linloglin_inverse layers.py:56-80 *)
Definition linloglin_inverse (k y : R) : R :=
  let m := slope k in let q := intercept k in
  let left_linear := Rleb y (m * (- k) - q) in
  let right_linear := Rleb (m * k + q) y in
  mask left_linear * ((y + q) / m) + mask right_linear * ((y - q) / m)
  + (1 - mask left_linear) * (1 - mask right_linear) * (mask (Rltb y 0) * (1 - exp (- y)) + mask (Rleb 0 y) * (exp y - 1)).

(** invcondiff layers.py:83-102 *)
Definition invcondiff (a c x : R) : R :=
  let b := a * c in let k := a * c * (1 - ln a) in
  let left := - b * ln (clip (- x) tiny) - k in
  let right := b * ln (clip x tiny) + k in
  mask (Rltb x (- a)) * left + mask (Rltb a x) * right + c * x * mask (Rleb (- a) x && Rleb x a).
(** safe_exp layers.py:127-129 *)
Definition safe_exp (x : R) : R := exp (Rmin (Rmax x (-12)) 12).
(** invcondiff_inverse layers.py:106-125 *)
Definition invcondiff_inverse (a c y : R) : R :=
  let b := a * c in let k := a * c * (1 - ln a) in
  let left := Rltb y (- b * ln a - k) in
  let right := Rltb (b * ln a + k) y in
  mask right * safe_exp ((y - k) / b) + mask left * (- safe_exp (- (y + k) / b)) + y / c * mask (negb left && negb right).

(** flax leaky_relu, and its inverse at layers.py:243-244 *)
Definition leaky_relu (s x : R) : R := if Rleb 0 x then x else s * x.
(** Used by [invert_activation], layers.py:241-252. *)
Definition leaky_relu_inverse (s y : R) : R := if Rleb 0 y then y else y / s.
(** flax softplus, inverse_softplus layers.py:255-265 with the call at 246 *)
Definition softplus (x : R) : R := ln (1 + exp x).
(** Used by [softplus_inverse], layers.py:241-252. *)
Definition inverse_softplus (threshold y : R) : R := if Rltb threshold y then y else ln (exp y - 1).
(** Used by [invert_activation], layers.py:241-252. *)
Definition softplus_inverse (y : R) : R := inverse_softplus 20 (Rmax (/ 10 ^ 6) y).

(** The functions a layer can be given, by name (invert_activation layers.py:241-252); [None] = NotImplementedError. *)
Inductive act := Leaky (s : R) | Softplus | Invcondiff | InvcondiffInverse | Identity | Linloglin | Other (f : R -> R).
(** layers.py:240, the activation of a layer that is not the prediction layer. *)
Definition activate (f : act) (x : R) : R :=
  match f with
  | Leaky s => leaky_relu s x | Softplus => softplus x | Invcondiff => invcondiff 1 1 x | InvcondiffInverse => invcondiff_inverse 1 1 x
  | Identity => x | Linloglin => linloglin 10 x | Other g => g x
  end.
(** [s] is the layer's own [negative_slope]. layers.py:241-252. *)
Definition invert_activation (s : R) (f : act) (y : R) : option R :=
  match f with
  | Leaky _ => Some (leaky_relu_inverse s y)
  | Softplus => Some (softplus_inverse y)
  | Invcondiff | InvcondiffInverse | Identity => Some (invcondiff_inverse 1 1 y)
  | Linloglin => Some (linloglin_inverse 10 y)
  | Other _ => None
  end.
