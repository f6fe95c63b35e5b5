(** Vocabulary for Kalman filters. *)
From mathcomp Require Import all_ssreflect all_algebra.
From Verif Require Import Model.Kalman.
Set Implicit Arguments.
Unset Strict Implicit.
Unset Printing Implicit Defensive.
Import GRing.Theory Num.Theory.
Local Open Scope ring_scope.

(** Symmetric, and no direction has a negative variance. *)
Definition covariance {F : realFieldType} m (W : 'M[F]_m) : Prop := W^T = W /\ forall v : 'cV[F]_m, 0 <= (v^T *m W *m v) 0 0.
(** [A] is at most [B] in every direction. *)
Definition no_larger {F : realFieldType} m (A B : 'M[F]_m) : Prop := forall v : 'cV[F]_m, (v^T *m A *m v) 0 0 <= (v^T *m B *m v) 0 0.
(** The pseudo-inverse (Moore and Penrose). *)
Definition pseudo_inverse {F : fieldType} m (S G : 'M[F]_m) : Prop :=
  [/\ S *m G *m S = S, G *m S *m G = G, (S *m G)^T = S *m G & (G *m S)^T = G *m S].
(** Covariance of the error of the estimate [x + L (y - H x)], when [x] has error covariance [P]
    and [y] is [H] times the truth plus noise of covariance [R], uncorrelated with [x]. *)
Definition error_covariance {F : fieldType} n m (P : 'M[F]_n) (H : 'M[F]_(m, n)) (R : 'M[F]_m) (L : 'M[F]_(n, m)) : 'M[F]_n :=
  (1%:M - L *m H) *m P *m (1%:M - L *m H)^T + L *m R *m L^T.
