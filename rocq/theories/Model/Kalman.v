(** Model of utilities.py: the Kalman filter, over any ordered field. *)
From mathcomp Require Import all_ssreflect all_algebra.
Set Implicit Arguments.
Unset Strict Implicit.
Unset Printing Implicit Defensive.
Import GRing.Theory Num.Theory.
Local Open Scope ring_scope.

Section Kalman.
Context {F : fieldType} {n m : nat} (pinv : 'M[F]_m -> 'M[F]_m).
(** utilities.py:30-33 *)
Definition kalman_predict (x : 'cV[F]_n) (P A Q : 'M[F]_n) : 'cV[F]_n * 'M[F]_n := (A *m x, A *m (P *m A^T) + Q).
(** utilities.py:36-37; [pinv] is [np.linalg.pinv]. *)
Definition innovation (P : 'M[F]_n) (H : 'M[F]_(m, n)) (R : 'M[F]_m) : 'M[F]_m := H *m (P *m H^T) + R.
(** Used by [kalman_update], utilities.py:35-42. *)
Definition gain (P : 'M[F]_n) (H : 'M[F]_(m, n)) (R : 'M[F]_m) : 'M[F]_(n, m) := P *m (H^T *m pinv (innovation P H R)).
(** utilities.py:35-42: the covariance is corrected twice. *)
Definition kalman_update (x : 'cV[F]_n) (P : 'M[F]_n) (y : 'cV[F]_m) (H : 'M[F]_(m, n)) (R : 'M[F]_m) : 'cV[F]_n * 'M[F]_n :=
  let K := gain P H R in
  let x1 := x + K *m (y - H *m x) in
  let P1 := P - K *m (H *m P) in
  let I_KH := 1%:M - K *m H in
  (x1, I_KH *m (P1 *m I_KH^T) + K *m (R *m K^T)).
(** utilities.py:44-47 *)
Definition kalman (x : 'cV[F]_n) (P A Q : 'M[F]_n) (y : 'cV[F]_m) (H : 'M[F]_(m, n)) (R : 'M[F]_m) : 'cV[F]_n * 'M[F]_n :=
  let '(x1, P1) := kalman_predict x P A Q in kalman_update x1 P1 y H R.
End Kalman.
(** Repeated use, as in the loops of FK and FK_multi. fast_adaptive_models.py:284 and 553. *)
Definition kalman_run {F : fieldType} {n m : nat} (pinv : 'M[F]_m -> 'M[F]_m) (A : 'M[F]_n) (H : 'M[F]_(m, n)) (x : 'cV[F]_n) (P : 'M[F]_n)
  (steps : seq ('M[F]_n * 'cV[F]_m * 'M[F]_m)) : 'cV[F]_n * 'M[F]_n :=
  foldl (fun s q => kalman pinv s.1 s.2 A q.1.1 q.1.2 H q.2) (x, P) steps.
