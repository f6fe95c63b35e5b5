(** Vocabulary for windows and Fourier models. *)
From Coq Require Import Reals List Arith.
From Verif Require Import Model.FourierEs.
Import ListNotations.
Local Open Scope R_scope.

Definition last_of {V} (m : nat) (l : list V) : list V := skipn (length l - m) l.
(** A signal made of the basis functions: value at time [t]. *)
Definition signal (p : fparams) (c : list R) (t : nat) : R := rsum (fun j => basis (fm p) t j * nth j c 0) (dim p).
(** Harmonics below half the window, a period within the window. *)
Definition proper (p : fparams) : Prop :=
  (2 * fharmonics p < fm p)%nat /\ (0 < fsa p)%nat /\ (0 < fperiod p <= fm p)%nat.
