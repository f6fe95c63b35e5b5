(** Vocabulary for splitting, parallel application and memory reduction. *)
From Coq Require Import List ZArith.
From Verif Require Import Model.BigData.
Import ListNotations.

(** Cut points from 0 to [n], never decreasing. *)
Definition cuts (points : list nat) (n : nat) : Prop :=
  (1 <= length points)%nat /\ nth 0 points 0 = 0 /\ nth (length points - 1) points 0 = n /\
  (forall i, S i < length points -> nth i points 0 <= nth (S i) points 0).
(** [f] treats the slices of its argument separately. *)
Definition slicewise {A B} (f : list A -> list B) : Prop := forall a b, f (a ++ b) = f a ++ f b.
(** Every task is executed, possibly several times, in any order. *)
Definition schedule (n : nat) (order : list nat) : Prop := forall i, i < n -> In i order.
(** Values an integer type can hold. *)
Definition holds (bits : Z) (v : Z) : Prop := (- 2 ^ (bits - 1) <= v <= 2 ^ (bits - 1) - 1)%Z.

(** [x] is a full array: every row has [n1] cells of [n2] values. *)
Definition full3 {V} (n1 n2 : nat) (x : list (list (list V))) : Prop :=
  Forall (fun row => length row = n1 /\ Forall (fun cell => length cell = n2) row) x.
Definition at3 {V} (x : list (list (list V))) (d : V) (t i j : nat) : V := nth j (nth i (nth t x []) []) d.
(** The value a frame holds in row [t] under a pair of labels. *)
Definition value_under {L1 L2 V} (f : frame2 L1 L2 V) (t : nat) (l : L1 * L2) (v : V) : Prop :=
  exists p, nth_error (f2_cols f) p = Some l /\ nth_error (nth t (f2_rows f) []) p = Some v.
Definition rectangular {L1 L2 V} (f : frame2 L1 L2 V) : Prop := Forall (fun row => length row = length (f2_cols f)) (f2_rows f).
(** The frame a caller owns is the same before and after. *)
Definition untouched {A} (before after : A) : Prop := after = before.
