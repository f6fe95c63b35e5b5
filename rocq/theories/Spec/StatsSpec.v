(** Elementary statistics, stated without algorithms. *)
From Coq Require Import List Reals Sorted Permutation.
Import ListNotations.
Local Open Scope R_scope.

(** [s] is the data in nondecreasing order. *)
Definition sorted_copy (l s : list R) : Prop := Permutation l s /\ StronglySorted Rle s.

(** The linear interpolation quantile function: level i/(n-1) gives the i-th order
    statistic, levels in between are interpolated linearly. *)
Definition interpolates (s : list R) (Q : R -> R) : Prop :=
  (length s = 1%nat -> forall q, 0 <= q <= 1 -> Q q = nth 0 s 0) /\
  forall i t, (S i < length s)%nat -> 0 <= t <= 1 ->
    Q ((INR i + t) / INR (length s - 1)) = (1 - t) * nth i s 0 + t * nth (S i) s 0.

(** How many elements satisfy a predicate. *)
Definition how_many (P : R -> Prop) (l : list R) (n : nat) : Prop :=
  exists inside outside, Permutation l (inside ++ outside) /\ Forall P inside /\
    Forall (fun x => ~ P x) outside /\ length inside = n.

(** [x] belongs to bin [i] of the bins delimited by [edges]: half open, the last closed. *)
Definition in_bin (edges : list R) (i : nat) (x : R) : Prop :=
  nth i edges 0 <= x /\ (x < nth (S i) edges 0 \/ (S (S i) = length edges /\ x <= nth (S i) edges 0)).
