(** Vocabulary of the training losses. *)
From Coq Require Import List Reals Permutation.
Import ListNotations.
Local Open Scope R_scope.

Definition average (l : list R) : R := fold_right Rplus 0 l / INR (length l).
Definition variance (l : list R) : R := average (map (fun v => (v - average l) * (v - average l)) l).
(** The standard normal density and the function it is the derivative of that is one half at zero. *)
Definition bell (u : R) : R := exp (- (u ^ 2 / 2)) / sqrt (2 * PI).
Definition normal_cdf (cdf : R -> R) : Prop := (forall u, derivable_pt_lim cdf u (bell u)) /\ cdf 0 = 1 / 2.
(** The same forecast in every row. *)
Definition everywhere {A} (y : list A) (v : R) : list R := map (fun _ => v) y.
(** A permutation that puts the values in increasing order. *)
Definition sorts (values : list R) (p : list nat) : Prop :=
  Permutation p (seq 0 (length values)) /\
  forall i j, (i < j < length values)%nat -> nth (nth i p 0%nat) values 0 <= nth (nth j p 0%nat) values 0.
Definition distinct (l : list R) : Prop := NoDup l.
(** Two lists that rank their positions alike. *)
Definition same_order (a b : list R) : Prop :=
  forall i j, (i < length a)%nat -> (j < length a)%nat -> (nth i a 0 < nth j a 0 <-> nth i b 0 < nth j b 0).
(** Pairs of positions ranked differently. *)
Definition swapped (a b : list R) : list (nat * nat) :=
  filter (fun ij => if Rlt_dec (nth (fst ij) a 0) (nth (snd ij) a 0) then if Rlt_dec (nth (fst ij) b 0) (nth (snd ij) b 0) then false else true else false)
    (list_prod (seq 0 (length a)) (seq 0 (length a))).
