(** Model of the numpy statistics used by the forecasters, in exact arithmetic. *)
From Coq Require Import List ZArith Bool Arith Reals.
Import ListNotations.
Local Open Scope R_scope.

(** Used by [monotone], forecaster.py:258-270. *)
Definition Rleb (a b : R) : bool := if Rle_dec a b then true else false.
(** Used by [cumulative], forecaster.py:258-270. *)
Definition Rltb (a b : R) : bool := if Rlt_dec a b then true else false.

(** [np.sort]. Used by [rsort], forecaster.py:204, 207, 209. *)
Fixpoint rinsert (x : R) (l : list R) : list R :=
  match l with
  | [] => [x]
  | a :: l' => if Rle_dec x a then x :: a :: l' else a :: rinsert x l'
  end.
(** Used by [quantile], forecaster.py:204, 207, 209. *)
Definition rsort (l : list R) : list R := fold_right rinsert [] l.

(** [np.quantile(l, q)] (default method 'linear'): virtual index q(n-1), linear
    interpolation between its integer neighbours. Used at forecaster.py:204, 207, 209. *)
Definition quantile (l : list R) (q : R) : R :=
  let s := rsort l in
  let v := q * INR (length l - 1) in
  let i := Z.to_nat (Int_part v) in
  let g := v - INR i in
  nth i s 0 + g * (nth (Nat.min (S i) (length l - 1)) s 0 - nth i s 0).

(** [np.histogram(l, bins=edges)[0]] for an array of edges: differences of
    [searchsorted(edge, 'left')], with 'right' for the last edge. [None] = ValueError
    for edges that decrease. Used by [cumulative], forecaster.py:258-270. *)
Definition count (p : R -> bool) (l : list R) : nat := length (filter p l).
(** Used by [histogram], forecaster.py:258-270. *)
Fixpoint monotone (e : list R) : bool :=
  match e with a :: ((b :: _) as tl) => Rleb a b && monotone tl | _ => true end.
(** Used by [histogram], forecaster.py:258-270. *)
Definition cumulative (l : list R) (edges : list R) (i : nat) : Z :=
  if (S i =? length edges)%nat then Z.of_nat (count (fun x => Rleb x (nth i edges 0)) l)
  else Z.of_nat (count (fun x => Rltb x (nth i edges 0)) l).
(** [np.histogram] with given edges. Used by [predict_pmf], forecaster.py:258-270. *)
Definition histogram (l : list R) (edges : list R) : option (list Z) :=
  if monotone edges then
    Some (map (fun i => (cumulative l edges (S i) - cumulative l edges i)%Z) (seq 0 (length edges - 1)))
  else None.
