(** Columns of a time-indexed frame and the pandas operations used on them. *)
From Coq Require Import List ZArith Bool.
Import ListNotations.
Local Open Scope Z_scope.

(** A column: one cell per row, [None] is NaN. Used by [shift], formatter.py:805. *)
Definition series (V : Type) := list (option V).

(** Used by [observed], formatter.py:763. *)
Definition is_some {V} (o : option V) : bool :=
  match o with Some _ => true | None => false end.

(** [Series.shift(l)] (pandas; used at formatter.py:805): row i receives row
    i - l, NaN outside the series; negative l looks forward. *)
Definition shift {V} (l : Z) (d : series V) : series V :=
  map (fun i => let j := Z.of_nat i - l in
                if (0 <=? j) && (j <? Z.of_nat (length d)) then nth (Z.to_nat j) d None
                else None)
      (seq 0 (length d)).

(** Samples in the time-offset window [(t_i - freq, t_i]] of row i
    (pandas [rolling] with an offset, closed on the right: formatter.py:763). *)
Definition window {V} (idx : list Z) (freq : Z) (d : series V) (i : nat) : series V :=
  map snd (filter (fun p => nth i idx 0 - freq <? fst p) (firstn (S i) (combine idx d))).

(** Number of non-NaN observations. Used by [rolling], formatter.py:763. *)
Definition observed {V} (w : series V) : nat := length (filter is_some w).

(** [d.rolling(freq, min_periods).agg(f)] for one function [f] (formatter.py:763):
    NaN when the window has fewer than [min_periods] observations. *)
Definition rolling {V} (idx : list Z) (freq : Z) (min_periods : Z)
    (f : series V -> option V) (d : series V) : series V :=
  map (fun i => let w := window idx freq d i in
                if Z.of_nat (observed w) <? min_periods then None else f w)
      (seq 0 (length d)).

(** [index.to_series().diff()] without its leading NaT (formatter.py:737). *)
Fixpoint diffs (idx : list Z) : list Z :=
  match idx with
  | a :: ((b :: _) as tl) => (b - a) :: diffs tl
  | _ => []
  end.

(** Used by [isort], formatter.py:737. *)
Fixpoint insert (x : Z) (l : list Z) : list Z :=
  match l with
  | [] => [x]
  | y :: l' => if x <=? y then x :: l else y :: insert x l'
  end.
(** Used by [median], formatter.py:737. *)
Fixpoint isort (l : list Z) : list Z :=
  match l with [] => [] | x :: l' => insert x (isort l') end.

(** [.median()] (formatter.py:737): middle element, or the mean of the two
    middle ones; NaT ([None]) when there is nothing to take the median of. *)
Definition median (l : list Z) : option Z :=
  let s := isort l in
  let n := length s in
  match n with
  | O => None
  | _ => if Nat.odd n then Some (nth (n / 2) s 0)
         else Some ((nth (n / 2 - 1) s 0 + nth (n / 2) s 0) / 2)
  end.
