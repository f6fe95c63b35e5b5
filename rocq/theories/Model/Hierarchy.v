(** Model of the hierarchy handling of reconciliation/reconciliation.py. A hierarchy is a
    dictionary from aggregates to lists of members, in insertion order; series names are of
    one type with decidable equality. *)
From mathcomp Require Import all_ssreflect all_algebra.
Set Implicit Arguments.
Unset Strict Implicit.
Unset Printing Implicit Defensive.

Section Hierarchy.
Context {N : eqType}.
(** Used by [aggregates], reconciliation.py:325. *)
Definition hierarchy := seq (N * seq N).
(** [hierarchy.keys()], [hierarchy[k]]. Used by [bottoms], reconciliation.py:325. *)
Definition aggregates (h : hierarchy) : seq N := map fst h.
(** With [aggregates], reconciliation.py:325. *)
Definition members (h : hierarchy) (k : N) : seq N := nth [::] (map snd h) (index k (aggregates h)).

(** reconciliation.py:62-71. [None]: KeyError, the ValueError of stacking nothing, or the
    recursion does not end ([fuel] is exhausted). *)
Definition join (a b : option (seq N)) : option (seq N) :=
  if a is Some a then if b is Some b then Some (a ++ b) else None else None.
(** With [join], reconciliation.py:62-71. *)
Fixpoint unroll (fuel : nat) (h : hierarchy) (k : N) : option (seq N) :=
  if fuel is fuel'.+1 then
    if k \in aggregates h then
      if members h k is [::] then None
      else foldr (fun i acc => join (if i \in aggregates h then unroll fuel' h i else Some [:: i]) acc) (Some [::]) (members h k)
    else None
  else None.
(** reconciliation.py:73-78: the leaves of every aggregate, in the order of the keys. *)
Fixpoint sequence {A} (l : seq (option A)) : option (seq A) :=
  if l is x :: l' then if x is Some a then omap (cons a) (sequence l') else None else Some [::].
(** With [sequence], reconciliation.py:73-78. *)
Definition unroll_dict (h : hierarchy) : option (seq (seq N)) := sequence [seq unroll (size h) h k | k <- aggregates h].

(** reconciliation.py:41-46: the first aggregate with the most leaves. *)
Fixpoint first_max (l : seq (N * nat)) (best : N * nat) : N :=
  if l is x :: l' then first_max l' (if best.2 < x.2 then x else best) else best.1.
(** With [first_max], reconciliation.py:41-46. *)
Definition root_of (h : hierarchy) (flat : seq (seq N)) : option N :=
  if zip (aggregates h) (map size flat) is x :: l then Some (first_max l x) else None.
(** reconciliation.py:48-59: levels as a list of assignments, the last one for a name wins ([update]).
    [None]: the recursion does not end. *)
Definition levels := seq (N * nat).
(** With [levels], reconciliation.py:48-59. *)
Fixpoint explore (fuel : nat) (h : hierarchy) (k : N) (level : nat) : option levels :=
  if fuel is fuel'.+1 then
    let start := if level == 0 then [:: (k, 0)] else [::] in
    let level := if level == 0 then 1 else level in
    foldl (fun acc n =>
      if acc is Some acc then
        if n \in aggregates h then omap (fun l => acc ++ (n, level) :: l) (explore fuel' h n level.+1) else Some (acc ++ [:: (n, level)])
      else None) (Some start) (members h k)
  else None.
(** With [explore], reconciliation.py:48-59. *)
Definition level_of (l : levels) (n : N) : option nat :=
  foldl (fun r p => if p.1 == n then Some p.2 else r) None l.

(** reconciliation.py:325, and 88, 129, 171: series that are not aggregates, in the order given. *)
Definition bottoms (h : hierarchy) (cols : seq N) : seq N := [seq c <- cols | c \notin aggregates h].
(** [Series.unique]: order of first appearance. Used by [forecast_columns], reconciliation.py:86-102. *)
Fixpoint first_seen (l : seq N) : seq N :=
  if l is a :: l' then a :: [seq x <- first_seen l' | x != a] else [::].
(** reconciliation.py:86-102 (level 'all'): columns of the base forecasts, from the names in the frame. *)
Definition forecast_columns (h : hierarchy) (names : seq N) : seq N := aggregates h ++ bottoms h (first_seen names).
End Hierarchy.
Arguments hierarchy : clear implicits.
Arguments levels : clear implicits.
