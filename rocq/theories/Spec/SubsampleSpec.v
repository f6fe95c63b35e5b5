(** What numpy promises about random draws, and what a subsample is. *)
From Coq Require Import List ZArith Bool Arith Sorted.
From Verif Require Import Model.Subsample.
Import ListNotations.
Local Open Scope nat_scope.

(** [Generator.choice(population, size, replace=False)] returns [size] distinct
    members; [Generator.multinomial(m, p)] returns one number per class with sum m.
    Nothing else is assumed about the draws. *)
Definition honest (g : rng) : Prop :=
  (forall m counts, 0 < length counts ->
     length (r_multinomial g m counts) = length counts /\ fold_right Nat.add 0 (r_multinomial g m counts) = m) /\
  (forall k pop c, NoDup pop -> c <= length pop ->
     length (r_choice g k pop c) = c /\ NoDup (r_choice g k pop c) /\ incl (r_choice g k pop c) pop).

(** [pos] are [m] different rows out of [n], in time order. *)
Definition ordered_sample (times : list Z) (n m : nat) (pos : list nat) : Prop :=
  length pos = m /\ NoDup pos /\ (forall p, In p pos -> p < n) /\
  StronglySorted (fun p q => (nth p times 0 <= nth q times 0)%Z) pos.

Definition rows {X} (d : X) (x : list X) (pos : list nat) : list X := map (fun p => nth p x d) pos.

(** How many of the rows [pos] fall in hour [h]. *)
Definition rows_in_hour (hours : list Z) (h : Z) (pos : list nat) : nat :=
  length (filter (fun p => Z.eqb (nth p hours 0%Z) h) pos).

(** A generator that gives everything to the first class and picks first elements. *)
Definition greedy : rng :=
  Rng (fun m counts => match counts with [] => [] | _ :: cs => m :: map (fun _ => 0) cs end)
      (fun _ pop c => firstn c pop).

(** How many rows of hour [h] there are. *)
Definition available (hours : list Z) (h : Z) : nat := rows_in_hour hours h (seq 0 (length hours)).

(** The different hours of the data, in increasing order. *)
Definition distinct_hours (hours u : list Z) : Prop :=
  StronglySorted Z.lt u /\ (forall h, In h u <-> In h hours).
