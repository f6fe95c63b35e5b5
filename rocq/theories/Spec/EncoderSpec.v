From Coq Require Import List ZArith Bool Arith Ascii.
From Verif Require Import Model.Names Model.Encoder.
Import ListNotations.

(** Lexicographic order on character codes. *)
Inductive before : text -> text -> Prop :=
| before_nil : forall y b, before [] (y :: b)
| before_head : forall x a y b, nat_of_ascii x < nat_of_ascii y -> before (x :: a) (y :: b)
| before_tail : forall x a b, before a b -> before (x :: a) (x :: b).

(** The code of [v]: how many different values of the first data come before it. *)
Definition is_code (first : list text) (v : text) (k : Z) : Prop :=
  exists smaller, NoDup smaller /\ (forall w, In w smaller <-> In w first /\ before w v) /\ k = Z.of_nat (length smaller).

(** The values of column [c] the first time it is categorical. *)
Definition categorical (c : text) (x : table) (v : list text) : Prop := In (c, Cat v) x.
Inductive first_seen (c : text) : list table -> list text -> Prop :=
| first_here : forall x xs v, categorical c x v -> first_seen c (x :: xs) v
| first_later : forall x xs v, (forall w, ~ categorical c x w) -> first_seen c xs v -> first_seen c (x :: xs) v.

(** Column names are unique in every frame. *)
Definition named (x : table) : Prop := NoDup (map fst x).
