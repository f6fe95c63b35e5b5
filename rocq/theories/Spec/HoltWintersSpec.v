(** Vocabulary for Holt-Winters. *)
From Coq Require Import Reals List Arith Bool.
From Verif Require Import Model.HoltWinters.
Import ListNotations.
Local Open Scope R_scope.

(** A number, i.e. not NaN. *)
Definition number (x : num) : Prop := exists v, x = Some v.
Definition all_numbers (l : list num) : Prop := forall x, In x l -> number x.
(** Every component of the state is a number and the memories have the lengths of the periods. *)
Definition healthy (p : params) (s : state) : Prop :=
  number (level s) /\ number (trend s) /\ all_numbers (season1 s) /\ all_numbers (season2 s) /\
  length (season1 s) = period1 p /\ length (season2 s) = period2 p.
(** Within the constraints of the model. *)
Definition within (p : params) (x : num) : Prop :=
  match x with
  | Some v => (forall l, lower p = Some l -> l <= v) /\ (forall u, upper p = Some u -> v <= u)
  | None => True
  end.
(** Positive periods, bounds in order. *)
Definition well_formed (p : params) : Prop :=
  (0 < period1 p)%nat /\ (0 < period2 p)%nat /\ (forall l u, lower p = Some l -> upper p = Some u -> l <= u).
(** A series made of a level and two seasonal patterns. *)
Definition seasonal (a : R) (q1 q2 : list R) (t : nat) : R := a + nth (t mod length q1) q1 0 + nth (t mod length q2) q2 0.
(** A pattern as seen from time [t] on. *)
Definition rotated (q : list R) (t : nat) : list num := map (fun i => Some (nth ((t + i) mod length q) q 0)) (seq 0 (length q)).
(** The first model that reaches a step. *)
Definition first_reaching {V} (models : list (nat * list V)) (i : nat) : option (nat * list V) := find (fun m => (i <? fst m)%nat) models.
Fixpoint increasing (l : list nat) : Prop :=
  match l with x :: ((y :: _) as l') => (x < y)%nat /\ increasing l' | _ => True end.
(** The last model in the list that goes beyond step [i] while the one before it (a start at [k] for the first) does not. *)
Fixpoint last_crossing {V} (k : nat) (models : list (nat * list V)) (i : nat) : option (nat * list V) :=
  match models with
  | [] => None
  | m :: ms => match last_crossing (fst m) ms i with
               | Some m' => Some m'
               | None => if (k <=? i)%nat && (i <? fst m)%nat then Some m else None end
  end.
