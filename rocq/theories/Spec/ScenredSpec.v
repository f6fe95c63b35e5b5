(** Vocabulary of scenario reduction. *)
From Coq Require Import List Arith Reals Permutation.
From Verif Require Import Model.Scenred Spec.MetricsSpec.
Import ListNotations.
Local Open Scope R_scope.

(** A distance between scenarios over the first steps: nonnegative, zero from a scenario to
    itself, and far below the 10^12 used as infinity. *)
Definition usable_distance (T N : nat) (dist : nat -> nat -> nat -> R) : Prop :=
  forall r c, (r < N)%nat -> (c < N)%nat -> 0 <= dist (T - 1)%nat r c < 10 ^ 12 - 1 /\ dist (T - 1)%nat r r = 0.
(** Different scenarios differ from the first step on. *)
Definition separated (T N : nat) (dist : nat -> nat -> nat -> R) : Prop :=
  forall t r c, (t < T)%nat -> (r < N)%nat -> (c < N)%nat -> r <> c -> 0 < dist t r c.
(** Sorting puts a smallest entry first. *)
Definition finds_smallest (nearest : (nat -> R) -> nat -> nat) : Prop :=
  forall f n, (0 < n)%nat -> (nearest f n < n)%nat /\ forall j, (j < n)%nat -> f (nearest f n) <= f j.

Definition sum_over (n : nat) (f : nat -> R) : R := total (map f (seq 0 n)).
(** Two scenarios as close as any two, and a scenario whose distances to the others sum up to least, over all steps. *)
Definition closest_pair (T N : nat) (dist : nat -> nat -> nat -> R) (a b : nat) : Prop :=
  (a < N)%nat /\ (b < N)%nat /\ a <> b /\
  forall r c, (r < N)%nat -> (c < N)%nat -> r <> c -> dist (T - 1)%nat a b <= dist (T - 1)%nat r c.
Definition most_central (T N : nat) (dist : nat -> nat -> nat -> R) (m : nat) : Prop :=
  (m < N)%nat /\ forall c, (c < N)%nat -> sum_over N (fun r => dist (T - 1)%nat r m) <= sum_over N (fun r => dist (T - 1)%nat r c).
Definition how_many_nodes (n : nat) (p : nat -> R) : nat :=
  length (filter (fun s => if Rlt_dec 0 (p s) then true else false) (seq 0 n)).

(** [n] scenarios over [T] steps with probabilities per step form a tree: at step [t]
    scenario [s] passes through the node of scenario [rep t s], which has positive
    probability; scenarios merged at a step stay merged at all earlier steps, and share
    their values; the probability of a node is that of its children at the next step. *)
Record scenario_tree {V} (T n : nat) (SS : nat -> nat -> V) (PP : nat -> nat -> R) (rep : nat -> nat -> nat) : Prop := {
  st_node : forall t s, (t < T)%nat -> (s < n)%nat -> (rep t s < n)%nat /\ 0 < PP t (rep t s);
  st_nonneg : forall t s, (t < T)%nat -> (s < n)%nat -> 0 <= PP t s;
  st_self : forall t s, (t < T)%nat -> (s < n)%nat -> 0 < PP t s -> rep t s = s;
  st_nested : forall t s, (S t < T)%nat -> (s < n)%nat -> rep t (rep (S t) s) = rep t s;
  st_survive : forall t s, (S t < T)%nat -> (s < n)%nat -> 0 < PP t s -> 0 < PP (S t) s;
  st_values : forall t s, (t < T)%nat -> (s < n)%nat -> SS t s = SS t (rep t s);
  st_children : forall t r, (S t < T)%nat -> (r < n)%nat ->
    PP t r = sum_over n (fun s => if Nat.eq_dec (rep t s) r then PP (S t) s else 0);
  st_leaves : forall s, (s < n)%nat -> 0 < PP (T - 1)%nat s;
  st_total : sum_over n (PP (T - 1)%nat) = 1 }.

(** [n] of [N] equally likely scenarios are kept, numbered [orig k] originally; at step [t]
    kept scenario [assign t c] stands for original scenario [c]. Probabilities count the
    scenarios stood for, values are those of the original scenario, and the result is a
    tree. *)
Record reduced {V} (T N n : nat) (samples SS : nat -> nat -> V) (PP : nat -> nat -> R) (orig : nat -> nat) (assign : nat -> nat -> nat) : Prop := {
  rd_orig : forall k, (k < n)%nat -> (orig k < N)%nat;
  rd_distinct : forall j k, (j < n)%nat -> (k < n)%nat -> orig j = orig k -> j = k;
  rd_assign : forall t c, (t < T)%nat -> (c < N)%nat -> (assign t c < n)%nat;
  rd_prob : forall t k, (t < T)%nat -> (k < n)%nat ->
    PP t k = INR (length (filter (fun c => assign t c =? k)%nat (seq 0 N))) / INR N;
  rd_values : forall t k, (t < T)%nat -> (k < n)%nat -> SS t k = samples t (orig (assign t (orig k)));
  rd_tree : scenario_tree T n SS PP (fun t k => assign t (orig k)) }.

(** A rooted tree: node 0 is the root, at time 0; every other node has exactly one
    incoming edge, from an earlier node, one time step before. *)
Definition time_of {V} (g : graph V) (k : nat) : nat := nth k (map n_time (g_nodes g)) 0%nat.
Definition prob_of {V} (g : graph V) (k : nat) : R := nth k (map n_prob (g_nodes g)) 0.
Definition rooted_tree {V} (g : graph V) : Prop :=
  g_nodes g <> [] /\ time_of g 0 = 0%nat /\
  Permutation (map snd (g_edges g)) (seq 1 (length (g_nodes g) - 1)) /\
  forall a b, In (a, b) (g_edges g) -> (a < b)%nat /\ time_of g b = S (time_of g a).
(** The probability of a node is shared among its children. *)
Definition children_of {V} (g : graph V) (k : nat) : list nat := map snd (filter (fun e => fst e =? k)%nat (g_edges g)).
Definition consistent {V} (T : nat) (g : graph V) : Prop :=
  prob_of g 0 = 1 /\
  forall k, (k < length (g_nodes g))%nat -> 0 < prob_of g k /\ (time_of g k < T)%nat /\
    ((S (time_of g k) < T)%nat -> total (map (prob_of g) (children_of g k)) = prob_of g k).
(** [path] goes from the root to [x] along edges. *)
Definition path_to {V} (g : graph V) (path : list nat) (x : nat) : Prop :=
  length path = S (time_of g x) /\ nth 0 path x = 0%nat /\ last path 0%nat = x /\
  forall i, (S i < length path)%nat -> In (nth i path 0%nat, nth (S i) path 0%nat) (g_edges g).
(** Scenario [s] can be read along some path of the network. *)
Definition carries {V} (T : nat) (g : graph V) (SS : nat -> nat -> V) (PP : nat -> nat -> R) (s : nat) : Prop :=
  exists path x, path_to g path x /\ length path = T /\
    forall t, (t < T)%nat -> exists p, nth_error (g_nodes g) (nth t path 0%nat) = Some (t, p, SS t s) /\ (t = (T - 1)%nat -> p = PP t s).
(** Scenarios alive at the same step differ there. *)
Definition distinct_values {V} (T n : nat) (SS : nat -> nat -> V) (PP : nat -> nat -> R) : Prop :=
  forall t r s, (t < T)%nat -> (r < n)%nat -> (s < n)%nat -> 0 < PP t r -> 0 < PP t s -> SS t r = SS t s -> r = s.
(** Which entry comes first depends on how the entries compare, not on their size. *)
Definition compares (nearest : (nat -> R) -> nat -> nat) : Prop :=
  forall f g n, (forall i j, (i < n)%nat -> (j < n)%nat -> (f i <= f j <-> g i <= g j)) -> nearest f n = nearest g n.
(** All distances [k] times as large, and the same tree with other values in its nodes. *)
Definition in_unit (T : nat) (k : R) (dist dist' : nat -> nat -> nat -> R) : Prop := forall t r c, (t < T)%nat -> dist' t r c = k * dist t r c.
Definition relabelled {V W} (f : nat -> V -> W) (g : graph V) : graph W :=
  Graph (map (fun x => (n_time x, n_prob x, f (n_time x) (n_val x))) (g_nodes g)) (g_edges g).
