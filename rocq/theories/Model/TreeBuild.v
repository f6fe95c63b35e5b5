(** Model of the scenario tree builders (tree_builders.py). Trees are the graphs of
    Model/Scenred.v with one number per node; matrices are functions of their indices.
    Exact arithmetic. *)
From Coq Require Import List Bool Arith Reals.
From Verif Require Import Model.Subsample Model.Stats Model.Metrics Model.Scenred.
Import ListNotations.
Local Open Scope R_scope.

(** tree_builders.py:77-85: node counts; the length is compared with the number of
    scenarios ([scens.shape[1]]). The second component: is the caller's array modified? *)
Definition prepare_counts (n_scen : nat) (ns : list nat) : list nat * bool :=
  let extended := (length ns =? n_scen - 1)%nat && (1 <=? n_scen)%nat in
  let ns' := if extended then 1%nat :: ns else ns in
  match ns' with
  | [] => ([], false)
  | a :: l => if (a =? 1)%nat then (ns', false) else (1%nat :: l, true)
  end.

(** tree_builders.py:90-105: one step after the other; [m] = nodes at the previous step, [k] = next name,
    [prev] = names at the previous step. [None]: AssertionError or division by zero. *)
Fixpoint grow (rest : list nat) (t m k : nat) (prev : list nat) (acc : list nat * list (nat * nat))
  : option (list nat * list (nat * nat)) :=
  match rest with
  | [] => Some acc
  | n :: rest' =>
      if (m =? 0)%nat then None
      else if (n mod m =? 0)%nat then
        let c := (n / m)%nat in
        let parents := flat_map (fun p => repeat p c) prev in
        let names := seq k (length parents) in
        grow rest' (S t) n (k + length parents)%nat names
          (fst acc ++ repeat t (length parents), snd acc ++ combine parents names)
      else None
  end.
(** tree_builders.py:88-115: probabilities from the number of leaves below a node. [None] also for a tree
    without leaves (division by zero). *)
Definition base_tree (ns : list nat) : option (graph R) :=
  match ns with
  | [] => None
  | m :: rest =>
      match grow rest 1 m 1 [0%nat] ([0%nat], []) with
      | None => None
      | Some (times, edges) =>
          let leaves := filter (fun x => (nth x times 0 =? length ns - 1)%nat) (seq 0 (length times)) in
          if (length leaves =? 0)%nat then None
          else
            let below x := if (nth x times 0 =? length ns - 1)%nat then 1%nat
                           else length (filter (fun l => existsb (Nat.eqb x) (ancestors (length times) edges l)) leaves) in
            Some (Graph (map (fun x => (nth x times 0%nat, INR (below x) / INR (length leaves), 0)) (seq 0 (length times))) edges)
      end
  end.

(** tree_builders.py:40-63: initial values by quantiles. [filters]: the scenarios behind a node. *)
Definition get {A} (l : list (nat * A)) (k : nat) : option A :=
  match find (fun p => (fst p =? k)%nat) l with Some (_, v) => Some v | None => None end.
(** Used by [child_filter], tree_builders.py:47-58. *)
Definition select (row : list R) (f : list nat) : list R := map (fun c => nth c row 0) f.
(** Used by [init_node], tree_builders.py:47-58. *)
Definition successors {V} (g : graph V) (j : nat) : list nat := map snd (filter (fun e => (fst e =? j)%nat) (g_edges g)).
(** Used by [init_node], tree_builders.py:47-58. *)
Definition init_state := (list (nat * R) * list (nat * list nat))%type.
(** Used by [init_node], tree_builders.py:47-58. *)
Definition child_filter (row' : list R) (f : list nat) (m i : nat) : list nat :=
  let q k := quantile (select row' f) (INR k / INR m) in
  match filter (fun c => Rltb (q i - 1 / 1000000) (nth c row' 0) && Rleb (nth c row' 0) (q (S i))) f with
  | [] => f
  | f' => f'
  end.
(** Used by [init_node], tree_builders.py:47-58. *)
Definition child_value (row : list R) (f : list nat) (m i : nat) : R := quantile (select row f) (INR (S i) / INR (m + 1)).
(** tree_builders.py:47-58: [None] = KeyError. *)
Definition init_node {V} (g : graph V) (row row' : list R) (j : nat) (st : option init_state) : option init_state :=
  match st with
  | None => None
  | Some (vals, filters) =>
      match get filters j with
      | None => None
      | Some f =>
          let ch := successors g j in
          let m := length ch in
          Some (map (fun p => (snd p, child_value row f m (fst p))) (combine (seq 0 m) ch) ++ vals,
                map (fun p => (snd p, child_filter row' f m (fst p))) (combine (seq 0 m) ch) ++ filters)
      end
  end.
(** With [init_node], tree_builders.py:47-58. *)
Definition nodes_at {V} (g : graph V) (t : nat) : list nat :=
  filter (fun k => (nth k (map n_time (g_nodes g)) 0 =? t)%nat) (seq 0 (length (g_nodes g))).
(** With [nodes_at], tree_builders.py:47-58. *)
Definition init_step {V} (g : graph V) (scens : nat -> list R) (st : option init_state) (t : nat) : option init_state :=
  fold_left (fun st j => init_node g (scens t) (scens (S t)) j st) (nodes_at g t) st.
(** With [init_step], tree_builders.py:47-58. *)
Definition init_vals {V} (T : nat) (g : graph V) (scens : nat -> list R) : option init_state :=
  fold_left (init_step g scens) (seq 0 (T - 1))
    (Some ([(0%nat, quantile (scens 0%nat) (1 / 2))], [(0%nat, seq 0 (length (scens 0%nat)))])).

(** * Neural gas (131-203) *)
Section Gas.
Context (T L : nat) (idx : nat -> nat -> nat).   (* steps, leaves, tree_idxs *)
(** tree_builders.py:179-184: average of the scenarios through a node, one node after the other. *)
Definition through (t u : nat) : list nat := filter (fun s => (idx t s =? u)%nat) (seq 0 L).
(** Used by [average_node], tree_builders.py:144-189. *)
Definition mean (l : list R) : R := Rsum l / INR (length l).
(** Used by [average_step], tree_builders.py:144-189. *)
Definition average_node (t u : nat) (S : nat -> nat -> R) : nat -> nat -> R :=
  fun t' s => if (t' =? t)%nat && (s <? L)%nat && (idx t s =? u)%nat then mean (map (S t) (through t u)) else S t' s.
(** Used by [average], tree_builders.py:144-189. *)
Definition average_step (S : nat -> nat -> R) (t : nat) : nat -> nat -> R :=
  fold_left (fun S u => average_node t u S) (uniq_sorted (map (idx t) (seq 0 L))) S.
(** Used by [gas], tree_builders.py:144-189. *)
Definition average (S : nat -> nat -> R) : nat -> nat -> R := fold_left average_step (seq 0 T) S.
(** tree_builders.py:192-203. [None]: AssertionError. *)
Definition node_value (S : nat -> nat -> R) (i : nat) : option R :=
  let l := map (fun p => S (fst p) (snd p)) (filter (fun p => (idx (fst p) (snd p) =? i)%nat) (list_prod (seq 0 T) (seq 0 L))) in
  match l with
  | [] => None
  | v :: l' => if forallb (fun w => if Req_EM_T w v then true else false) l' then Some v else None
  end.
(** Used by [update_tree], tree_builders.py:144-189. *)
Fixpoint values_from (S : nat -> nat -> R) (is : list nat) : option (list R) :=
  match is with
  | [] => Some []
  | i :: is' => match node_value S i, values_from S is' with Some v, Some l => Some (v :: l) | _, _ => None end
  end.
(** Used by [gas], tree_builders.py:144-189. *)
Definition update_tree (S : nat -> nat -> R) (n_nodes : nat) : option (list R) := values_from S (seq 0 n_nodes).
(** tree_builders.py:166-177: the pull towards scenario [x]; [argsort] breaks ties at will. *)
Definition distance (S : nat -> nat -> R) (x : nat -> R) (s : nat) : R := mean (map (fun t => (x t - S t s) ^ 2) (seq 0 T)).
(** Used by [pull], tree_builders.py:144-189. *)
Definition strength (argsort : (nat -> R) -> nat -> nat -> nat) (e lambda : R) (S : nat -> nat -> R) (x : nat -> R) (s : nat) : R :=
  Rmin (e * exp (- INR (argsort (distance S x) L s) / lambda)) 1.
(** Used by [gas], tree_builders.py:144-189. *)
Definition pull (argsort : (nat -> R) -> nat -> nat -> nat) (e lambda : R) (x : nat -> R) (S : nat -> nat -> R) : nat -> nat -> R :=
  fun t s => S t s + strength argsort e lambda S x s * (x t - S t s).
(** Used by [gas], tree_builders.py:144-189. *)
Definition decay (a b k kmax : R) : R := a * Rpower (b / a) (k / kmax).
(** tree_builders.py:144-189; [drawn k] = scenario drawn at iteration [k]; [rel] = [rel_dev]. Result: node
    values of the tree, tree_scens, returned tree_vals. *)
Fixpoint gas (argsort : (nat -> R) -> nat -> nat -> nat) (n_nodes kmax : nat) (scens : nat -> nat -> R) (drawn : nat -> nat) (tol : R)
    (todo k : nat) (rel : R) (S : nat -> nat -> R) (tv : list R) : option (list R * (nat -> nat -> R) * list R) :=
  match todo with
  | O => option_map (fun v => (v, S, tv)) (update_tree S n_nodes)
  | Datatypes.S todo' =>
      if Rltb tol rel then
      match update_tree S n_nodes with
      | None => None
      | Some tv' =>
          let S1 := pull argsort (decay 5 (5 / 100) (INR k) (INR kmax)) (decay 5 (5 / 100) (INR k) (INR kmax))
                         (fun t => scens t (drawn k)) S in
          gas argsort n_nodes kmax scens drawn tol todo' (Datatypes.S k) rel (average S1) tv'
      end
      else option_map (fun v => (v, S, tv)) (update_tree S n_nodes)
  end.
End Gas.

(** * DiffTree (tree_builders.py:206-247): [continue] decides from the loss and the previous loss whether to
    go on; [wide] is [rel_dev > tol]. Result: node values, learning rate. *)
Fixpoint diff_loop (loss : list R -> R) (gradient : list R -> list R) (wide : R -> R -> bool) (eval : nat)
    (todo k : nat) (go : bool) (vals : list R) (rate past : R) : list R * R :=
  match todo with
  | O => (vals, rate)
  | S todo' =>
      if go then
        let '(rate', past', go') :=
          if (k mod eval =? 0)%nat then
            let l := loss vals in
            let go' := wide l past in
            let past' := l in
            ((if Rltb past' l then rate * (8 / 10) else rate), past', go')
          else (rate, past, go) in
        diff_loop loss gradient wide eval todo' (S k) go'
          (map (fun p => fst p - snd p * rate') (combine vals (gradient vals))) rate' past'
      else (vals, rate)
  end.
(** The returned scenarios are those read before [init_vals] (tree_builders.py:217-218, 247). *)
Definition diff_tree (loss : list R -> R) (gradient : list R -> list R) (wide : R -> R -> bool) (eval kmax : nat)
    (base_scens : nat -> nat -> R) (vals : list R) (rate : R) : list R * (nat -> nat -> R) * R :=
  let '(v, r) := diff_loop loss gradient wide eval kmax 0 true vals rate (1 / 1000000) in (v, base_scens, r).
