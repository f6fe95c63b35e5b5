(** Properties of scenario reduction and scenario trees: C25, C26, C27, C29, C63, C64,
    C75, C76, C77, C78, C211, C214, C215, C216, C217. *)
From Coq Require Import List ZArith Bool Arith Reals Lra Lia Sorted Permutation.
From Verif Require Import Model.Subsample Model.Stats Model.Metrics Model.Scenred Model.TreeBuild Model.TreeLoss Model.ScenDist
  Spec.ScenredSpec Spec.ScenDistSpec Spec.TreeBuildSpec Spec.StatsSpec Spec.TreeInitSpec Spec.CopulaFitSpec Spec.TreeLossSpec Proof.StatsProof Proof.ScenredProof Proof.ScenredProof2 Proof.ScenredProof3 Proof.ScenredProof4 Proof.ScenredTolProof Proof.ScenredUnitProof Proof.ScenDistProof
  Proof.TreeBuildProof Proof.TreeBuildProof2 Proof.TreeBuildProof3 Proof.TreeInitProof Proof.TreeLossProof Proof.TreeGradProof Proof.TreeSoftProof Proof.TreeCountProof.
Import ListNotations.
Local Open Scope R_scope.

(** C25 *)
Theorem C25_probability :
  forall (V : Type) (eqd : forall a b : V, {a = b} + {a <> b}) T N dist nearest t0 ns (samples : nat -> nat -> V) n SS PP net,
  (0 < T)%nat -> (0 < N)%nat -> usable_distance T N dist -> finds_smallest nearest ->
  (forall i, (0 < i < T)%nat -> (1 <= node_counts ns i)%nat) ->
  scenred eqd T N dist nearest t0 ns samples = ((n, SS, PP), net) ->
  forall t, (t < T)%nat -> (forall k, (k < n)%nat -> 0 <= PP t k) /\ sum_over n (PP t) = 1.
Proof. exact (@reduction_probability). Qed.
Print Assumptions C25_probability.
Definition example_distance (t r c : nat) : R := if (r =? c)%nat then 0 else 1.
Example C25_case : usable_distance 3 4 example_distance /\ separated 3 4 example_distance /\
  finds_smallest argmin /\ (forall i, (0 < i < 3)%nat -> (1 <= node_counts (Some (fun i => i)) i)%nat).
Proof.
  split; [|split; [|split]].
  - intros r c _ _. unfold example_distance. rewrite Nat.eqb_refl. destruct (r =? c)%nat; lra.
  - intros t r c _ _ _ H. unfold example_distance. destruct (Nat.eqb_spec r c); [contradiction|lra].
  - exact argmin_finds.
  - intros i Hi. cbn. lia.
Qed.

(** C26 *)
Theorem C26_tree :
  forall (V : Type) (eqd : forall a b : V, {a = b} + {a <> b}) T N dist nearest t0 ns (samples : nat -> nat -> V) n SS PP net,
  (0 < T)%nat -> (0 < N)%nat -> usable_distance T N dist -> finds_smallest nearest ->
  (forall i, (0 < i < T)%nat -> (1 <= node_counts ns i)%nat) ->
  scenred eqd T N dist nearest t0 ns samples = ((n, SS, PP), net) ->
  exists orig assign, reduced T N n samples SS PP orig assign.
Proof. exact (@reduction_tree). Qed.
Print Assumptions C26_tree.
Theorem C26_counts :
  forall (V : Type) (eqd : forall a b : V, {a = b} + {a <> b}) T N dist nearest t0 f (samples : nat -> nat -> V) n SS PP net,
  (0 < T)%nat -> (0 < N)%nat -> usable_distance T N dist -> separated T N dist -> finds_smallest nearest ->
  (forall i, (0 < i < T)%nat -> (1 <= f i)%nat) -> (exists i, (i < T)%nat /\ f i <> 1%nat) ->
  scenred eqd T N dist nearest t0 (Some f) samples = ((n, SS, PP), net) ->
  forall t, (t < T)%nat -> how_many_nodes n (PP t) =
    Nat.min (if (t =? 0)%nat then 1%nat else f t) (if (S t =? T)%nat then N else how_many_nodes n (PP (S t))).
Proof. exact (@reduction_counts). Qed.
Print Assumptions C26_counts.
Theorem C26_exact_counts :
  forall (V : Type) (eqd : forall a b : V, {a = b} + {a <> b}) T N dist nearest t0 f (samples : nat -> nat -> V) n SS PP net,
  (0 < T)%nat -> (0 < N)%nat -> usable_distance T N dist -> separated T N dist -> finds_smallest nearest ->
  (forall i, (0 < i < T)%nat -> (1 <= f i)%nat) -> (exists i, (i < T)%nat /\ f i <> 1%nat) ->
  (forall i, (S i < T)%nat -> (f i <= f (S i))%nat) -> (f (T - 1) <= N)%nat ->
  scenred eqd T N dist nearest t0 (Some f) samples = ((n, SS, PP), net) ->
  forall t, (t < T)%nat -> how_many_nodes n (PP t) = if (t =? 0)%nat then 1%nat else f t.
Proof. exact (@reduction_exact). Qed.
Print Assumptions C26_exact_counts.
Theorem C26_one_root :
  forall (V : Type) (eqd : forall a b : V, {a = b} + {a <> b}) T N dist nearest t0 ns (samples : nat -> nat -> V) n SS PP net,
  (0 < T)%nat -> (0 < N)%nat -> usable_distance T N dist -> separated T N dist -> finds_smallest nearest ->
  (forall i, (0 < i < T)%nat -> (1 <= node_counts ns i)%nat) ->
  scenred eqd T N dist nearest t0 ns samples = ((n, SS, PP), net) -> how_many_nodes n (PP 0%nat) = 1%nat.
Proof. exact (@reduction_one_root). Qed.
Print Assumptions C26_one_root.
Theorem C26_tolerance :
  forall (V : Type) (eqd : forall a b : V, {a = b} + {a <> b}) T N dist nearest t0 (samples : nat -> nat -> V) n SS PP net a b m,
  (2 <= T)%nat -> (3 <= N)%nat -> usable_distance T N dist -> separated T N dist -> finds_smallest nearest ->
  closest_pair T N dist a b -> most_central T N dist m ->
  scenred eqd T N dist nearest t0 None samples = ((n, SS, PP), net) ->
  let first := dist (T - 1)%nat a b / INR N / sum_over N (fun r => dist (T - 1)%nat r m) in
  let allowed := t0 / (3 / 2) ^ (T + 1) in
  (allowed <= 0 -> n = N) /\ (0 < allowed <= first -> n = (N - 1)%nat) /\ (first < allowed -> (n <= N - 2)%nat).
Proof. exact (@reduction_by_tolerance). Qed.
Print Assumptions C26_tolerance.
Example C26_tolerance_case : closest_pair 3 4 example_distance 0 1 /\ most_central 3 4 example_distance 0.
Proof.
  split; [split; [lia|]; split; [lia|]; split; [lia|]|split; [lia|]].
  - intros r c _ _ H. unfold example_distance. destruct (Nat.eqb_spec r c); [contradiction|]. cbn. lra.
  - intros [|[|[|[|c]]]] Hc; try lia; unfold sum_over, MetricsSpec.total, example_distance; cbn; lra.
Qed.
Example C26_case : exists i, (i < 3)%nat /\ (fun i : nat => S i) i <> 1%nat.
Proof. exists 1%nat. split; [lia|discriminate]. Qed.

(** C27 *)
Theorem C27_network :
  forall (V : Type) (eqd : forall a b : V, {a = b} + {a <> b}) T N dist nearest t0 ns (samples : nat -> nat -> V) n SS PP net,
  (2 <= T)%nat -> (0 < N)%nat -> usable_distance T N dist -> separated T N dist -> finds_smallest nearest ->
  (forall i, (0 < i < T)%nat -> (1 <= node_counts ns i)%nat) ->
  (forall t c d, (t < T)%nat -> (c < N)%nat -> (d < N)%nat -> samples t c = samples t d -> c = d) ->
  scenred eqd T N dist nearest t0 ns samples = ((n, SS, PP), net) ->
  exists g, net = Some g /\ rooted_tree g /\ consistent T g /\
    (forall s, (s < n)%nat -> carries T g SS PP s) /\
    forall t, (t < T)%nat -> length (filter (fun x => (n_time x =? t)%nat) (g_nodes g)) = how_many_nodes n (PP t).
Proof. exact (@reduction_network). Qed.
Print Assumptions C27_network.
Theorem C27_any_tree :
  forall (V : Type) (eqd : forall a b : V, {a = b} + {a <> b}) T n (SS : nat -> nat -> V) PP rep,
  scenario_tree T n SS PP rep -> distinct_values T n SS PP -> (2 <= T)%nat -> how_many_nodes n (PP 0%nat) = 1%nat ->
  exists g, get_network eqd T n SS PP = Some g /\ rooted_tree g /\ consistent T g /\
    (forall s, (s < n)%nat -> carries T g SS PP s) /\
    forall t, (t < T)%nat -> length (filter (fun x => (n_time x =? t)%nat) (g_nodes g)) = how_many_nodes n (PP t).
Proof. exact (@network_tree). Qed.
Print Assumptions C27_any_tree.
Theorem C27_needs_root :
  forall (V : Type) (eqd : forall a b : V, {a = b} + {a <> b}) T n (SS : nat -> nat -> V) PP,
  how_many_nodes n (PP 0%nat) <> 1%nat -> get_network eqd T n SS PP = None.
Proof. exact (@network_needs_root). Qed.
Print Assumptions C27_needs_root.
Theorem C27_same_start_refuted :
  forall (V : Type) (eqd : forall a b : V, {a = b} + {a <> b}) T N dist nearest t0 f (samples : nat -> nat -> V) n SS PP net,
  (2 <= T)%nat -> (3 <= N)%nat -> usable_distance T N dist -> finds_smallest nearest ->
  (forall i, (0 < i < T)%nat -> (3 <= f i)%nat) -> (forall r c, dist 0%nat r c = 0) ->
  scenred eqd T N dist nearest t0 (Some f) samples = ((n, SS, PP), net) -> net = None.
Proof. exact (@reduction_same_start). Qed.
Print Assumptions C27_same_start_refuted.
Theorem C27_equal_values_refuted :
  forall (V : Type) (eqd : forall a b : V, {a = b} + {a <> b}) T n (SS : nat -> nat -> V) PP g,
  get_network eqd T n SS PP = Some g ->
  forall i j x y, nth_error (g_nodes g) i = Some x -> nth_error (g_nodes g) j = Some y -> n_time x = n_time y -> n_val x = n_val y -> i = j.
Proof. exact (@network_loses_equal). Qed.
Print Assumptions C27_equal_values_refuted.
Theorem C27_one_step_refuted :
  forall (V : Type) (eqd : forall a b : V, {a = b} + {a <> b}) n (SS : nat -> nat -> V) PP g,
  get_network eqd 1 n SS PP = Some g -> g_nodes g = [] /\ g_edges g = [].
Proof. exact (@network_one_step). Qed.
Print Assumptions C27_one_step_refuted.
Example C27_case : forall t c d : nat, (t < 3)%nat -> (c < 4)%nat -> (d < 4)%nat ->
  (fun t c => (10 * t + c)%nat) t c = (fun t c => (10 * t + c)%nat) t d -> c = d.
Proof. intros t c d _ _ _ E. cbn beta in E. lia. Qed.

(** C29 *)
Local Close Scope R_scope.
Theorem C29_quantile_tree :
  forall ns, multiples ns ->
  exists g, base_tree ns = Some g /\ rooted_tree g /\ consistent (length ns) g /\
    forall t, t < length ns -> length (nodes_at_time g t) = nth t ns 0 /\
      forall k, In k (nodes_at_time g t) -> prob_of g k = (1 / INR (nth t ns 0%nat))%R.
Proof. exact (@base_tree_correct). Qed.
Print Assumptions C29_quantile_tree.
Theorem C29_domain :
  forall ns g, nth 0 ns 0 = 1 -> base_tree ns = Some g -> multiples ns.
Proof. exact (@base_tree_domain). Qed.
Print Assumptions C29_domain.
Local Open Scope R_scope.
Example C29_case : multiples [1; 2; 2; 6]%nat.
Proof.
  split; [reflexivity|]. intros [|[|[|t]]] Ht; cbn in Ht |- *; [exists 2%nat|exists 1%nat|exists 3%nat|lia]; lia.
Qed.

(** C63 *)
Theorem C63_refinement :
  forall T L n idx argsort kmax scens drawn tol lo hi todo k rel S tv, node_positions T L n idx ->
  share_nodes T L idx S -> (forall t s, (t < T)%nat -> (s < L)%nat -> between lo hi (S t s)) ->
  (forall t k, (t < T)%nat -> between lo hi (scens t (drawn k))) ->
  exists v S' tv', gas T L idx argsort n kmax scens drawn tol todo k rel S tv = Some (v, S', tv') /\ length v = n /\ read_off T L idx S' v /\ forall x, In x v -> between lo hi x.
Proof. exact (@gas_refines). Qed.
Print Assumptions C63_refinement.
Local Close Scope R_scope.
Theorem C63_positions :
  forall (V : Type) (g : graph V) T cols leaves, rooted_tree g -> consistent T g -> retrieve g = Some (cols, leaves) ->
  (exists x, x < length (g_nodes g) /\ S (time_of g x) = T) ->
  node_positions T (length cols) (length (g_nodes g)) (fun t s => nth t (nth s cols []) 0).
Proof. exact (@retrieve_positions). Qed.
Print Assumptions C63_positions.
Local Open Scope R_scope.
Theorem C63_returned_values_refuted :
  forall argsort tol, sorts argsort -> tol < 1 ->
  exists S', gas 1 1 (fun _ _ => 0%nat) argsort 1 1 (fun _ _ => 1) (fun _ => 0%nat) tol 1 0 1 (fun _ _ => 0) [0] = Some ([1], S', [0]).
Proof. exact (@gas_stale). Qed.
Print Assumptions C63_returned_values_refuted.
Example C63_case : node_positions 2 2 3 (fun t s => (t * (1 + s))%nat) /\ share_nodes 2 2 (fun t s => (t * (1 + s))%nat) (fun t s => INR (t * s)).
Proof.
  split; [split; [|split]|].
  - intros t s Ht Hs. nia.
  - intros [|[|[|i]]] Hi; try lia; [exists 0%nat, 0%nat|exists 1%nat, 0%nat|exists 1%nat, 1%nat]; cbn; lia.
  - intros t s t' s' Ht Hs Ht' Hs' E. destruct t as [|[|]], t' as [|[|]]; try lia; cbn in E; lia.
  - intros t s t' s' Ht Hs Ht' Hs' E. destruct t as [|[|]], t' as [|[|]]; try lia; cbn in *; try lia; [reflexivity|]. replace s' with s by lia. reflexivity.
Qed.

(** C64 *)
Local Close Scope R_scope.
Theorem C64_paths :
  forall (V : Type) (g : graph V), rooted_tree g ->
  exists cols leaves, retrieve g = Some (cols, leaves) /\ NoDup leaves /\
    (forall x, In x leaves <-> x < length (g_nodes g) /\ forall y, y < length (g_nodes g) -> time_of g y <= time_of g x) /\
    Forall2 (path_to g) cols leaves /\ forall path x, In x leaves -> path_to g path x -> In path cols.
Proof. exact (@retrieve_tree). Qed.
Print Assumptions C64_paths.
Local Open Scope R_scope.
Example C64_case : exists g, base_tree [1; 2; 4]%nat = Some g /\ rooted_tree g.
Proof.
  destruct (base_tree_correct [1; 2; 4]%nat) as (g & A & B & _); [|eauto].
  split; [reflexivity|]. intros [|[|t]] Ht; cbn in Ht |- *; [exists 2%nat|exists 2%nat|lia]; lia.
Qed.

(** C75 *)
Theorem C75_initial_values_partial :
  forall (V : Type) T N (g : graph V) scens, (0 < T)%nat -> (0 < N)%nat -> (forall t, (t < T)%nat -> length (scens t) = N) -> rooted_tree g ->
  (forall k, (k < length (g_nodes g))%nat -> (time_of g k < T)%nat) ->
  exists vals filters, init_vals T g scens = Some (vals, filters) /\
    forall k, (k < length (g_nodes g))%nat -> exists v, get vals k = Some v /\
      (time_of g k = 0%nat -> v = quantile (scens 0%nat) (1 / 2)) /\
      forall t, time_of g k = S t -> forall lo hi, (forall x, In x (scens t) -> lo <= x <= hi) -> lo <= v <= hi.
Proof. exact (@initial_values). Qed.
Print Assumptions C75_initial_values_partial.
Theorem C75_own_step_refuted :
  forall (V : Type) T N (g : graph V) scens k t vals filters v, (0 < N)%nat -> (forall t, (t < T)%nat -> length (scens t) = N) -> rooted_tree g ->
  (forall k, (k < length (g_nodes g))%nat -> (time_of g k < T)%nat) ->
  init_vals T g scens = Some (vals, filters) -> (k < length (g_nodes g))%nat -> time_of g k = S t -> get vals k = Some v ->
  (forall x y, In x (scens t) -> In y (scens (S t)) -> x < y) -> forall y, In y (scens (S t)) -> v < y.
Proof. exact (@initial_values_lag). Qed.
Print Assumptions C75_own_step_refuted.
Example C75_case : let scens := fun t : nat => [2 * INR t; 2 * INR t + 1] in
  (forall t, (t < 3)%nat -> length (scens t) = 2%nat) /\ forall t x y, In x (scens t) -> In y (scens (S t)) -> x < y.
Proof. cbv zeta. split; [reflexivity|]. intros t x y Hx Hy. rewrite S_INR in Hy. cbn in Hx, Hy. destruct Hx as [<-|[<-|[]]], Hy as [<-|[<-|[]]]; lra. Qed.

(** C76 *)
Local Close Scope R_scope.
Theorem C76_kept_partial :
  forall n_scen ns, length ns <> n_scen - 1 -> ns <> [] ->
  length (fst (prepare_counts n_scen ns)) = length ns /\ nth 0 (fst (prepare_counts n_scen ns)) 0 = 1 /\
  (forall t, 0 < t -> nth t (fst (prepare_counts n_scen ns)) 0 = nth t ns 0) /\
  (snd (prepare_counts n_scen ns) = true <-> nth 0 ns 0 <> 1).
Proof. exact (@counts_kept). Qed.
Print Assumptions C76_kept_partial.
Theorem C76_length_refuted :
  forall n_scen ns, length ns = n_scen - 1 -> 1 <= n_scen -> length (fst (prepare_counts n_scen ns)) = S (length ns).
Proof. exact (@counts_extended). Qed.
Print Assumptions C76_length_refuted.
Local Open Scope R_scope.
Example C76_case : length [1; 2; 4]%nat = (4 - 1)%nat /\ fst (prepare_counts 4 [1; 2; 4]%nat) = [1; 1; 2; 4]%nat /\ prepare_counts 10 [3; 6]%nat = ([1; 6]%nat, true).
Proof. repeat split. Qed.

(** C77 *)
Theorem C77_nearest_refuted :
  forall argsort e lambda, sorts argsort -> 0 < e -> 0 < lambda -> e * exp (- 1 / lambda) < 1 ->
  exists S x near far, (near < 3)%nat /\ (far < 3)%nat /\ (forall s, (s < 3)%nat -> distance 1 S x near <= distance 1 S x s) /\ (forall s, (s < 3)%nat -> distance 1 S x s <= distance 1 S x far) /\
    distance 1 S x near < distance 1 S x far /\ strength 1 3 argsort e lambda S x near < strength 1 3 argsort e lambda S x far.
Proof. exact (@gas_ranks). Qed.
Print Assumptions C77_nearest_refuted.
Theorem C77_tolerance_refuted :
  forall T L n idx argsort kmax scens drawn tol tol', forall todo k S tv, tol < 1 -> tol' < 1 ->
  gas T L idx argsort n kmax scens drawn tol todo k 1 S tv = gas T L idx argsort n kmax scens drawn tol' todo k 1 S tv.
Proof. exact (@gas_tolerance_ignored). Qed.
Print Assumptions C77_tolerance_refuted.
Theorem C77_pull_partial :
  forall T L argsort e lambda x S t s, 0 < e ->
  exists c, 0 < c <= 1 /\ pull T L argsort e lambda x S t s = (1 - c) * S t s + c * x t.
Proof. exact (@gas_pull_towards). Qed.
Print Assumptions C77_pull_partial.
Theorem C77_nearest_partial :
  forall T L argsort e lambda S x s s', sorts argsort -> 0 < e -> 0 < lambda -> (s < L)%nat -> (s' < L)%nat ->
  (forall i, (i < L)%nat -> argsort (distance T S x) L (argsort (distance T S x) L i) = i) ->
  distance T S x s < distance T S x s' -> strength T L argsort e lambda S x s' <= strength T L argsort e lambda S x s.
Proof. exact (@gas_nearest_involutive). Qed.
Print Assumptions C77_nearest_partial.
Theorem C77_two_leaves_partial :
  forall T argsort e lambda S x s s', sorts argsort -> 0 < e -> 0 < lambda -> (s < 2)%nat -> (s' < 2)%nat ->
  distance T S x s < distance T S x s' -> strength T 2 argsort e lambda S x s' <= strength T 2 argsort e lambda S x s.
Proof. exact (@gas_nearest_two). Qed.
Print Assumptions C77_two_leaves_partial.
(** Two leaves at distances 1 and 4. *)
Example C77_two_case : distance 1 (fun _ s => INR (S s)) (fun _ => 0) 0 < distance 1 (fun _ s => INR (S s)) (fun _ => 0) 1.
Proof. unfold distance, mean. cbn. lra. Qed.

Example C77_case : exists e lambda, 0 < e /\ 0 < lambda /\ e * exp (- 1 / lambda) < 1.
Proof. exists 1, 1. repeat split; try lra. rewrite Rmult_1_l. apply (Rlt_le_trans _ (exp 0)); [apply exp_increasing; lra|rewrite exp_0; lra]. Qed.

(** C78 *)
Theorem C78_descent_refuted :
  forall loss gradient wide eval kmax base vals rate,
  snd (diff_tree loss gradient wide eval kmax base vals rate) = rate /\ snd (fst (diff_tree loss gradient wide eval kmax base vals rate)) = base.
Proof. exact (@diff_tree_rate). Qed.
Print Assumptions C78_descent_refuted.
Theorem C78_descent_partial :
  forall loss gradient wide eval kmax base vals rate, exists n, (n <= kmax)%nat /\ fst (fst (diff_tree loss gradient wide eval kmax base vals rate)) = descend gradient rate n vals /\
  ((forall v, loss (map (fun p => fst p - snd p * rate) (combine v (gradient v))) <= loss v) -> loss (fst (fst (diff_tree loss gradient wide eval kmax base vals rate))) <= loss vals).
Proof. exact (@diff_tree_descends). Qed.
Print Assumptions C78_descent_partial.
(** The square of one value, with rate 1/4. *)
Definition square_loss (v : list R) : R := hd 0 v * hd 0 v.
Definition square_gradient (v : list R) : list R := match v with [] => [] | a :: _ => [2 * a] end.
Example C78_case : forall v, square_loss (map (fun p => fst p - snd p * / 4) (combine v (square_gradient v))) <= square_loss v.
Proof. intros [|a v]; unfold square_loss; cbn; [lra|]. nra. Qed.


(** C211 *)
Theorem C211_tree :
  forall T N m nearest t0 ns samples n SS PP net,
  (0 < T)%nat -> (0 < N)%nat -> moderate_size T N m -> finds_smallest nearest ->
  (forall i, (0 < i < T)%nat -> (1 <= node_counts ns i)%nat) ->
  scenred_values T N m nearest t0 ns samples = ((n, SS, PP), net) ->
  exists orig assign, reduced T N n samples SS PP orig assign.
Proof. exact (@code_tree). Qed.
Print Assumptions C211_tree.
Theorem C211_origin :
  forall T N m nearest t0 ns samples d n SS PP net,
  (0 < T)%nat -> (0 < N)%nat -> moderate_size T N m -> finds_smallest nearest -> compares nearest ->
  (forall i, (0 < i < T)%nat -> (1 <= node_counts ns i)%nat) -> complete m samples ->
  scenred_values T N m nearest t0 ns samples = ((n, SS, PP), net) ->
  exists SS' PP', scenred_values T N m nearest t0 ns (fun u c => moved (d u) (samples u c)) = ((n, SS', PP'), option_map (relabelled (fun u => moved (d u))) net) /\
    forall u s, SS' u s = moved (d u) (SS u s) /\ PP' u s = PP u s.
Proof. exact (@tree_moved). Qed.
Print Assumptions C211_origin.
Theorem C211_unit_partial :
  forall T N m nearest t0 ns samples k s n SS PP net,
  (0 < T)%nat -> (0 < N)%nat -> moderate_size T N m -> finds_smallest nearest -> compares nearest ->
  (forall i, (0 < i < T)%nat -> (1 <= node_counts ns i)%nat) ->
  k = -1 \/ k <> 0 /\ (forall u j, (u < T)%nat -> (j < m)%nat -> scen_std N (variable samples u j) = s) ->
  scenred_values T N m nearest t0 ns samples = ((n, SS, PP), net) ->
  exists SS' PP', scenred_values T N m nearest t0 ns (fun u c => multiplied k (samples u c)) = ((n, SS', PP'), option_map (relabelled (fun _ => multiplied k)) net) /\
    forall u s, SS' u s = multiplied k (SS u s) /\ PP' u s = PP u s.
Proof. exact (@tree_multiplied). Qed.
Print Assumptions C211_unit_partial.
Theorem C211_unit_refuted :
  forall k nearest, 0 < k -> k <> 1 -> finds_smallest nearest ->
  exists t0 samples n SS PP net n' SS' PP' net', complete 2 samples /\
    scenred_values 2 4 2 nearest t0 None samples = ((n, SS, PP), net) /\
    scenred_values 2 4 2 nearest t0 None (fun u c => multiplied k (samples u c)) = ((n', SS', PP'), net') /\
    (1 < k -> (n < n')%nat) /\ (k < 1 -> (n' < n)%nat).
Proof. exact (@unit_matters). Qed.
Print Assumptions C211_unit_refuted.
Example C211_case : compares argmin /\ finds_smallest argmin /\ moderate_size 24 100 1 /\ complete 2 two_by_two /\
  (forall d u c, moved (d u) (two_by_two u c) <> two_by_two u c \/ d u 0%nat = 0).
Proof.
  split; [|split; [exact argmin_finds|split; [|split]]].
  - intros f g [|n] H; [reflexivity|]. apply argmin_compares; [lia|exact H].
  - unfold moderate_size. apply Rle_lt_trans with (24 * 15); [|lra]. rewrite Rmult_comm. rewrite (Rmult_comm 24 15). apply Rmult_le_compat.
    + apply sqrt_pos.
    + cbn. lra.
    + rewrite <- (sqrt_square 15) by lra. apply sqrt_le_1_alt. replace (INR 100) with 100 by (cbn; lra). lra.
    + cbn. lra.
  - intros [|u] c; reflexivity.
  - intros d u c. destruct (Req_EM_T (d u 0%nat) 0) as [E|E]; [now right|left]. intros H. apply (f_equal (fun l => nth 0 l 0)) in H.
    rewrite moved_nth in H by (destruct u; cbn; lia). lra.
Qed.

(** C214: shares of the scenarios among the children of a node. *)
Theorem C214_cells :
  forall (V : Type) T (g : graph V) scens vals filters, rooted_tree g -> (forall k, (k < length (g_nodes g))%nat -> (time_of g k < T)%nat) ->
  init_vals T g scens = Some (vals, filters) ->
  get filters 0%nat = Some (seq 0 (length (scens 0%nat))) /\
  forall j i k, nth_error (children_of g j) i = Some k ->
  exists f f', get filters j = Some f /\ get filters k = Some f' /\
    share (scens (S (time_of g j))) f (length (children_of g j)) i f' /\
    get vals k = Some (quantile (values_of (scens (time_of g j)) f) (INR (S i) / INR (length (children_of g j) + 1))).
Proof. exact (@initial_cells). Qed.
Print Assumptions C214_cells.
Theorem C214_covered :
  forall (V : Type) T N (g : graph V) scens vals filters, (0 < N)%nat -> (forall t, (t < T)%nat -> length (scens t) = N) -> rooted_tree g ->
  (forall k, (k < length (g_nodes g))%nat -> (time_of g k < T)%nat /\ ((S (time_of g k) < T)%nat -> children_of g k <> [])) ->
  init_vals T g scens = Some (vals, filters) ->
  forall t c, (t < T)%nat -> (c < N)%nat -> exists k f, (k < length (g_nodes g))%nat /\ time_of g k = t /\ get filters k = Some f /\ In c f.
Proof. exact (@initial_covered). Qed.
Print Assumptions C214_covered.
Theorem C214_order :
  forall (V : Type) T N (g : graph V) scens vals filters j i i' k k' v v', (0 < N)%nat -> (forall t, (t < T)%nat -> length (scens t) = N) -> rooted_tree g ->
  (forall k, (k < length (g_nodes g))%nat -> (time_of g k < T)%nat) -> init_vals T g scens = Some (vals, filters) ->
  nth_error (children_of g j) i = Some k -> nth_error (children_of g j) i' = Some k' -> (i <= i')%nat -> get vals k = Some v -> get vals k' = Some v' -> v <= v'.
Proof. exact (@initial_order). Qed.
Print Assumptions C214_order.
Theorem C214_once_partial :
  forall (V : Type) T (g : graph V) scens vals filters j i i' k k' f f' f'' c, rooted_tree g ->
  (forall k, (k < length (g_nodes g))%nat -> (time_of g k < T)%nat) -> init_vals T g scens = Some (vals, filters) ->
  nth_error (children_of g j) i = Some k -> nth_error (children_of g j) i' = Some k' -> (i < i')%nat ->
  get filters j = Some f -> get filters k = Some f' -> get filters k' = Some f'' -> f' <> f -> f'' <> f -> In c f' -> In c f'' ->
  let row := scens (S (time_of g j)) in let b := boundary row f (length (children_of g j)) in
  b i' - 1 / 1000000 < nth c row 0 <= b (S i).
Proof. exact (@initial_apart). Qed.
Print Assumptions C214_once_partial.
(** Missing: scenarios at a boundary. *)
Theorem C214_once_refuted :
  forall (V : Type) T (g : graph V) scens vals filters j i k k' f c, rooted_tree g ->
  (forall k, (k < length (g_nodes g))%nat -> (time_of g k < T)%nat) -> init_vals T g scens = Some (vals, filters) ->
  nth_error (children_of g j) i = Some k -> nth_error (children_of g j) (S i) = Some k' -> get filters j = Some f -> In c f ->
  let row := scens (S (time_of g j)) in let b := boundary row f (length (children_of g j)) (S i) in
  b - 1 / 1000000 < nth c row 0 <= b -> exists f' f'', get filters k = Some f' /\ get filters k' = Some f'' /\ In c f' /\ In c f''.
Proof. exact (@initial_overlap). Qed.
Print Assumptions C214_once_refuted.
Example C214_case : exists g, base_tree [1; 2; 4]%nat = Some g /\ rooted_tree g /\
  forall k, (k < length (g_nodes g))%nat -> (time_of g k < 3)%nat /\ ((S (time_of g k) < 3)%nat -> children_of g k <> []).
Proof.
  destruct (base_tree_correct [1; 2; 4]%nat) as (g & A & B & C & _).
  - split; [reflexivity|]. intros [|[|t]] Ht; cbn in Ht |- *; [exists 2%nat|exists 2%nat|lia]; lia.
  - exists g. split; [exact A|]. split; [exact B|]. intros k Hk. destruct C as [_ C]. destruct (C k Hk) as (P & Q & Sh). cbn in Q, Sh. split; [exact Q|].
    intros H E. specialize (Sh H). rewrite E in Sh. cbn in Sh. lra.
Qed.
(** Three scenarios, two children: the middle scenario belongs to both. *)
Example C214_middle : boundary [0; 1; 2] [0; 1; 2]%nat 2 1 = nth 1 [0; 1; 2] 0.
Proof.
  unfold boundary, values_of. cbn [map nth]. destruct (quantile_interpolates [0; 1; 2] [0; 1; 2]) as [_ H].
  - split; [reflexivity|]. repeat constructor; lra.
  - specialize (H 1%nat 0 ltac:(cbn; lia) ltac:(lra)). cbn in H |- *. replace (1 / (1 + 1)) with ((1 + 0) / (1 + 1)) by field. rewrite H. lra.
Qed.

(** C215: the loss of a tree and its descent. *)
Theorem C215_zero :
  forall T L N idx scens vals, (0 < T)%nat -> (0 < L)%nat -> 0 <= metric_loss T L N idx scens vals /\
  (metric_loss T L N idx scens vals = 0 <-> forall n, (n < N)%nat -> on_tree T L idx scens vals n).
Proof. exact (@loss_zero). Qed.
Print Assumptions C215_zero.
Theorem C215_unit :
  forall T L N idx scens vals k b, (forall t l, (t < T)%nat -> (l < L)%nat -> (idx t l < length vals)%nat) ->
  metric_loss T L N idx (fun t n => k * scens t n + b) (map (fun v => k * v + b) vals) = k ^ 2 * metric_loss T L N idx scens vals.
Proof. exact (@loss_units). Qed.
Print Assumptions C215_unit.
Theorem C215_gradient :
  forall T L N idx scens shares vals i, (0 < T)%nat -> (0 < L)%nat -> tie_shares T L N idx scens shares -> no_ties T L N idx scens vals ->
  (forall t l, (t < T)%nat -> (l < L)%nat -> (idx t l < length vals)%nat) -> (i < length vals)%nat ->
  derivable_pt_lim (fun d => metric_loss T L N idx scens (bump vals i d)) 0 (nth i (loss_gradient T L N idx scens shares vals) 0).
Proof. exact (@gradient_correct). Qed.
Print Assumptions C215_gradient.
Theorem C215_descends_partial :
  forall T L N idx scens shares wide eval kmax base vals rate, (0 < T)%nat -> (0 < L)%nat -> once T L idx -> tie_shares T L N idx scens shares ->
  0 <= rate -> rate * INR N <= INR T ->
  metric_loss T L N idx scens (fst (fst (diff_tree (metric_loss T L N idx scens) (loss_gradient T L N idx scens shares) wide eval kmax base vals rate))) <= metric_loss T L N idx scens vals.
Proof. exact (@tree_descends). Qed.
Print Assumptions C215_descends_partial.
Theorem C215_default_partial :
  forall T L N idx scens shares wide eval kmax base vals, (0 < T)%nat -> (0 < L)%nat -> once T L idx -> tie_shares T L N idx scens shares ->
  (0 < N <= 10 * T)%nat ->
  metric_loss T L N idx scens (fst (fst (diff_tree (metric_loss T L N idx scens) (loss_gradient T L N idx scens shares) wide eval kmax base vals (default_rate N)))) <= metric_loss T L N idx scens vals.
Proof. exact (@default_descends). Qed.
Print Assumptions C215_default_partial.
(** Missing: more than ten scenarios per step. *)
Theorem C215_default_refuted :
  forall T N scens shares wide eval kmax base vals i, (0 < T)%nat -> tie_shares T 1 N (fun t _ => t) scens shares -> (10 * T < N)%nat ->
  length vals = T -> (i < T)%nat -> nth i vals 0 <> mean_of (scens i) N -> (0 < kmax)%nat ->
  metric_loss T 1 N (fun t _ => t) scens vals < metric_loss T 1 N (fun t _ => t) scens
    (fst (fst (diff_tree (metric_loss T 1 N (fun t _ => t) scens) (loss_gradient T 1 N (fun t _ => t) scens shares) wide eval kmax base vals (default_rate N)))).
Proof. exact (@default_diverges). Qed.
Print Assumptions C215_default_refuted.
(** A tree of two paths with a common root; a nearest path takes the whole derivative. *)
Definition forked (t l : nat) : nat := match t with O => O | S _ => S l end.
Definition nearest_share (T L : nat) (idx : nat -> nat -> nat) (scens : nat -> nat -> R) (vals : list R) (n l : nat) : R :=
  if (l =? argmin (path_distance T idx scens vals n) L)%nat then 1 else 0.
Example C215_case scens : once 2 2 forked /\ tie_shares 2 2 5 forked scens (nearest_share 2 2 forked scens) /\ (0 < 5 <= 10 * 2)%nat /\
  tie_shares 2 1 30 (fun t _ => t) scens (nearest_share 2 1 (fun t _ => t) scens) /\ (10 * 2 < 30)%nat.
Proof.
  assert (S : forall T L N idx, (0 < L)%nat -> tie_shares T L N idx scens (nearest_share T L idx scens)).
  { intros T L N idx HL vals n _. destruct (argmin_finds (path_distance T idx scens vals n) L HL) as (A & B). unfold nearest_share. split; [|split].
    - intros l _. destruct (_ =? _)%nat; lra.
    - set (m := argmin _ _) in *. clearbody m. clear B HL. assert (Z : forall k, (k <= m)%nat -> total (fun l => if (l =? m)%nat then 1 else 0) k = 0).
      { induction k as [|k IH]; intros Hk; cbn [total]; [reflexivity|]. rewrite IH by lia. destruct (Nat.eqb_spec k m); [lia|lra]. }
      induction L as [|L IH]; [lia|]. cbn [total]. destruct (Nat.eqb_spec L m) as [->|E]; [rewrite Z by lia; lra|rewrite IH by lia; lra].
    - intros l _ E. destruct (Nat.eqb_spec l (argmin (path_distance T idx scens vals n) L)) as [El|El]; [|exfalso; apply E; reflexivity]. rewrite El. split; [exact A|]. intros l' Hl'. now apply B. }
  split; [|split; [apply S; lia|split; [lia|split; [apply S; lia|lia]]]]. intros [|t] [|t'] l Ht Ht' _ E; cbn in E; lia.
Qed.
Example C215_gradient_case : no_ties 2 2 2 forked (fun t n => match t with O => 0 | S _ => INR n end) [0; 0; 1].
Proof.
  intros [|[|n]] Hn; [exists 0%nat|exists 1%nat|lia]; (split; [lia|]); intros [|[|l']] Hl' E; try lia; unfold path_distance, mean_of; cbn; lra.
Qed.

(** C216: the smooth loss. *)
Theorem C216_between :
  forall T L N idx scens vals, (0 < T)%nat -> (0 < L)%nat ->
  metric_loss T L N idx scens vals <= soft_loss T L N idx scens vals <= average_loss T L N idx scens vals.
Proof. exact (@soft_between). Qed.
Print Assumptions C216_between.
Theorem C216_zero_partial :
  forall T L N idx scens vals, (0 < T)%nat -> (0 < L)%nat ->
  (soft_loss T L N idx scens vals = 0 <-> forall n l t, (n < N)%nat -> (l < L)%nat -> (t < T)%nat -> scens t n = nth (idx t l) vals 0).
Proof. exact (@soft_zero). Qed.
Print Assumptions C216_zero_partial.
(** Missing: a tree that contains every scenario has no loss. *)
Theorem C216_zero_refuted :
  forall T L N idx scens vals n, (0 < T)%nat -> (0 < L)%nat -> (forall m, (m < N)%nat -> on_tree T L idx scens vals m) -> (n < N)%nat ->
  (exists t l l', (t < T)%nat /\ (l < L)%nat /\ (l' < L)%nat /\ nth (idx t l) vals 0 <> nth (idx t l') vals 0) ->
  metric_loss T L N idx scens vals = 0 /\ 0 < soft_loss T L N idx scens vals.
Proof. exact (@soft_perfect). Qed.
Print Assumptions C216_zero_refuted.
Example C216_case : (forall m, (m < 2)%nat -> on_tree 2 2 forked (fun t n => match t with O => 0 | S _ => INR n end) [0; 0; 1] m) /\
  nth (forked 1 0) [0; 0; 1] 0 <> nth (forked 1 1) [0; 0; 1] 0.
Proof.
  split; [|cbn; lra]. intros [|[|m]] Hm; [exists 0%nat|exists 1%nat|lia]; (split; [lia|]); intros [|[|t]] Ht; try lia; cbn; reflexivity.
Qed.

(** C217: numbers of nodes per time. *)
Local Close Scope R_scope.
Theorem C217_counts :
  forall V (g : graph V), rooted_tree g ->
  list_sum (get_nodes_per_time_from_tree g) = length (g_nodes g) /\
  (forall t, nth t (get_nodes_per_time_from_tree g) 0 = length (nodes_at_time g t)) /\
  forall t, t < length (get_nodes_per_time_from_tree g) <-> exists k, k < length (g_nodes g) /\ time_of g k = t.
Proof. exact (@nodes_per_time). Qed.
Print Assumptions C217_counts.
Theorem C217_round_trip :
  forall ns, multiples ns -> exists g, base_tree ns = Some g /\ get_nodes_per_time_from_tree g = ns.
Proof. exact (@counts_round_trip). Qed.
Print Assumptions C217_round_trip.
Local Open Scope R_scope.
Example C217_case : exists g, base_tree [1; 2; 2; 6]%nat = Some g /\ rooted_tree g /\ get_nodes_per_time_from_tree g = [1; 2; 2; 6]%nat.
Proof.
  destruct (base_tree_correct _ C29_case) as (g & A & B & _). destruct (counts_round_trip _ C29_case) as (g' & A' & E). rewrite A in A'. injection A' as <-. exists g. now split.
Qed.
