(** Properties of hierarchical reconciliation: C33, C34, C35, C79, C80, C81, C83, C218. *)
From mathcomp Require Import all_ssreflect all_algebra.
From Verif Require Import Model.Hierarchy Model.HierarchyCheck Model.Reconcile Spec.ReconcileSpec Proof.ReconcileProof Proof.ReconcileProof2 Proof.ReconcileProof3 Proof.HierarchyCheckProof.
Set Implicit Arguments.
Unset Strict Implicit.
Unset Printing Implicit Defensive.
Import Order.Theory GRing.Theory Num.Theory.

Definition example_hierarchy : seq (nat * seq nat) := [:: (0, [:: 1; 4]); (1, [:: 2; 3])].

(** C35 *)
Theorem C35_leaves :
  forall (N : eqType) (h : seq (N * seq N)), well_formed h ->
  exists flat, unroll_dict h = Some flat /\ size flat = size h /\
    forall i a l, i < size h -> nth (a, l) h i = (a, l) -> forall b, b \in nth [::] flat i <-> leaf_below h a b.
Proof. exact (@hierarchy_leaves). Qed.
Print Assumptions C35_leaves.
Theorem C35_cycle :
  forall (N : eqType) (h : seq (N * seq N)) C a fuel, uniq (map fst h) -> goes_round h C -> C a -> unroll fuel h a = None.
Proof. exact (@hierarchy_cycle). Qed.
Print Assumptions C35_cycle.
Example C35_case : well_formed example_hierarchy /\ one_parent example_hierarchy /\ unroll_dict example_hierarchy = Some [:: [:: 2; 3; 4]; [:: 2; 3]].
Proof.
  split; last by []. split=> //. split; first by move=> a l; rewrite !in_cons => /orP [/eqP [_ ->]|/orP [/eqP [_ ->]|]].
  exists (fun a => 2 - a) => a l c. rewrite !in_cons => /orP [/eqP [-> ->]|/orP [/eqP [-> ->]|//]]; rewrite !inE.
  + case/orP => /eqP -> [l']; by rewrite !inE.
  + case/orP => /eqP -> [l']; by rewrite !inE.
Qed.
Example C35_cycle_case : goes_round [:: (0, [:: 1; 2]); (1, [:: 0])] (fun a => a < 2).
Proof.
  move=> [|[|a]] // _.
  - split; first by exists [:: 1; 2]. move=> l. rewrite !in_cons => /orP [/eqP [->]|/orP [/eqP|]] //. by exists 1.
  - split; first by exists [:: 0]. move=> l. rewrite !in_cons => /orP [/eqP|/orP [/eqP [->]|]] //. by exists 0.
Qed.

(** C80 *)
Theorem C80_levels_partial :
  forall (N : eqType) (h : seq (N * seq N)) k, well_formed h -> one_parent h -> is_aggregate h k ->
  exists l, explore (size h) h k 0 = Some l /\ forall n d, level_of l n = Some d <-> steps_down h k n d.
Proof. exact (@levels_correct). Qed.
Print Assumptions C80_levels_partial.
Theorem C80_top_refuted :
  exists (h : seq (nat * seq nat)) flat r l, well_formed h /\ one_parent h /\ unroll_dict h = Some flat /\
    (forall n, n \in [:: 1; 2; 3] -> exists d, steps_down h 0 n d) /\
    root_of h flat = Some r /\ explore (size h) h r 0 = Some l /\ level_of l 0 = None.
Proof. exact (@levels_miss_top). Qed.
Print Assumptions C80_top_refuted.
Local Open Scope ring_scope.
(** C33 *)
Theorem C33_coherent_partial :
  forall (F : fieldType) (N : eqType) (h : seq (N * seq N)) flat (bs : seq N) P (y : N -> F),
  well_formed h -> unroll_dict h = Some flat -> uniq (aggregates h ++ bs) ->
  exists out, reconcile (s_matrix (aggregates h) bs flat) P (aggregates h ++ bs) y = Some out /\ coherent h bs out.
Proof. exact (@reconciled_coherent). Qed.
Print Assumptions C33_coherent_partial.
Theorem C33_labels_refuted :
  exists (h : seq (nat * seq nat)) names names' flat W P (y out : nat -> rat),
    well_formed h /\ unroll_dict h = Some flat /\ uniq names /\ perm_eq names' names /\ positive_definite W /\
    p_matrix (s_matrix (aggregates h) (bottoms h (first_seen names)) flat) W = Some P /\
    coherent h (bottoms h (first_seen names)) y /\
    reconcile (s_matrix (aggregates h) (bottoms h (first_seen names)) flat) P (forecast_columns h names') y = Some out /\
    ~ coherent h (bottoms h (first_seen names)) out.
Proof. exact (@labels_example). Qed.
Print Assumptions C33_labels_refuted.
Theorem C33_positions :
  forall (F : fieldType) (N : eqType) (h : seq (N * seq N)) flat (bs cols : seq N) W P (y : N -> F) (d : N),
  well_formed h -> unroll_dict h = Some flat -> uniq (aggregates h ++ bs) -> p_matrix (s_matrix (aggregates h) bs flat) W = Some P -> coherent h bs y ->
  perm_eq cols (aggregates h ++ bs) ->
  exists out, reconcile (s_matrix (aggregates h) bs flat) P cols y = Some out /\ forall c, c \in cols -> out c = y (nth d (aggregates h ++ bs) (index c cols)).
Proof. exact (@reconciled_labels). Qed.
Print Assumptions C33_positions.
(** The lower block of the summation matrix is the identity, the upper one holds the leaves. *)
Example C33_case : uniq (aggregates example_hierarchy ++ [:: 2; 3; 4]%N) /\
  @s_matrix [fieldType of rat] _ [:: 0]%N [:: 1]%N [:: [:: 1]]%N = col_mx (const_mx 1) 1%:M.
Proof. split=> //. congr col_mx. apply/matrixP => i j. by rewrite !mxE !ord1. Qed.

(** C34 *)
Theorem C34_unchanged :
  forall (F : fieldType) (N : eqType) (h : seq (N * seq N)) flat (bs : seq N) W P (y : N -> F),
  well_formed h -> unroll_dict h = Some flat -> uniq (aggregates h ++ bs) -> p_matrix (s_matrix (aggregates h) bs flat) W = Some P -> coherent h bs y ->
  exists out, reconcile (s_matrix (aggregates h) bs flat) P (aggregates h ++ bs) y = Some out /\ {in aggregates h ++ bs, out =1 y}.
Proof. exact (@reconciled_unchanged). Qed.
Print Assumptions C34_unchanged.
Theorem C34_twice :
  forall (F : fieldType) (N : eqType) (h : seq (N * seq N)) flat (bs : seq N) W P (y : N -> F),
  well_formed h -> unroll_dict h = Some flat -> uniq (aggregates h ++ bs) -> p_matrix (s_matrix (aggregates h) bs flat) W = Some P ->
  exists out out', reconcile (s_matrix (aggregates h) bs flat) P (aggregates h ++ bs) y = Some out /\
    reconcile (s_matrix (aggregates h) bs flat) P (aggregates h ++ bs) out = Some out' /\ {in aggregates h ++ bs, out' =1 out}.
Proof. exact (@reconciled_twice). Qed.
Print Assumptions C34_twice.
Theorem C34_projection :
  forall (F : fieldType) m n (S : 'M[F]_(m, n)) W P, p_matrix S W = Some P -> P *m S = 1%:M.
Proof. exact (@projection). Qed.
Print Assumptions C34_projection.
(** C79 *)
Theorem C79_nearest :
  forall (F : realFieldType) (N : eqType) (h : seq (N * seq N)) flat (bs : seq N) W (y : N -> F),
  well_formed h -> unroll_dict h = Some flat -> uniq (aggregates h ++ bs) -> positive_definite W ->
  exists P out, p_matrix (s_matrix (aggregates h) bs flat) W = Some P /\ reconcile (s_matrix (aggregates h) bs flat) P (aggregates h ++ bs) y = Some out /\ coherent h bs out /\
    forall z, coherent h bs z -> deviation W y out <= deviation W y z /\ (deviation W y z = deviation W y out -> {in aggregates h ++ bs, z =1 out}).
Proof. exact (@reconciled_nearest). Qed.
Print Assumptions C79_nearest.
Theorem C79_weights_exist :
  forall (F : realFieldType) m n (A : 'M[F]_(m, n)) W, positive_definite W -> exists P, p_matrix (col_mx A 1%:M) W = Some P.
Proof. exact (@weights_exist). Qed.
Print Assumptions C79_weights_exist.
Example C79_case : positive_definite (1%:M : 'M[rat]_5).
Proof. exact: pd_one. Qed.

(** C81 *)
Theorem C81_last_step_refuted :
  forall (F : fieldType) m n (S : 'M[F]_(m, n)) ws w k P, fit_steps S (ws ++ [:: w]) k = Some P -> p_matrix S w = Some P.
Proof. exact (@last_step). Qed.
Print Assumptions C81_last_step_refuted.
Theorem C81_own_step_refuted :
  exists (S : 'M[rat]_(1 + 1, 1)) W1 W2 P1 P2, positive_definite W1 /\ positive_definite W2 /\
    S = s_matrix [:: 0%N] [:: 1%N] [:: [:: 1%N]] /\
    p_matrix S W1 = Some P1 /\ fit_steps S [:: W1; W2] None = Some P2 /\ P1 <> P2.
Proof. exact (@own_step_example). Qed.
Print Assumptions C81_own_step_refuted.
Theorem C81_proportional_partial :
  forall (F : realFieldType) m n (A : 'M[F]_(m, n)) ws w, (forall v, v \in rcons ws w -> positive_definite v) ->
  exists P, fit_steps (col_mx A 1%:M) (rcons ws w) None = Some P /\ p_matrix (col_mx A 1%:M) w = Some P /\
    forall v c, v \in rcons ws w -> c != 0 -> v = c *: w -> p_matrix (col_mx A 1%:M) v = Some P.
Proof. exact (@own_step_proportional). Qed.
Print Assumptions C81_proportional_partial.
Example C81_case : (forall v : 'M[rat]_2, v \in rcons [:: 2%:R *: 1%:M] 1%:M -> positive_definite v) /\ (2%:R : rat) != 0.
Proof.
  have P1 : forall c : rat, 0 < c -> positive_definite (c *: (1%:M : 'M[rat]_2)).
  { move=> c Hc. split; first by rewrite linearZ /= trmx1. move=> v Hv. rewrite /quadratic -scalemxAr mulmx1 -scalemxAl mxE. apply: mulr_gt0 => //.
    have Hs : (v^T *m v) 0 0 = \sum_i v i 0 ^+ 2 by rewrite mxE; apply: eq_bigr => i _; rewrite mxE expr2.
    rewrite Hs lt_neqAle sumr_ge0 ?andbT; last by move=> i _; exact: sqr_ge0. apply/eqP => E. apply: Hv. apply/matrixP => i j. rewrite ord1 mxE.
    move: (esym E) => /eqP. rewrite psumr_eq0; last by move=> k _; exact: sqr_ge0. move=> /allP /(_ i (mem_index_enum i)) /=. by rewrite sqrf_eq0 => /eqP. }
  split=> // v. rewrite mem_rcons !inE => /orP [/eqP ->|/eqP ->]; last exact: P1. rewrite -[1%:M]scale1r. exact: P1.
Qed.


(** C83 *)
Theorem C83_bayes_refuted :
  forall (N : eqType) (ks bs aggregated : seq N), ks <> [::] -> size aggregated = size ks -> bayes_rows ks bs aggregated = None.
Proof. exact (@bayes_raises). Qed.
Print Assumptions C83_bayes_refuted.
(** C218: the check of the data. *)
Theorem C218_columns_partial :
  forall (N : eqType) (h : hierarchy N) (ns : seq N),
  check_x h (Some ns) <-> (forall x, (x \in forecast_columns h ns) = (x \in ns)).
Proof. exact (@checked_columns). Qed.
Print Assumptions C218_columns_partial.
Theorem C218_once :
  forall (N : eqType) (h : hierarchy N) (ns : seq N), uniq (aggregates h) -> uniq (forecast_columns h ns).
Proof. exact (@columns_once). Qed.
Print Assumptions C218_once.
(** Missing: the series of the frame are those of the hierarchy. *)
Theorem C218_leaves_refuted :
  forall (N : eqType) (h : hierarchy N) (k x : N), uniq (aggregates h) -> k \in aggregates h -> x \in members h k -> x \notin aggregates h ->
  check_x h (Some (aggregates h)) /\ x \notin forecast_columns h (aggregates h).
Proof. exact (@check_misses_leaves). Qed.
Print Assumptions C218_leaves_refuted.
Theorem C218_strangers_refuted :
  forall (N : eqType) (h : hierarchy N) (ns : seq N) (x : N), check_x h (Some ns) -> x \notin aggregates h -> (forall k, k \in aggregates h -> x \notin members h k) ->
  check_x h (Some (rcons ns x)) /\ x \in forecast_columns h (rcons ns x).
Proof. exact (@check_lets_strangers). Qed.
Print Assumptions C218_strangers_refuted.
Example C218_case : (uniq (aggregates example_hierarchy) /\ 2 \in members example_hierarchy 1 /\ 2 \notin aggregates example_hierarchy /\
  check_x example_hierarchy (Some [:: 4; 1; 0; 2; 4; 3]) /\ ~~ check_x example_hierarchy (Some [:: 4; 0; 2; 3]) /\ ~~ check_x example_hierarchy None)%N.
Proof. by []. Qed.
