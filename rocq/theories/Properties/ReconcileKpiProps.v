(** Scores by level of the hierarchy: C80, C193. *)
From mathcomp Require Import all_ssreflect all_algebra.
From Verif Require Import Model.Hierarchy Model.ReconcileKpi Spec.ReconcileSpec Spec.ReconcileKpiSpec Proof.ReconcileKpiProof.
Set Implicit Arguments.
Unset Strict Implicit.
Unset Printing Implicit Defensive.
Import Order.Theory GRing.Theory Num.Theory.

(** C80 *)
Theorem C80_from_top_partial :
  forall (N : eqType) (h : seq (N * seq N)) top l, well_formed h -> one_parent h -> is_top h top -> (top, l) \in h -> 1 < size l ->
  exists ls, hierarchy_levels h = Some ls /\ forall n d, level_of ls n = Some d <-> steps_down h top n d.
Proof. exact (@levels_from_top). Qed.
Print Assumptions C80_from_top_partial.
Local Open Scope ring_scope.
(** C193 *)
Theorem C193_points_partial :
  forall (F : fieldType) (N : eqType) (P Y : Type) (metric : P -> Y -> F) leN (h : seq (N * seq N)) top l names hat y,
  well_formed h -> one_parent h -> is_top h top -> (top, l) \in h -> (1 < size l)%N -> {subset map fst h <= names} ->
  exists kpi, compute_kpis metric leN Points h names hat y = Some kpi /\
    forall d v, kpi d = Some v <-> mean_at h names (fun c => metric (hat c) (y c)) top d v.
Proof. exact (@point_kpis). Qed.
Print Assumptions C193_points_partial.
Theorem C193_quantiles_partial :
  forall (F : fieldType) (N : eqType) (P Y : Type) (metric : P -> Y -> F) leN (h : seq (N * seq N)) top l names hat y,
  well_formed h -> one_parent h -> is_top h top -> (top, l) \in h -> (1 < size l)%N -> {subset map fst h <= names} ->
  sort leN (target_columns h names) = target_columns h names ->
  exists kpi, compute_kpis metric leN Quantiles h names hat y = Some kpi /\
    forall d v, kpi d = Some v <-> mean_at h names (fun c => metric (hat c) (y c)) top d v.
Proof. exact (@quantile_kpis). Qed.
Print Assumptions C193_quantiles_partial.
Theorem C193_paired_refuted :
  forall (F : fieldType) (N : eqType) (P Y : Type) (metric : P -> Y -> F) leN (h : seq (N * seq N)) top l names hat y,
  well_formed h -> one_parent h -> is_top h top -> (top, l) \in h -> (1 < size l)%N -> {subset map fst h <= names} ->
  exists kpi, compute_kpis metric leN Quantiles h names hat y = Some kpi /\
    forall d v, kpi d = Some v <-> mean_at h names (fun c => metric (hat (at_place_of leN (target_columns h names) c)) (y c)) top d v.
Proof. exact (@quantile_kpis_paired). Qed.
Print Assumptions C193_paired_refuted.
Theorem C193_order_refuted : exists (metric : nat -> nat -> rat) (h : seq (nat * seq nat)) top l names (y : nat -> nat) kpi,
  well_formed h /\ one_parent h /\ is_top h top /\ (top, l) \in h /\ (1 < size l)%N /\ {subset map fst h <= names} /\
  (forall a, metric a a = 0) /\ compute_kpis metric leq Quantiles h names y y = Some kpi /\ kpi 0%N = Some 1 /\ kpi 1%N = Some 1.
Proof. exact (@quantile_kpis_mixed). Qed.
Print Assumptions C193_order_refuted.
Local Close Scope ring_scope.
(** The total 0 of the groups 1 and 2, in alphabetical order. *)
Example C193_case : let h := [:: (0, [:: 1; 2]); (1, [:: 3; 4])] in
  is_top h 0 /\ one_parent h /\ {subset map fst h <= [:: 4; 0; 2; 3; 1]} /\
  sort leq (target_columns h [:: 0; 1; 2; 3; 4]) = target_columns h [:: 0; 1; 2; 3; 4] /\
  hierarchy_levels h = Some [:: (0, 0); (1, 1); (3, 2); (4, 2); (2, 1)] /\
  mean_at h [:: 0; 1; 2; 3; 4] (fun c => c%:R : rat)%R 0 2 (7%:R / 2%:R)%R.
Proof.
  have H0 : (0, [:: 1; 2]) \in [:: (0, [:: 1; 2]); (1, [:: 3; 4])] by []. have H1 : (1, [:: 3; 4]) \in [:: (0, [:: 1; 2]); (1, [:: 3; 4])] by [].
  have D1 : steps_down [:: (0, [:: 1; 2]); (1, [:: 3; 4])] 0 1 1 by apply: (down_step (down_zero _ 0) H0).
  split. { split; first by exists [:: 1; 2]. split.
    - move=> c [l]. rewrite !inE => /orP [/eqP [-> _]|/eqP [-> _]]; [exists 0; exact: down_zero|by exists 1].
    - move=> c d H. inversion H as [|a b l0 c0 n0 A B C]; subst => //. move: B C. rewrite !inE => /orP [] /eqP [_ ->]; by rewrite !inE. }
  split=> //. split. { move=> x. rewrite !inE => /orP [] /eqP ->; by []. }
  split=> //. split=> //.
  exists [:: 3; 4]. split=> //. split=> //. split; last by rewrite !big_cons big_nil; apply/eqP.
  move=> c. rewrite !inE. split.
  - move=> Hc. split; first by case/orP: Hc => /eqP ->. apply: (down_step D1 H1). by rewrite !inE.
  - case=> _ H. inversion H as [|a b l0 c0 n0 A B C]; subst. move: B C. rewrite !inE => /orP [] /eqP [E ->]; last by rewrite !inE.
    subst b. inversion A as [|a' b' l' c' n' A' B' C']; subst. move: B' C'. rewrite !inE => /orP [] /eqP [_ ->]; by rewrite !inE.
Qed.
