(** The check of the data of reconciled forecasts. *)
From mathcomp Require Import all_ssreflect.
From Verif Require Import Model.Hierarchy Model.HierarchyCheck.
Set Implicit Arguments.
Unset Strict Implicit.
Unset Printing Implicit Defensive.

Lemma seen_mem (N : eqType) (l : seq N) : first_seen l =i l.
Proof.
elim: l => [|a l IH] x //=. rewrite !inE mem_filter IH. by case: eqP.
Qed.
Lemma seen_uniq (N : eqType) (l : seq N) : uniq (first_seen l).
Proof. elim: l => [|a l IH] //=. by rewrite mem_filter eqxx /= filter_uniq. Qed.
Lemma checked_columns (N : eqType) (h : hierarchy N) (ns : seq N) :
  check_x h (Some ns) <-> (forall x, (x \in forecast_columns h ns) = (x \in ns)).
Proof.
rewrite /check_x /forecast_columns /bottoms. split.
- move=> /allP H x. rewrite mem_cat mem_filter seen_mem. by case: (boolP (x \in aggregates h)) => //= /H ->.
- move=> H. apply/allP => k Hk. by rewrite -H mem_cat Hk.
Qed.
Lemma columns_once (N : eqType) (h : hierarchy N) (ns : seq N) : uniq (aggregates h) -> uniq (forecast_columns h ns).
Proof.
move=> U. rewrite /forecast_columns cat_uniq U (filter_uniq _ (seen_uniq ns)) andbT /=. apply/hasPn => x. by rewrite mem_filter => /andP [].
Qed.
Lemma check_no_names (N : eqType) (h : hierarchy N) : check_x h None = false.
Proof. by []. Qed.
Lemma seen_id (N : eqType) (l : seq N) : uniq l -> first_seen l = l.
Proof. elim: l => [|a l IH] //= /andP [Ha U]. rewrite IH //. congr cons. apply/all_filterP/allP => x Hx. by apply: contraNneq Ha => <-. Qed.
Lemma check_misses_leaves (N : eqType) (h : hierarchy N) (k x : N) : uniq (aggregates h) -> k \in aggregates h -> x \in members h k -> x \notin aggregates h ->
  check_x h (Some (aggregates h)) /\ x \notin forecast_columns h (aggregates h).
Proof.
move=> U _ _ Hx. split; first by apply/allP.
by rewrite /forecast_columns mem_cat negb_or Hx /= /bottoms mem_filter seen_mem Hx.
Qed.
Lemma check_lets_strangers (N : eqType) (h : hierarchy N) (ns : seq N) (x : N) : check_x h (Some ns) -> x \notin aggregates h -> (forall k, k \in aggregates h -> x \notin members h k) ->
  check_x h (Some (rcons ns x)) /\ x \in forecast_columns h (rcons ns x).
Proof.
move=> /allP H Hx _. split.
- apply/allP => k /H Hk. by rewrite mem_rcons inE Hk orbT.
- by rewrite /forecast_columns mem_cat /bottoms mem_filter seen_mem Hx mem_rcons inE eqxx orbT.
Qed.
