(** Scenarios beyond the outer quantile levels. *)
From Coq Require Import List ZArith Bool Arith Lia Reals Lra Sorted Permutation.
From Verif Require Import Model.Stats Model.ScenGen Spec.ScenGenSpec Proof.ScenGenProof.
Import ListNotations.
Local Open Scope R_scope.

Lemma segment_line levels values i x : StronglySorted Rlt levels -> (S i < length levels)%nat ->
  segment levels values i x = nth i values 0 + (x - nth i levels 0) * ((nth (S i) values 0 - nth i values 0) / (nth (S i) levels 0 - nth i levels 0)).
Proof. intros Hs Hi. unfold segment. pose proof (lt_sorted_nth levels Hs i (S i) ltac:(lia)). field. lra. Qed.
Lemma lower_tail l0 l1 levels v0 v1 values u : quantile_curve (l0 :: l1 :: levels) (v0 :: v1 :: values) -> v0 < v1 -> u < l0 ->
  exists a, interp1d (l0 :: l1 :: levels) (v0 :: v1 :: values) u = Some a /\ a < v0 /\
    (forall low, a < low <-> u < l0 - (v0 - low) * ((l1 - l0) / (v1 - v0))).
Proof.
  intros HQ Hv Hu. rewrite interp_curve by exact HQ.
  rewrite (curve_cell _ _ 0 u HQ); [|cbn; lia|now left|right; destruct HQ as [Hs _]; pose proof (lt_sorted_nth _ Hs 0 1 ltac:(cbn; lia)) as L; cbn in *; lra].
  destruct HQ as (Hs & _). rewrite segment_line by (assumption || (cbn; lia)).
  pose proof (lt_sorted_nth _ Hs 0 1 ltac:(cbn; lia)) as L. cbn [nth] in *.
  set (g := (v1 - v0) / (l1 - l0)). assert (Hg : 0 < g) by (apply Rdiv_lt_0_compat; lra).
  replace ((l1 - l0) / (v1 - v0)) with (/ g) by (unfold g; field; lra). clearbody g.
  eexists. split; [reflexivity|]. split.
  - assert ((u - l0) * g < 0 * g) by (apply Rmult_lt_compat_r; lra). lra.
  - intros low. split; intros H.
    + assert (K : (u - l0) * g * / g < (low - v0) * / g) by (apply Rmult_lt_compat_r; [now apply Rinv_0_lt_compat|lra]).
      rewrite Rmult_assoc, Rinv_r, Rmult_1_r in K by lra. lra.
    + assert (K : (u - l0) * g < (low - v0) * / g * g) by (apply Rmult_lt_compat_r; lra).
      rewrite Rmult_assoc, Rinv_l, Rmult_1_r in K by lra. lra.
Qed.
