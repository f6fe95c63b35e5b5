(** Proofs about the quantiles of reconciled forecasts. *)
From Coq Require Import List Bool Arith Reals Lra Lia.
From Verif Require Import Model.Stats Model.ReconcileScen Model.ReconcileQuant Spec.StatsSpec Proof.StatsProof Proof.ReconcileScenProof Proof.GaussianProof.
Import ListNotations.
Local Open Scope R_scope.

Lemma reconciled_quantiles_correct {N} q_vect train errs (y_tilde : list (N -> nat -> R)) n_scen draw :
  length errs = length train -> length y_tilde = length train -> (0 < n_scen)%nat -> Forall (fun q => 0 <= q <= 1) q_vect ->
  (forall h s j, (draw h s j < length (filter (Nat.eqb h) train))%nat \/ length (filter (Nat.eqb h) train) = 0%nat) ->
  exists res, reconciled_quantiles q_vect train errs y_tilde n_scen draw = Some res /\
    (forall i, In i (map fst res) <-> (i < length train)%nat /\ (nth i train 0 < 24)%nat) /\
    forall i q, In (i, q) res -> exists scens, length scens = n_scen /\
      (forall v, In v scens -> exists e, (e < length train)%nat /\ nth e train 0%nat = nth i train 0%nat /\
         forall c s, v c s = nth i y_tilde (fun _ _ => 0) c s + nth e errs (fun _ _ => 0) c s) /\
      forall c s, length (q c s) = length q_vect /\
        (forall k k', (k < length q_vect)%nat -> (k' < length q_vect)%nat -> nth k q_vect 0 <= nth k' q_vect 0 -> nth k (q c s) 0 <= nth k' (q c s) 0) /\
        forall k m m', (k < length q_vect)%nat ->
          how_many (fun x => x <= nth k (q c s) 0) (map (fun v => v c s) scens) m ->
          how_many (fun x => nth k (q c s) 0 <= x) (map (fun v => v c s) scens) m' ->
          nth k q_vect 0 * INR (n_scen - 1) < INR m /\ (1 - nth k q_vect 0) * INR (n_scen - 1) < INR m'.
Proof.
  intros He Hy Hn Hq Hd.
  destruct (scenarios_training_hours (fun a b c s => (a c s + b c s)%R) train errs y_tilde n_scen draw (fun _ _ => 0) Hn He Hy Hd) as (scens & E & _ & Hi & Hv).
  unfold reconciled_quantiles. rewrite E. cbn [option_map]. eexists. split; [reflexivity|]. split.
  - intros i. unfold scenario_quantiles. rewrite map_map. cbn [fst]. apply Hi.
  - intros i q Hin. apply in_map_iff in Hin. destruct Hin as ([i' vals] & Eq & Hin). cbn [fst snd] in Eq.
    assert (i' = i) by exact (f_equal fst Eq). subst i'. apply (f_equal snd) in Eq. cbn [snd] in Eq. subst q.
    destruct (Hv i vals Hin) as [Hl H]. exists vals. split; [exact Hl|]. split.
    + intros v Hvin. destruct (H v Hvin) as (e & A & B & ->). exists e. auto.
    + intros c s. rewrite map_length. split; [reflexivity|].
      assert (Hne : map (fun v : N -> nat -> R => v c s) vals <> []) by (destruct vals; [cbn in Hl; lia|discriminate]).
      assert (Hq' : forall k, (k < length q_vect)%nat -> 0 <= nth k q_vect 0 <= 1).
      { intros k Hk. rewrite Forall_forall in Hq. apply Hq, nth_In, Hk. }
      split.
      * intros k k' Hk Hk' Hle. rewrite !(nth_map2 _ _ _ 0 0) by assumption.
        apply quantile_monotone; [exact Hne| | |]; try apply Hq'; assumption.
      * intros k m m' Hk Hm Hm'. rewrite !(nth_map2 _ _ _ 0 0) in Hm, Hm' by assumption.
        pose proof (quantile_coverage _ _ _ _ Hne (Hq' k Hk) Hm Hm') as Hc. rewrite map_length, Hl in Hc. exact Hc.
Qed.

Lemma vanilla_quantiles_fail {N} (own : N -> q_object) c : vanilla_quantiles own c = None.
Proof. unfold vanilla_quantiles. now destruct (own c). Qed.
