(** Quantiles of reconciled forecasts: C122. *)
From Coq Require Import List Bool Arith Reals Lra Lia.
From Verif Require Import Model.Stats Model.ReconcileScen Model.ReconcileQuant Spec.StatsSpec Proof.ReconcileQuantProof.
Import ListNotations.
Local Open Scope R_scope.

(** C122 *)
Theorem C122_quantiles_partial :
  forall (N : Type) q_vect train errs (y_tilde : list (N -> nat -> R)) n_scen draw,
  length errs = length train -> length y_tilde = length train -> (0 < n_scen)%nat -> Forall (fun q => 0 <= q <= 1) q_vect ->
  (forall h s j, (draw h s j < length (filter (Nat.eqb h) train))%nat \/ length (filter (Nat.eqb h) train) = 0%nat) ->
  exists res, reconciled_quantiles q_vect train errs y_tilde n_scen draw = Some res /\
    (forall i, In i (map fst res) <-> (i < length train)%nat /\ (nth i train 0 < 24)%nat) /\
    forall i q, In (i, q) res -> exists scens, length scens = n_scen /\
      (forall v, In v scens -> exists e, (e < length train)%nat /\ nth e train 0%nat = nth i train 0%nat /\
         forall c s, v c s = nth i y_tilde (fun _ _ => 0) c s + nth e errs (fun _ _ => 0) c s) /\
      forall c s, length (q c s) = length q_vect /\
        (forall k k', (k < length q_vect)%nat -> (k' < length q_vect)%nat -> nth k q_vect 0 <= nth k' q_vect 0 -> nth k (q c s) 0 <= nth k' (q c s) 0) /\
        forall k m m', (k < length q_vect)%nat ->
          how_many (fun x => x <= nth k (q c s) 0) (map (fun v => v c s) scens) m ->
          how_many (fun x => nth k (q c s) 0 <= x) (map (fun v => v c s) scens) m' ->
          nth k q_vect 0 * INR (n_scen - 1) < INR m /\ (1 - nth k q_vect 0) * INR (n_scen - 1) < INR m'.
Proof. exact (@reconciled_quantiles_correct). Qed.
Print Assumptions C122_quantiles_partial.
Theorem C122_vanilla_refuted :
  forall (N : Type) (own : N -> q_object) c, vanilla_quantiles own c = None.
Proof. exact (@vanilla_quantiles_fail). Qed.
Print Assumptions C122_vanilla_refuted.
Example C122_case : let train := [5; 6; 5]%nat in let draw := fun _ s _ : nat => 0%nat in
  (forall h s j, (draw h s j < length (filter (Nat.eqb h) train))%nat \/ length (filter (Nat.eqb h) train) = 0%nat) /\
  Forall (fun q => 0 <= q <= 1) [1 / 10; 9 / 10].
Proof.
  cbv zeta. split; [|repeat constructor; lra]. intros h s j. cbn.
  destruct h as [|[|[|[|[|[|[|h]]]]]]]; cbn; lia.
Qed.
