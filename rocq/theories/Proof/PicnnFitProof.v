From Coq Require Import Reals List Arith Bool Lia Lra.
From Verif Require Import Model.Names Model.Encoder Model.Quantiles Model.Reproject Model.Picnn Model.PicnnFit Model.Training Model.HoltWinters
  Spec.ReprojectSpec Spec.PicnnSpec Spec.ActivationsSpec Proof.ReprojectProof Proof.PicnnProof Proof.TrainingProof.
Import ListNotations.
Local Open Scope R_scope.

Lemma matrix_nonneg d : nonnegative d -> nonneg (matrix d).
Proof.
  intros H j k. unfold matrix. destruct (nth_in_or_default j (kernel d) []) as [Hj|E]; [|rewrite E; destruct k; cbn; lra].
  unfold nonnegative in H. rewrite Forall_forall in H. specialize (H _ Hj). rewrite Forall_forall in H. destruct (nth_in_or_default k (nth j (kernel d) []) 0) as [Hk|E]; [auto|]. rewrite E. lra.
Qed.
Lemma lookup_in {V} k (d : list (text * V)) v : lookup k d = Some v -> In (k, v) d.
Proof.
  induction d as [|[k' w] d IH]; cbn; [discriminate|]. destruct (same k k') eqn:E; [|intros; right; auto]. apply same_spec in E. intros H. injection H as ->. left. congruence.
Qed.
Lemma get_nonneg g k : (forall d, In (k, d) g -> nonnegative d) -> nonneg (matrix (get g k)).
Proof.
  intros H. apply matrix_nonneg. unfold get. destruct (lookup k g) as [d|] eqn:E; [apply H; now apply lookup_in|]. constructor.
Qed.
Lemma step_feasible {O} rs mono (update : tree -> O -> list nat -> tree * O) : (forall p o b, well_formed p -> well_formed (fst (update p o b))) ->
  forall p o b, feasible rs mono p -> feasible rs mono (fst (convex_step rs mono update p o b)).
Proof.
  intros U p o b [W _]. unfold convex_step. specialize (U p o b W). destruct (update p o b) as [q o']. cbn [fst] in *. rewrite reproject_total by exact U. split; [now apply fixed_well_formed|].
  intros outer inner key d. apply fixed_nonneg.
Qed.
Lemma same_refl k : same k k = true. Proof. now apply same_spec. Qed.
Lemma read_convex rs mono t sizes : feasible rs mono t -> Forall (fun w => nonneg (wz w)) (read_net t sizes).
Proof.
  intros [_ F]. apply Forall_forall. intros w Hw. unfold read_net in Hw. apply in_flat_map in Hw. destruct Hw as [[name n] [Hn Hw]]. cbn [fst snd] in Hw. destruct (contains picnn_tag name) eqn:P; [|contradiction].
  destruct n as [g|l]; [|contradiction]. destruct Hw as [<-|[]]. cbn [wz read_layer]. apply get_nonneg. intros d Hd. apply (F name name k_wz d); [left; eauto|]. rewrite constrained_tags. rewrite P, same_refl. reflexivity.
Qed.
Lemma read_monotone rs mono t sizes : rs || mono = true -> feasible rs mono t -> Forall (fun w => nonneg (wz w) /\ nonneg (wy w)) (read_net t sizes).
Proof.
  intros Hm F. pose proof (read_convex _ _ _ sizes F) as Hc. destruct F as [_ F]. apply Forall_forall. intros w Hw. split; [rewrite Forall_forall in Hc; auto|]. unfold read_net in Hw. apply in_flat_map in Hw. destruct Hw as [[name n] [Hn Hw]]. cbn [fst snd] in Hw. destruct (contains picnn_tag name) eqn:P; [|contradiction].
  destruct n as [g|l]; [|contradiction]. destruct Hw as [<-|[]]. cbn [wy read_layer]. apply get_nonneg. intros d Hd. apply (F name name k_wy d); [left; eauto|]. rewrite constrained_tags. rewrite P, same_refl, Hm. now rewrite orb_true_r.
Qed.
Lemma predict_convex opts n sizes t x k : bounds opts = None -> nondecreasing (act_fun opts) -> convex1 (act_fun opts) -> Forall (fun w => nonneg (wz w)) (read_net t sizes) ->
  convex (fun y => predict_net opts n sizes t x y k).
Proof.
  intros Hb Hm Hc Hw. unfold predict_net. rewrite <- (rev_involutive (read_net t sizes)) in Hw. destruct (rev (read_net t sizes)) as [|last hs]; [intros r a b Hr; lra|]. cbn [rev] in Hw. now apply picnn_convex.
Qed.
Lemma predict_monotone opts n sizes t x k : augment opts = false -> (forall v, 0 <= rec_fun opts v) -> nondecreasing (act_fun opts) ->
  (forall lo hi, bounds opts = Some (lo, hi) -> forall j, lo j <= hi j) -> Forall (fun w => nonneg (wz w) /\ nonneg (wy w)) (read_net t sizes) ->
  monotone (fun y => predict_net opts n sizes t x y k).
Proof.
  intros Ha Hr Hm Hb Hw. unfold predict_net. rewrite <- (rev_involutive (read_net t sizes)) in Hw. destruct (rev (read_net t sizes)) as [|last hs]; [intros a b _; lra|]. cbn [rev] in Hw. now apply picnn_monotone.
Qed.
(** The fitted network is convex in the controls, whatever the data, the optimiser, the losses and the schedule. *)
Lemma fitted_convex {O} rs mono (update : tree -> O -> list nat -> tree * O) loss stats_step rounds tol given n perms before init o0 f s opts ny sizes x k :
  (forall p o b, well_formed p -> well_formed (fst (update p o b))) -> feasible rs mono init ->
  bounds opts = None -> nondecreasing (act_fun opts) -> convex1 (act_fun opts) ->
  fit (convex_step rs mono update) loss stats_step rounds tol given n perms before (init, o0) = Some (f, s) ->
  exists t, chosen s = Some t /\ convex (fun y => predict_net opts ny sizes t x y k).
Proof.
  intros U F Hb Hm Hc H. destruct (fit_keeps (feasible rs mono) _ _ _ _ _ _ _ _ _ (init, o0) _ _ F (step_feasible rs mono update U) H) as [t [E Ft]].
  exists t. split; [exact E|]. apply predict_convex; auto. eapply read_convex; exact Ft.
Qed.
Lemma fitted_monotone {O} rs mono (update : tree -> O -> list nat -> tree * O) loss stats_step rounds tol given n perms before init o0 f s opts ny sizes x k :
  (forall p o b, well_formed p -> well_formed (fst (update p o b))) -> feasible rs mono init -> rs || mono = true ->
  augment opts = false -> (forall v, 0 <= rec_fun opts v) -> nondecreasing (act_fun opts) -> (forall lo hi, bounds opts = Some (lo, hi) -> forall j, lo j <= hi j) ->
  fit (convex_step rs mono update) loss stats_step rounds tol given n perms before (init, o0) = Some (f, s) ->
  exists t, chosen s = Some t /\ monotone (fun y => predict_net opts ny sizes t x y k).
Proof.
  intros U F Hrm Ha Hr Hm Hb H. destruct (fit_keeps (feasible rs mono) _ _ _ _ _ _ _ _ _ (init, o0) _ _ F (step_feasible rs mono update U) H) as [t [E Ft]].
  exists t. split; [exact E|]. apply predict_monotone; auto. eapply read_monotone; eauto.
Qed.
