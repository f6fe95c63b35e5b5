From Coq Require Import Reals Lra Lia String List Arith Bool.
From Verif Require Import Model.Names Model.Encoder Model.Quantiles Model.Stats Model.Trainer Model.Optimize Spec.OptimizeSpec Proof.StatsProof Proof.TrainingProof Proof.SaveLoadProof Proof.QuantilesProof.
Import ListNotations.
Local Open Scope R_scope.

Lemma updates_add {S Y} (step : S -> Y -> S * Y) m n sy : updates step (m + n) sy = updates step n (updates step m sy).
Proof. revert sy. induction m; simpl; auto. Qed.

(** The controls returned come one update after the ones the value belongs to. *)
Lemma rounds_value {S Y} (step : S -> Y -> S * Y) obj n tol s0 y old done last r :
  (forall v, last = Some v -> exists s yp, v = obj yp /\ y = snd (step s yp)) ->
  rounds step obj n tol s0 y old done last = Some r ->
  exists s yp, snd (fst r) = obj yp /\ fst (fst r) = snd (step s yp).
Proof.
  revert y old done last. induction n; cbn [rounds]; intros y old done last L H.
  - destruct last; [|discriminate]. destruct (L r0 eq_refl) as (s & yp & A & B). exists s, yp.
    assert (r = (y, r0, done)) as -> by congruence. auto.
  - unfold iterate in H. set (sy := updates step 9 (s0, y)) in *. clearbody sy.
    destruct (Rltb _ tol).
    + assert (r = (snd (step (fst sy) (snd sy)), obj (snd sy), Datatypes.S done)) as -> by congruence.
      simpl. eauto.
    + eapply IHn; [|exact H]. intros v E. exists (fst sy), (snd sy). split; congruence.
Qed.
Lemma optimize_value {S Y} (step : S -> Y -> S * Y) obj init n_iter tol y0 y v k :
  minimise step obj init n_iter tol y0 = Some (y, v, k) ->
  exists s before, y = snd (step s before) /\ v = obj before.
Proof.
  unfold minimise. destruct (iterate step obj (init y0) y0) as [y1 v1]. intros H.
  apply rounds_value in H; [|discriminate]. simpl in H. destruct H as (s & yp & A & B). eauto.
Qed.
Lemma optimize_stale {S Y} (step : S -> Y -> S * Y) obj init n_iter tol y0 y v k :
  (forall s z, obj (snd (step s z)) <> obj z) ->
  minimise step obj init n_iter tol y0 = Some (y, v, k) -> obj y <> v.
Proof.
  intros H E. apply optimize_value in E. destruct E as (s & b & -> & ->). apply H.
Qed.
Lemma optimize_few {S Y} (step : S -> Y -> S * Y) obj init n_iter tol y0 :
  (n_iter < 10)%nat -> minimise step obj init n_iter tol y0 = None.
Proof.
  intros H. unfold minimise. destruct (iterate step obj (init y0) y0). rewrite Nat.div_small; auto.
Qed.
Lemma rounds_total {S Y} (step : S -> Y -> S * Y) obj n tol s0 y old done last :
  (0 < n)%nat \/ last <> None -> exists r, rounds step obj n tol s0 y old done last = Some r.
Proof.
  revert y old done last. induction n; cbn [rounds]; intros y old done last H.
  - destruct last; [eauto|]. destruct H; [lia|congruence].
  - destruct (iterate step obj s0 y) as [y' v']. destruct (Rltb _ tol); [eauto|].
    apply IHn. right. discriminate.
Qed.
Lemma optimize_total {S Y} (step : S -> Y -> S * Y) obj init n_iter tol y0 :
  (10 <= n_iter)%nat -> exists r, minimise step obj init n_iter tol y0 = Some r.
Proof.
  intros H. unfold minimise. destruct (iterate step obj (init y0) y0). apply rounds_total. left.
  assert (1 <= n_iter / 10)%nat by (apply Nat.div_le_lower_bound; lia). lia.
Qed.
(** The number of rounds, each of ten updates, one of them before the loop. *)
Lemma rounds_bound {S Y} (step : S -> Y -> S * Y) obj n tol s0 y old done last r :
  rounds step obj n tol s0 y old done last = Some r -> (done <= snd r <= done + n)%nat /\ (last = None -> done < snd r)%nat.
Proof.
  revert y old done last. induction n; cbn [rounds]; intros y old done last H.
  - destruct last; [|discriminate]. assert (r = (y, r0, done)) as -> by congruence. simpl. split; [lia|discriminate].
  - destruct (iterate step obj s0 y) as [y' v']. destruct (Rltb _ tol).
    + assert (r = (y', v', Datatypes.S done)) as -> by congruence. simpl. lia.
    + apply IHn in H. lia.
Qed.
(** If no update increases the objective, the result is at least as good as the start. *)
Lemma updates_descend {S Y} (step : S -> Y -> S * Y) (obj : Y -> R) n sy :
  (forall s z, obj (snd (step s z)) <= obj z) -> obj (snd (updates step n sy)) <= obj (snd sy).
Proof.
  intros H. revert sy. induction n; simpl; intros sy; [lra|].
  eapply Rle_trans; [apply IHn|]. apply H.
Qed.
Lemma iterate_descend {S Y} (step : S -> Y -> S * Y) (obj : Y -> R) s0 y :
  (forall s z, obj (snd (step s z)) <= obj z) ->
  obj (fst (iterate step obj s0 y)) <= snd (iterate step obj s0 y) <= obj y.
Proof.
  intros H. unfold iterate. cbn [fst snd]. split; [apply H|]. exact (updates_descend step obj 9 (s0, y) H).
Qed.
Lemma rounds_descend {S Y} (step : S -> Y -> S * Y) (obj : Y -> R) n tol s0 y old done last r :
  (forall s z, obj (snd (step s z)) <= obj z) -> (forall v, last = Some v -> obj y <= v /\ v <= old) -> obj y <= old ->
  rounds step obj n tol s0 y old done last = Some r -> obj (fst (fst r)) <= snd (fst r) <= old.
Proof.
  intros D. revert y old done last. induction n; cbn [rounds]; intros y old done last L O H.
  - destruct last; [|discriminate]. specialize (L r0 eq_refl). assert (r = (y, r0, done)) as -> by congruence. simpl. lra.
  - pose proof (iterate_descend step obj s0 y D) as I. destruct (iterate step obj s0 y) as [y' v']. cbn [fst snd] in I.
    destruct (Rltb _ tol).
    + assert (r = (y', v', Datatypes.S done)) as -> by congruence. simpl. lra.
    + eapply IHn in H; [|intros v E; injection E as <-; lra|lra]. lra.
Qed.
Lemma optimize_descends {S Y} (step : S -> Y -> S * Y) (obj : Y -> R) init n_iter tol y0 y v k :
  (forall s z, obj (snd (step s z)) <= obj z) ->
  minimise step obj init n_iter tol y0 = Some (y, v, k) -> obj y <= v <= obj y0.
Proof.
  intros D. unfold minimise. pose proof (iterate_descend step obj (init y0) y0 D) as I.
  destruct (iterate step obj (init y0) y0) as [y1 v1]. cbn [fst snd] in I. intros H.
  eapply rounds_descend in H; auto; [|discriminate|lra]. cbn [fst snd] in H. lra.
Qed.
Lemma optimize_rounds {S Y} (step : S -> Y -> S * Y) (obj : Y -> R) init n_iter tol y0 y v k :
  minimise step obj init n_iter tol y0 = Some (y, v, k) -> (1 <= k <= n_iter / 10)%nat.
Proof.
  unfold minimise. destruct (iterate step obj (init y0) y0) as [y1 v1]. intros H. apply rounds_bound in H.
  cbn [fst snd] in H. destruct H as [A B]. specialize (B eq_refl). lia.
Qed.

(** Gradient descent with the fixed rate can end far from the minimum it started at. *)
Lemma updates_vanilla (a : R) n y : snd (updates (vanilla (fun z => a * z)) n (tt, y)) = (1 - a / 10) ^ n * y.
Proof. revert y. induction n; cbn [updates]; intros y; [simpl; lra|]. unfold vanilla at 2. cbn [fst snd]. rewrite IHn. simpl. field. Qed.
Lemma iterate_vanilla y : iterate (vanilla (fun z => 30 * z)) (fun y => 15 * (y * y)) tt y = (1024 * y, 15 * (262144 * (y * y))).
Proof.
  unfold iterate. pose proof (updates_vanilla 30 9 y) as E.
  set (u := updates (vanilla (fun z => 30 * z)) 9 (tt, y)) in *. clearbody u. destruct u as [[] z]. cbn [fst snd] in *.
  assert (z = - (512) * y) as -> by (rewrite E; field). unfold vanilla. cbn [snd]. f_equal; field.
Qed.
Lemma vanilla_diverges : exists (obj grad : R -> R), convex obj /\ (forall y, derivable_pt_lim obj y (grad y)) /\
  forall n_iter tol y0 y v k, y0 <> 0 -> 0 < tol ->
    minimise (vanilla grad) obj (fun _ => tt) n_iter tol y0 = Some (y, v, k) -> obj y0 < v /\ v < obj y.
Proof.
  exists (fun y => 15 * (y * y)), (fun y => 30 * y). split; [|split].
  - intros a b t H. assert (0 <= t * (1 - t) * ((a - b) * (a - b))) by (apply Rmult_le_pos; [apply Rmult_le_pos; lra|apply (Rle_0_sqr (a - b))]). nra.
  - intros y. replace (30 * y) with (15 * (1 * y + y * 1)) by lra.
    apply (derivable_pt_lim_scal (fun y => y * y)), (derivable_pt_lim_mult id id); apply derivable_pt_lim_id.
  - intros n_iter tol y0 y v k N T. unfold minimise. rewrite iterate_vanilla.
    assert (0 < y0 * y0) as P by (apply (Rlt_0_sqr y0); exact N).
    destruct (n_iter / 10)%nat; cbn [rounds]; [discriminate|]. rewrite iterate_vanilla.
    destruct (Rltb_case (rel_improvement (15 * (262144 * (y0 * y0))) (15 * (262144 * (1024 * y0 * (1024 * y0))))) tol) as [[-> _]|[_ C]].
    + intros H. assert (v = 15 * (262144 * (1024 * y0 * (1024 * y0))) /\ y = 1024 * (1024 * y0)) as [-> ->] by (split; congruence).
      split; nra.
    + exfalso. revert C. apply Rlt_not_le. unfold rel_improvement.
      apply Rle_lt_trans with 0; [|exact T]. unfold Rdiv.
      assert (0 < / (Rabs (15 * (262144 * (y0 * y0))) + / 10 ^ 12)).
      { apply Rinv_0_lt_compat. assert (0 < / 10 ^ 12) by (apply Rinv_0_lt_compat, pow_lt; lra). pose proof (Rabs_pos (15 * (262144 * (y0 * y0)))). lra. }
      nra.
Qed.

Lemma updates_unit a n y : updates (vanilla (fun z => a * z)) n (tt, y) = (tt, (1 - a / 10) ^ n * y).
Proof.
  rewrite <- updates_vanilla. destruct (updates (vanilla (fun z => a * z)) n (tt, y)) as [[] z]. reflexivity.
Qed.

(** The frame. *)
Lemma lookup_map {A B} (f : text -> A -> B) n (r : list (text * A)) :
  lookup n (map (fun e => (fst e, f (fst e) (snd e))) r) = option_map (f n) (lookup n r).
Proof.
  induction r as [|[m v] r IH]; simpl; auto. destruct (same n m) eqn:E; auto. apply same_eq in E. subst. auto.
Qed.
Lemma scaled_at normalized mu sd n r : lookup n (scaled normalized mu sd r) =
  option_map (fun v => if member normalized n then (v - mu n) / sd n else v) (lookup n r).
Proof. exact (lookup_map (fun n v => if member normalized n then (v - mu n) / sd n else v) n r). Qed.
Lemma unscaled_at normalized mu sd n r : lookup n (unscaled normalized mu sd r) =
  option_map (fun v => if member normalized n then v * sd n + mu n else v) (lookup n r).
Proof. exact (lookup_map (fun n v => if member normalized n then v * sd n + mu n else v) n r). Qed.
Lemma assign_at names values n r : lookup n (assign names values r) =
  option_map (fun v => match lookup n (combine names values) with Some w => w | None => v end) (lookup n r).
Proof. exact (lookup_map (fun n v => match lookup n (combine names values) with Some w => w | None => v end) n r). Qed.
Lemma lookup_combine_out {A} n (names : list text) (values : list A) : ~ In n names -> lookup n (combine names values) = None.
Proof.
  intros H. apply lookup_none. intros w C. apply in_combine_l in C. auto.
Qed.
(** Writing the picked values back: the entry of a picked name. *)
Lemma lookup_pick names r x n :
  pick names r = Some x -> In n names -> lookup n (combine names x) = lookup n r.
Proof.
  unfold pick. revert x. induction names as [|m names IH]; simpl; [intros x H []|].
  intros x H I. destruct (lookup m r) as [v|] eqn:E; [|discriminate].
  destruct (all_some (map (fun n => lookup n r) names)) as [t|] eqn:E2; [|discriminate].
  assert (x = v :: t) as -> by (simpl in H; congruence).
  simpl. destruct (same n m) eqn:S; [apply same_eq in S; subst; auto|].
  apply IH; auto. destruct I as [<-|I]; auto. rewrite same_refl in S. discriminate.
Qed.
Lemma member_iff l n : member l n = true <-> In n l.
Proof.
  unfold member. rewrite existsb_exists. split; [intros (m & I & E); apply same_eq in E; subst; auto|].
  intros I. exists n. split; auto. apply same_refl.
Qed.
Lemma others_iff vars r n : In n (others vars r) <-> In n (map fst r) /\ ~ In n vars.
Proof. unfold others. rewrite filter_In, negb_true_iff, <- not_true_iff_false, member_iff. tauto. Qed.
Lemma lookup_dom {A} n (r : list (text * A)) : lookup n r <> None -> In n (map fst r).
Proof. destruct (lookup n r) eqn:E; [|congruence]. intros _. apply lookup_in in E. apply in_map_iff. exists (n, a). auto. Qed.

Lemma optimize_keeps {N} normalized vars mu sd (solve : list R -> list R -> option (list R * R * N)) r y_opt r' v :
  (forall n, In n normalized -> sd n <> 0) ->
  optimize normalized vars mu sd solve r = Some (y_opt, r', v) ->
  map fst r' = map fst r /\ forall n, ~ In n vars -> lookup n r' = lookup n r.
Proof.
  intros Sd. unfold optimize.
  destruct (pick (others vars r) (scaled normalized mu sd r)) as [x|] eqn:Px; [|discriminate].
  destruct (pick vars (scaled normalized mu sd r)) as [y|] eqn:Py; [|discriminate].
  destruct (solve x y) as [[[y' w] k]|]; [|discriminate].
  destruct (pick vars (unscaled _ _ _ _)) as [yo|] eqn:Po; [|discriminate].
  intros H. assert (r' = unscaled normalized mu sd (assign (others vars r) x (assign vars y' r))) as -> by congruence. clear H.
  split.
  - unfold unscaled, assign. rewrite !map_map. reflexivity.
  - intros n Hn. rewrite unscaled_at, !assign_at.
    destruct (lookup n r) as [u|] eqn:L; [|reflexivity]. cbn [option_map]. f_equal.
    rewrite (lookup_pick _ _ _ _ Px).
    + rewrite scaled_at, L. cbn [option_map].
      destruct (member normalized n) eqn:M; auto. field. apply Sd, member_iff, M.
    + apply others_iff. split; auto. apply lookup_dom. congruence.
Qed.
(** The network input of the returned frame is the solution, and the reported controls are its unscaled values. *)
Lemma all_some_ext {A B} (f g : A -> option B) l : (forall a, In a l -> f a = g a) -> all_some (map f l) = all_some (map g l).
Proof. intros H. f_equal. apply map_ext_in. auto. Qed.
Lemma pick_combine names (values : list R) : NoDup names -> length values = length names ->
  all_some (map (fun n => lookup n (combine names values)) names) = Some values.
Proof.
  revert values. induction names as [|m names IH]; intros [|v values] N L; try discriminate; [reflexivity|].
  inversion N; subst. cbn [map combine lookup all_some]. rewrite same_refl.
  rewrite (all_some_ext _ (fun n => lookup n (combine names values))).
  - rewrite IH; auto.
  - intros a Ha. destruct (same a m) eqn:E; auto. apply same_eq in E. subst. contradiction.
Qed.
Lemma optimize_consistent {N} normalized vars mu sd (solve : list R -> list R -> option (list R * R * N)) r y_opt r' v :
  (forall n, In n normalized -> sd n <> 0) -> NoDup vars ->
  (forall x y y' w k, solve x y = Some (y', w, k) -> length y' = length y) ->
  optimize normalized vars mu sd solve r = Some (y_opt, r', v) ->
  pick vars r' = Some y_opt /\
  exists x y y' k,
    pick (others vars r) (scaled normalized mu sd r) = Some x /\ pick vars (scaled normalized mu sd r) = Some y /\
    solve x y = Some (y', v, k) /\
    pick (others vars r) (scaled normalized mu sd r') = Some x /\ pick vars (scaled normalized mu sd r') = Some y'.
Proof.
  intros Sd Nd Len H. pose proof (optimize_keeps normalized vars mu sd solve r y_opt r' v Sd H) as [_ K]. revert H.
  unfold optimize.
  destruct (pick (others vars r) (scaled normalized mu sd r)) as [x|] eqn:Px; [|discriminate].
  destruct (pick vars (scaled normalized mu sd r)) as [y|] eqn:Py; [|discriminate].
  destruct (solve x y) as [[[y' w] k]|] eqn:Sv; [|discriminate].
  destruct (pick vars (unscaled _ _ _ _)) as [yo|] eqn:Po; [|discriminate].
  intros H. assert (r' = unscaled normalized mu sd (assign (others vars r) x (assign vars y' r))) as E by congruence.
  assert (yo = y_opt /\ w = v) as [-> ->] by (split; congruence). split; [rewrite E; exact Po|].
  exists x, y, y', k. repeat split; auto.
  - rewrite <- Px. unfold pick. apply all_some_ext. intros n Hn. apply others_iff in Hn. destruct Hn as [_ Hn].
    rewrite !scaled_at, K; auto.
  - assert (length y' = length vars) as L.
    { rewrite (Len _ _ _ _ _ Sv). unfold pick in Py. apply all_some_nth in Py. destruct Py as [Py _]. exact Py. }
    rewrite <- (pick_combine vars y' Nd L). unfold pick. apply all_some_ext. intros n Hn.
    assert (exists u, lookup n r = Some u) as [u Lu].
    { clear -Py Hn. unfold pick in Py. revert y Py. induction vars as [|m vars IH]; [destruct Hn|].
      simpl. intros y Py. destruct (lookup m (scaled normalized mu sd r)) eqn:E; [|discriminate].
      destruct (all_some _) eqn:E2; [|discriminate].
      destruct Hn as [->|Hn]; [|eapply IH; eauto]. rewrite scaled_at in E. destruct (lookup n r); [eauto|discriminate]. }
    assert (exists z, lookup n (combine vars y') = Some z) as [z Lz].
    { clear -L Hn. revert y' L. induction vars as [|m vars IH]; [destruct Hn|]. intros [|q y'] L; [discriminate|].
      simpl. destruct (same n m) eqn:E; [eauto|]. destruct Hn as [->|Hn]; [rewrite same_refl in E; discriminate|]. apply IH; auto. }
    rewrite E, scaled_at, unscaled_at, !assign_at, Lu. cbn [option_map]. rewrite Lz.
    rewrite lookup_combine_out by (rewrite others_iff; tauto).
    destruct (member normalized n) eqn:M; f_equal. field. apply Sd, member_iff, M.
Qed.
