(** Scenario reduction in another unit. *)
From Coq Require Import List Bool Arith Reals Lra Lia.
From Verif Require Import Model.Subsample Model.Stats Model.Metrics Model.Scenred Spec.MetricsSpec Spec.ScenredSpec
  Proof.SeriesProof Proof.SubsampleProof Proof.StatsProof Proof.MetricsProof Proof.ScenredProof Proof.ScenredTolProof.
Import ListNotations.
Local Open Scope R_scope.

Lemma Rltb_iff a b c d : (a < b <-> c < d) -> Rltb a b = Rltb c d.
Proof.
  intros H. destruct (Rltb a b) eqn:E1, (Rltb c d) eqn:E2; try reflexivity; exfalso.
  - apply Rltb_spec in E1. apply H, Rltb_spec in E1. congruence.
  - apply Rltb_spec in E2. apply H, Rltb_spec in E2. congruence.
Qed.
Lemma argmin_upto_order f g n : (forall i j, (i <= n)%nat -> (j <= n)%nat -> (f i < f j <-> g i < g j)) -> argmin_upto f n = argmin_upto g n.
Proof.
  induction n as [|n IH]; intros H; cbn; [reflexivity|]. rewrite <- IH by (intros; apply H; lia).
  pose proof (proj1 (argmin_upto_spec f n)). rewrite (Rltb_iff _ _ (g (S n)) (g (argmin_upto f n))); [reflexivity|]. apply H; lia.
Qed.
Lemma argmin_order f g n : (0 < n)%nat -> (forall i j, (i < n)%nat -> (j < n)%nat -> (f i < f j <-> g i < g j)) -> argmin f n = argmin g n.
Proof. intros Hn H. unfold argmin. apply argmin_upto_order. intros. apply H; lia. Qed.
Lemma argmin_compares : forall f g n, (0 < n)%nat -> (forall i j, (i < n)%nat -> (j < n)%nat -> (f i <= f j <-> g i <= g j)) -> argmin f n = argmin g n.
Proof.
  intros f g n Hn H. apply argmin_order; [exact Hn|]. intros i j Hi Hj. pose proof (H j i Hj Hi). split; intros K; apply Rnot_le_lt; intros M; apply H0 in M; lra.
Qed.
Lemma max_upto_scale k f g n : 0 <= k -> (forall j, (j <= n)%nat -> g j = k * f j) -> max_upto g n = k * max_upto f n.
Proof.
  intros Hk. induction n as [|n IH]; intros H; cbn; [apply H; lia|]. rewrite IH, (H (S n)) by (auto; intros; apply H; lia).
  now rewrite RmaxRmult.
Qed.
Lemma max_of_scale k f g n : 0 <= k -> (0 < n)%nat -> (forall j, (j < n)%nat -> g j = k * f j) -> max_of g n = k * max_of f n.
Proof. intros Hk Hn H. unfold max_of. apply max_upto_scale; [exact Hk|]. intros. apply H. lia. Qed.
Lemma Rsum_scale k l : Rsum (map (Rmult k) l) = k * Rsum l.
Proof. induction l as [|a l IH]; cbn; [lra|]. unfold Rsum in *. cbn in *. rewrite IH. lra. Qed.
Lemma Rmin_scale k a b : 0 <= k -> Rmin (k * a) (k * b) = k * Rmin a b.
Proof. intros Hk. unfold Rmin. destruct (Rle_dec a b), (Rle_dec (k * a) (k * b)); try reflexivity; nra. Qed.
Lemma fold_min_scale k (f g : nat -> R) l : 0 <= k -> (forall c, In c l -> g c = k * f c) -> forall a,
  fold_left (fun m c => Rmin m (g c)) l (k * a) = k * fold_left (fun m c => Rmin m (f c)) l a.
Proof.
  intros Hk H. induction l as [|x l IH]; intros a; cbn [fold_left]; [reflexivity|].
  rewrite (H x (or_introl eq_refl)), Rmin_scale by exact Hk. apply IH. intros c Hc. apply H. now right.
Qed.

Section Unit.
Context {V W : Type} (f : nat -> V -> W) (k : R) (Hk : 0 < k) (T N : nat) (dist dist' : nat -> nat -> nat -> R) (nearest : (nat -> R) -> nat -> nat)
  (tol : nat -> R) (nodes : nat -> nat) (samples : nat -> nat -> V).
Context (Hdist : usable_distance T N dist) (Hdist' : usable_distance T N dist') (Hunit : in_unit T k dist dist') (HT : (0 < T)%nat)
  (Hnear : finds_smallest nearest) (Hcmp : compares nearest) (HN : (0 < N)%nat) (Hnodes : forall i, (i < T)%nat -> (1 <= nodes i)%nat).

Definition sim (st : reduction V) (st' : reduction W) : Prop :=
  forall u c, J st' u c = J st u c /\ P st' u c = P st u c /\ L st' u c = L st u c /\ SC st' u c = f u (SC st u c).

Lemma largest_unit : largest T N dist' = k * largest T N dist.
Proof.
  unfold largest. apply max_of_scale; [lra|exact HN|]. intros r Hr. apply max_of_scale; [lra|exact HN|]. intros j Hj. apply Hunit. lia.
Qed.
Lemma masked_cases {X} (d : nat -> nat -> nat -> R) (st : reduction X) i c r : 
  masked T N d st i c r = if J st i r && J st i c then d (T - 1)%nat r c + (if (r =? c)%nat then 1 + largest T N d else 0) else infty.
Proof. reflexivity. Qed.
Lemma masked_order st st' i c : sim st st' -> (c < N)%nat -> forall a b, (a < N)%nat -> (b < N)%nat ->
  (masked T N dist st i c a < masked T N dist st i c b <-> masked T N dist' st' i c a < masked T N dist' st' i c b).
Proof.
  intros S Hc a b Ha Hb. rewrite !masked_cases.
  destruct (S i a) as (-> & _). destruct (S i b) as (-> & _). destruct (S i c) as (-> & _).
  destruct (largest_bounds T N dist Hdist HN) as [LB LM].
  destruct (largest_bounds T N dist' Hdist' HN) as [LB' LM'].
  destruct (Hdist a c Ha Hc) as [A1 A2]. destruct (Hdist b c Hb Hc) as [B1 B2].
  destruct (Hdist' a c Ha Hc) as [A1' A2']. destruct (Hdist' b c Hb Hc) as [B1' B2'].
  pose proof (LM a c Ha Hc). pose proof (LM b c Hb Hc). pose proof (LM' a c Ha Hc). pose proof (LM' b c Hb Hc).
  destruct (J st i a), (J st i b), (J st i c); cbn [andb]; rewrite ?infty_eq; destruct (Nat.eqb_spec a c) as [Ea|Ea], (Nat.eqb_spec b c) as [Eb|Eb];
    subst; rewrite ?A2, ?B2, ?A2', ?B2' in *; try lra; rewrite ?(Hunit (T - 1)%nat) in * by lia; split; intros K; try lra.
  - rewrite !Rplus_0_r in *. apply Rmult_lt_compat_l; lra.
  - rewrite !Rplus_0_r in *. apply Rmult_lt_reg_l in K; lra.
Qed.

Lemma column_unit st st' i c : sim st st' -> (c < N)%nat -> J st i c = true -> (exists b, b <> c /\ (b < N)%nat /\ J st i b = true) ->
  column_min T N dist' st' i c = k * column_min T N dist st i c /\ 0 <= column_min T N dist st i c < 10 ^ 12 - 1 /\ 0 <= k * column_min T N dist st i c < 10 ^ 12 - 1.
Proof.
  intros S Hc Jc (b & Hb & HbN & Jb). unfold column_min.
  rewrite <- (argmin_order (masked T N dist st i c) (masked T N dist' st' i c) N HN (masked_order st st' i c S Hc)).
  destruct (argmin_spec (masked T N dist st i c) N HN) as [A B]. set (m := argmin _ _) in *. specialize (B b HbN).
  destruct (largest_bounds T N dist Hdist HN) as [LB LM].
  rewrite (masked_cases dist st i c b) in B. rewrite Jb, Jc in B. cbn [andb] in B. destruct (Nat.eqb_spec b c); [congruence|]. pose proof (LM b c HbN Hc).
  rewrite !masked_cases in *. destruct (S i m) as (-> & _). destruct (S i c) as (-> & _). rewrite Jc in *.
  destruct (J st i m) eqn:Jm; cbn [andb] in *; [|rewrite infty_eq in B; lra].
  destruct (Nat.eqb_spec m c) as [->|Hm]; [destruct (Hdist c c Hc Hc) as [_ E]; rewrite E in B; lra|].
  rewrite !Rplus_0_r. split; [apply Hunit; lia|]. split; [apply (Hdist m c A Hc)|rewrite <- Hunit by lia; apply (Hdist' m c A Hc)].
Qed.
Lemma another_alive (st : reduction V) i c : (2 <= length (alive N st i))%nat -> exists b, b <> c /\ (b < N)%nat /\ J st i b = true.
Proof.
  intros H. destruct (two_alive N tol nodes samples HN st i H) as (x & y & Hxy & Hx & Hy & Jx & Jy).
  destruct (Nat.eq_dec x c) as [->|]; [exists y|exists x]; auto.
Qed.
Lemma cost_unit st st' i rep c : inv N samples i st rep -> (2 <= length (alive N st i))%nat -> sim st st' -> (c < N)%nat -> J st i c = true ->
  cost T N dist' st' i c = k * cost T N dist st i c /\ cost T N dist st i c < infty /\ cost T N dist' st' i c < infty.
Proof.
  intros I H2 S Hc Jc. unfold cost. destruct (S i c) as (-> & -> & _). rewrite Jc.
  destruct (column_unit st st' i c S Hc Jc (another_alive st i c H2)) as (-> & C1 & C2).
  pose proof (prob_range N tol nodes samples HN i st rep c I Hc) as PR. rewrite infty_eq. repeat split; [lra| |]; nra.
Qed.
Lemma cost_dead {X} (d : nat -> nat -> nat -> R) (st : reduction X) i c : J st i c = false -> cost T N d st i c = infty.
Proof. intros H. unfold cost. now rewrite H. Qed.
Lemma removed_unit st st' i rep : inv N samples i st rep -> (2 <= length (alive N st i))%nat -> sim st st' ->
  removed T N dist' st' i = removed T N dist st i.
Proof.
  intros I H2 S. unfold removed. symmetry. apply argmin_order; [exact HN|]. intros a b Ha Hb.
  assert (Q : forall c, J st' i c = J st i c) by (intros c; apply S).
  destruct (J st i a) eqn:Ja, (J st i b) eqn:Jb.
  - destruct (cost_unit st st' i rep a I H2 S Ha Ja) as (-> & _ & _). destruct (cost_unit st st' i rep b I H2 S Hb Jb) as (-> & _ & _).
    split; intros K; [apply Rmult_lt_compat_l; lra|apply Rmult_lt_reg_l in K; lra].
  - destruct (cost_unit st st' i rep a I H2 S Ha Ja) as (E & K1 & K2). rewrite (cost_dead dist st i b Jb), (cost_dead dist' st' i b) by now rewrite Q. tauto.
  - destruct (cost_unit st st' i rep b I H2 S Hb Jb) as (E & K1 & K2). rewrite (cost_dead dist st i a Ja), (cost_dead dist' st' i a) by now rewrite Q. lra.
  - rewrite (cost_dead dist st i a Ja), (cost_dead dist st i b Jb), (cost_dead dist' st' i a), (cost_dead dist' st' i b) by now rewrite Q. tauto.
Qed.
Lemma augmented_unit st st' i rep : inv N samples i st rep -> (2 <= length (alive N st i))%nat -> sim st st' ->
  augmented T N dist' nearest st' i = augmented T N dist nearest st i.
Proof.
  intros I H2 S. unfold augmented. rewrite (removed_unit st st' i rep I H2 S).
  destruct (removed_alive T N dist tol nodes samples Hdist HN i st rep I ltac:(lia)) as [R1 _].
  symmetry. apply Hcmp. intros a b Ha Hb.
  pose proof (masked_order st st' i _ S R1 b a Hb Ha) as K.
  split; intros M; apply Rnot_lt_le; intros Q; apply K in Q; lra.
Qed.
Lemma merge_unit st st' i rep : inv N samples i st rep -> (2 <= length (alive N st i))%nat -> sim st st' ->
  sim (merge T N dist nearest i st) (merge T N dist' nearest i st').
Proof.
  intros I H2 S. unfold merge. rewrite (removed_unit st st' i rep I H2 S), (augmented_unit st st' i rep I H2 S).
  set (rem := removed T N dist st i). set (aug := augmented T N dist nearest st i).
  assert (SJ : forall u c, J st' u c = J st u c) by (intros; apply S). assert (SP : forall u c, P st' u c = P st u c) by (intros; apply S).
  assert (SL : forall u c, L st' u c = L st u c) by (intros; apply S). assert (SV : forall u c, SC st' u c = f u (SC st u c)) by (intros; apply S).
  assert (L1 : forall u c, set2 (L st') aug rem true u c = set2 (L st) aug rem true u c) by (intros; unfold set2; now rewrite SL).
  intros u c. cbn [J P L SC]. split; [unfold set2; now rewrite SJ|]. split; [unfold set2; now rewrite !SP|]. split; [now rewrite !L1|].
  rewrite !L1. destruct ((u <=? i)%nat && _); [|]; destruct ((u <=? i)%nat && _); now rewrite ?SV.
Qed.
Lemma branches_unit st st' i : sim st st' -> branches N st' i = branches N st i.
Proof. intros S. unfold branches. f_equal. apply filter_ext. intros c. now destruct (S i c) as (_ & -> & _). Qed.
Lemma alive_unit st st' i : sim st st' -> alive N st' i = alive N st i.
Proof. intros S. unfold alive. apply filter_ext. intros c. apply S. Qed.
Lemma delta_max_unit st st' i : (i < T)%nat -> sim st st' -> delta_max N dist' st' i = k * delta_max N dist st i.
Proof.
  intros Hi S. unfold delta_max. rewrite (alive_unit st st' i S). set (l := alive N st i).
  assert (Q : forall c, Rsum (map (fun r => if (r =? c)%nat then 0 else dist' i r c) l) = k * Rsum (map (fun r => if (r =? c)%nat then 0 else dist i r c) l)).
  { intros c. rewrite <- Rsum_scale, map_map. f_equal. apply map_ext. intros r. rewrite Hunit by exact Hi. destruct (r =? c)%nat; ring. }
  destruct l as [|c0 l'] eqn:E; [ring|]. rewrite Q. apply (fold_min_scale k); [lra|]. intros c _. apply Q.
Qed.
Lemma ratio_unit a b : ratio (k * a) (k * b) = ratio a b.
Proof.
  unfold ratio. destruct (Req_EM_T b 0) as [->|Hb]; [destruct (Req_EM_T (k * 0) 0); [reflexivity|lra]|].
  destruct (Req_EM_T (k * b) 0) as [E|E]; [apply Rmult_integral in E; destruct E; lra|]. f_equal. field. lra.
Qed.
Lemma loop_unit fuel : forall i dmax dp dr st st' rep, inv N samples i st rep -> (1 <= nodes i)%nat -> sim st st' ->
  sim (reduce_loop T N dist nearest tol nodes fuel i dmax dp dr st) (reduce_loop T N dist' nearest tol nodes fuel i (k * dmax) (k * dp) dr st').
Proof.
  induction fuel as [|fuel IH]; intros i dmax dp dr st st' rep I Hn S; [exact S|]. rewrite !loop_S. rewrite (branches_unit st st' i S).
  destruct (below_tol dr (tol i) && (nodes i <? branches N st i)%nat) eqn:E; [|exact S].
  apply andb_true_iff in E. destruct E as [_ E2]. apply Nat.ltb_lt in E2. rewrite (branches_alive N tol nodes samples HN i st rep I) in E2.
  assert (H2 : (2 <= length (alive N st i))%nat) by lia.
  destruct (merge_inv T N dist nearest tol nodes samples Hdist Hnear HN i st rep I H2) as (I' & _).
  destruct (removed_alive T N dist tol nodes samples Hdist HN i st rep I ltac:(lia)) as [R1 R2].
  cbv zeta. rewrite (removed_unit st st' i rep I H2 S), (proj1 (cost_unit st st' i rep _ I H2 S R1 R2)).
  set (dp1 := if Req_EM_T (tol i) infty then dp else dp + cost T N dist st i (removed T N dist st i)).
  replace (if Req_EM_T (tol i) infty then k * dp else k * dp + k * cost T N dist st i (removed T N dist st i)) with (k * dp1)
    by (unfold dp1; destruct (Req_EM_T (tol i) infty); ring).
  rewrite ratio_unit. eapply IH; [exact I'|exact Hn|]. exact (merge_unit st st' i rep I H2 S).
Qed.
Lemma carry_unit i st st' : sim st st' -> sim (carry i st) (carry i st').
Proof.
  intros Q. destruct i as [|i]; [exact Q|]. intros u c. cbn [carry J P L SC]. destruct (Q u c) as (E1 & E2 & E3 & E4). destruct (Q (S i) c) as (F1 & F2 & _ & _).
  destruct (u =? i)%nat; auto.
Qed.
Lemma from_unit m : forall st st' rep, inv N samples m st rep -> (m < T)%nat -> sim st st' ->
  sim (reduce_from T N dist nearest tol nodes (S m) st) (reduce_from T N dist' nearest tol nodes (S m) st').
Proof.
  induction m as [|m IH]; intros st st' rep I Hm Q.
  - cbn [reduce_from]. apply carry_unit. unfold reduce_step. rewrite (delta_max_unit st st' _ Hm Q). replace 0 with (k * 0) at 3 by ring.
    exact (loop_unit N 0%nat _ _ _ _ _ rep I (Hnodes _ Hm) Q).
  - assert (S1 : sim (reduce_step T N dist nearest tol nodes (S m) st) (reduce_step T N dist' nearest tol nodes (S m) st')).
    { unfold reduce_step. rewrite (delta_max_unit st st' _ Hm Q). replace 0 with (k * 0) at 3 by ring. exact (loop_unit N _ _ _ _ _ _ rep I (Hnodes _ Hm) Q). }
    destruct (step_inv T N dist nearest tol nodes samples Hdist Hnear HN (S m) st rep I (Hnodes _ Hm)) as (rep' & I' & _).
    destruct (carry_inv N tol nodes samples HN m _ rep' I') as (I2 & _).
    change (sim (reduce_from T N dist nearest tol nodes (S m) (carry (S m) (reduce_step T N dist nearest tol nodes (S m) st)))
      (reduce_from T N dist' nearest tol nodes (S m) (carry (S m) (reduce_step T N dist' nearest tol nodes (S m) st')))).
    eapply IH; [exact I2|lia|]. apply carry_unit, S1.
Qed.
Lemma reduce_unit : sim (reduce T N dist nearest tol nodes samples) (reduce T N dist' nearest tol nodes (fun u c => f u (samples u c))).
Proof.
  unfold reduce. replace (reduce_from T N dist nearest tol nodes T) with (reduce_from (V := V) T N dist nearest tol nodes (S (T - 1))) by (f_equal; lia).
  replace (reduce_from T N dist' nearest tol nodes T) with (reduce_from (V := W) T N dist' nearest tol nodes (S (T - 1))) by (f_equal; lia).
  apply (from_unit (T - 1) _ _ (fun c => c)); [apply initial_inv; assumption|lia|]. intros u c. cbn. auto.
Qed.
End Unit.

Section Relabel.
Context {V W : Type} (eqd : forall a b : V, {a = b} + {a <> b}) (eqd' : forall a b : W, {a = b} + {a <> b}) (f : nat -> V -> W)
  (Hf : forall t a b, f t a = f t b -> a = b).
Definition relab (x : nat * R * V) : nat * R * W := (n_time x, n_prob x, f (n_time x) (n_val x)).
Lemma same_relab t v x : same eqd' t (f t v) (relab x) = same eqd t v x.
Proof.
  unfold same, relab. cbn [n_time n_val fst snd]. destruct (Nat.eqb_spec (n_time x) t) as [->|]; [cbn [andb]|reflexivity]. destruct (eqd (n_val x) v) as [E|E], (eqd' (f t (n_val x)) (f t v)) as [E'|E']; try reflexivity.
  - now rewrite E in E'.
  - now apply Hf in E'.
Qed.
Lemma existsb_relab p q l : (forall x, p (relab x) = q x) -> existsb p (map relab l) = existsb q l.
Proof. intros H. induction l as [|x l IH]; [reflexivity|]. cbn. now rewrite H, IH. Qed.
Lemma find_relab p q l : (forall x, p (relab x) = q x) -> find_index p (map relab l) = find_index q l.
Proof. intros H. induction l as [|x l IH]; [reflexivity|]. cbn. now rewrite H, IH. Qed.
Context (SS : nat -> nat -> V) (SS' : nat -> nat -> W) (PP PP' : nat -> nat -> R).
Context (HS : forall u s, SS' u s = f u (SS u s)) (HP : forall u s, PP' u s = PP u s).
Lemma visit_relab t s g : visit eqd' SS' PP' t s (relabelled f g) = option_map (relabelled f) (visit eqd SS PP t s g).
Proof.
  unfold visit. rewrite HP. destruct (Req_EM_T (PP t s) 0); [reflexivity|]. unfold relabelled at 1 3. cbn [g_nodes]. fold relab.
  rewrite !HS. rewrite (existsb_relab _ (same eqd t (SS t s))) by (intros; apply same_relab).
  destruct (existsb _ _); [reflexivity|]. rewrite (find_relab _ (same eqd (t - 1) (SS (t - 1)%nat s))) by (intros; apply same_relab).
  destruct (find_index _ _) as [x|]; [|reflexivity]. cbn [option_map]. unfold relabelled. cbn [g_nodes g_edges]. fold relab. now rewrite map_app, map_length.
Qed.
Lemma visit_all_relab l : forall g, visit_all eqd' SS' PP' l (option_map (relabelled f) g) = option_map (relabelled f) (visit_all eqd SS PP l g).
Proof.
  induction l as [|p l IH]; intros g; [reflexivity|]. unfold visit_all in *. cbn [fold_left]. destruct g as [g|]; cbn [option_map].
  - rewrite visit_relab. apply IH.
  - apply (IH None).
Qed.
Lemma network_relab T n : get_network eqd' T n SS' PP' = option_map (relabelled f) (get_network eqd T n SS PP).
Proof.
  unfold get_network. rewrite (filter_ext (fun s => Rltb 0 (PP' 0%nat s)) (fun s => Rltb 0 (PP 0%nat s))) by (intros; now rewrite HP).
  destruct (filter _ _) as [|r [|r' l]]; [reflexivity| |reflexivity].
  replace (Some (Graph [(0%nat, 1, SS' 0%nat r)] [])) with (option_map (relabelled f) (Some (Graph [(0%nat, 1, SS 0%nat r)] []))).
  2:{ cbn. unfold relabelled. cbn. now rewrite HS. }
  rewrite visit_all_relab. destruct (visit_all eqd SS PP _ _) as [g|]; [|reflexivity]. cbn [option_map].
  replace (g_edges (relabelled f g)) with (g_edges g) by reflexivity. now destruct (g_edges g).
Qed.
End Relabel.

Lemma reduction_unit {V W} (eqd : forall a b : V, {a = b} + {a <> b}) (eqd' : forall a b : W, {a = b} + {a <> b}) (f : nat -> V -> W) k
    T N dist dist' nearest t0 ns (samples : nat -> nat -> V) n SS PP net :
  (forall t a b, f t a = f t b -> a = b) -> 0 < k -> usable_distance T N dist -> usable_distance T N dist' -> in_unit T k dist dist' ->
  finds_smallest nearest -> compares nearest -> (0 < N)%nat -> (0 < T)%nat ->
  (forall i, (0 < i < T)%nat -> (1 <= node_counts ns i)%nat) ->
  scenred eqd T N dist nearest t0 ns samples = (n, SS, PP, net) ->
  exists SS' PP', scenred eqd' T N dist' nearest t0 ns (fun u c => f u (samples u c)) = (n, SS', PP', option_map (relabelled f) net) /\
    forall u s, SS' u s = f u (SS u s) /\ PP' u s = PP u s.
Proof.
  intros Hf Hk Hd Hd' Hu Hn Hc HN HT Hns E. unfold scenred in *.
  set (tol := tolerance T t0 (node_counts ns)) in *. set (nodes := forced (node_counts ns)) in *.
  assert (Hnodes : forall i, (i < T)%nat -> (1 <= nodes i)%nat).
  { intros i Hi. unfold nodes, forced. destruct i; [lia|]. apply Hns. lia. }
  pose proof (reduce_unit f k Hk T N dist dist' nearest tol nodes samples Hd Hd' Hu HT Hn Hc HN Hnodes) as S.
  set (st := reduce T N dist nearest tol nodes samples) in *.
  set (st' := reduce T N dist' nearest tol nodes (fun u c => f u (samples u c))) in *.
  assert (K : kept T N st' = kept T N st) by (unfold kept; apply filter_ext; intros c; apply S). cbv zeta in *. rewrite K.
  injection E as E1 E2 E3 E4.
  eexists _, _. split.
  - rewrite E1. f_equal. rewrite <- E4, <- E1. rewrite <- (network_relab eqd eqd' f Hf (fun u k => SC st u (nth k (kept T N st) 0%nat)) (fun u k => SC st' u (nth k (kept T N st) 0%nat))
      (fun u k => P st u (nth k (kept T N st) 0%nat)) (fun u k => P st' u (nth k (kept T N st) 0%nat))); [reflexivity| |]; intros; apply S.
  - rewrite <- E2, <- E3. intros u s. cbn beta. split; apply S.
Qed.
