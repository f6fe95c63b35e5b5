From Coq Require Import String Reals List Arith Bool ZArith Lia Lra.
From Verif Require Import Model.Names Model.Transformer Model.Formatter Model.FkConfig Model.Quantiles Model.Series Model.Stats Model.Subsample Model.Forest
  Spec.ForestSpec Proof.StatsProof Proof.SubsampleProof Proof.FkConfigProof.
Import ListNotations.
Local Open Scope string_scope.
Local Open Scope list_scope.

(** ** Parameters *)
Lemma get_entries_in k names d : In k names -> get k (entries names d) = get k d.
Proof.
  unfold entries. induction names as [|n names IH]; intros H; [destruct H|]. cbn [flat_map].
  destruct (get n d) as [v|] eqn:E; cbn [app get].
  - destruct (String.eqb_spec k n) as [->|N]; [symmetry; assumption|]. destruct H as [H|H]; [congruence|]. apply IH. assumption.
  - destruct H as [->|H]; [|apply IH; assumption].
    destruct (in_dec string_dec k names) as [H|H]; [apply IH; assumption|]. rewrite E. clear -H. induction names as [|n names IH]; [reflexivity|].
    cbn [flat_map]. assert (~ In k names) as H' by (intros A; apply H; right; assumption). destruct (get n d); cbn [app get]; [|auto].
    destruct (String.eqb_spec k n) as [->|N]; [|auto]. exfalso. apply H. left. reflexivity.
Qed.
Lemma entries_ext names d d' : (forall k, In k names -> get k d = get k d') -> entries names d = entries names d'.
Proof.
  unfold entries. induction names as [|n names IH]; intros H; [reflexivity|]. cbn [flat_map]. rewrite (H n) by (left; reflexivity).
  f_equal. apply IH. intros. apply H. right. assumption.
Qed.
Lemma get_set_new k v attrs new : get k attrs <> None -> get k new = Some v -> get k (set_params attrs new) = Some v.
Proof.
  unfold set_params. induction attrs as [|[c w] attrs IH]; intros A B; [contradiction A; reflexivity|]. cbn in *.
  destruct (String.eqb_spec k c) as [->|N]; [rewrite B; reflexivity|]. auto.
Qed.
Lemma get_set_old k attrs new : get k new = None -> get k (set_params attrs new) = get k attrs.
Proof.
  unfold set_params. intros B. induction attrs as [|[c w] attrs IH]; [reflexivity|]. cbn.
  destruct (String.eqb_spec k c) as [->|N]; [rewrite B; reflexivity|]. auto.
Qed.

Lemma boosters_tuned (a params : dict) (k : string) :
  In k ["device_type"; "objective"; "max_depth"; "n_estimators"; "num_leaves"; "learning_rate"; "verbose"; "metric"; "min_child_samples";
        "n_jobs"; "colsample_bytree"; "colsample_bynode"] -> get k a <> None ->
  get k (lgb_learner (lgb_create a)) = get k a /\
  (forall v, get k params = Some v -> get k (lgb_learner (set_params (lgb_create a) params)) = Some v) /\
  (get k params = None -> get k (lgb_learner (set_params (lgb_create a) params)) = get k a).
Proof.
  intros H A. unfold lgb_learner, lgb_create. rewrite !(get_entries_in k lgb_names) by assumption. split; [reflexivity|]. split.
  - intros v E. apply get_set_new; assumption.
  - intros E. apply get_set_old. assumption.
Qed.
Lemma forests_given (a : dict) (k : string) :
  In k ["n_estimators"; "bootstrap"; "oob_score"; "n_jobs"; "random_state"; "verbose"; "warm_start"; "max_samples"; "min_samples_split";
        "min_samples_leaf"; "max_samples_leaf"; "min_weight_fraction_leaf"; "max_features"; "max_leaf_nodes"; "min_impurity_decrease";
        "criterion"; "ccp_alpha"] ->
  get k (qrf_learner (qrf_create a)) = get k a /\ (k <> "n_jobs" -> get k (qrf_global_learner (qrf_create a)) = get k a).
Proof.
  intros H. cbn [qrf_create f_pars]. unfold qrf_learner. cbn [f_pars qrf_create]. split.
  - apply get_entries_in. assumption.
  - intros N. unfold qrf_global_learner. cbn [f_pars f_attrs qrf_create].
    assert (forall v, get k (set "n_jobs" v (entries qrf_names a)) = get k a) as K.
    { intros v. rewrite get_set. destruct (String.eqb_spec k "n_jobs"); [contradiction|]. apply get_entries_in. assumption. }
    assert (get k (entries qrf_names a) = get k a) as K' by (apply get_entries_in; assumption).
    destruct (get "n_jobs" (entries qrf_names a)) as [[n| | | |]|]; try assumption.
    destruct (get "max_parallel_workers" (entries qrf_attributes a)) as [[w| | | |]|]; try assumption.
    destruct (0 <? n)%nat; [apply K|assumption].
Qed.
(** A tuned forest reports the new value and trains with the old one. *)
Lemma forests_not_tuned (a params : dict) (k : string) (v : val) :
  In k qrf_attributes -> get k a <> None -> get k params = Some v ->
  (forall k', In k' (map fst params) -> In k' qrf_attributes) ->
  exists f, trial_qrf (qrf_create a) params = Some f /\ get k (f_attrs f) = Some v /\ qrf_learner f = qrf_learner (qrf_create a).
Proof.
  intros H A E S. exists (qrf_set_params (qrf_create a) params). unfold trial_qrf.
  replace (forallb (fun e : string * val => existsb (String.eqb (fst e)) qrf_attributes) params) with true.
  - split; [reflexivity|]. split; [|reflexivity]. cbn [qrf_set_params f_attrs qrf_create]. apply get_set_new; [|assumption].
    rewrite get_entries_in by assumption. assumption.
  - symmetry. apply forallb_forall. intros [c w] I. cbn [fst]. apply existsb_exists. exists c. split; [|apply String.eqb_refl].
    apply S. apply (in_map fst) in I. assumption.
Qed.
Lemma forests_depth (a : dict) (v : val) :
  qrf_learner (qrf_create (set "max_depth" v a)) = qrf_learner (qrf_create a) /\
  get "max_depth" (f_attrs (qrf_create (set "max_depth" v a))) = Some v.
Proof.
  split.
  - apply entries_ext. intros k I. rewrite get_set. destruct (String.eqb_spec k "max_depth") as [->|N]; [|reflexivity].
    exfalso. cbn in I. repeat (destruct I as [I|I]; [discriminate|]). assumption.
  - cbn [qrf_create f_attrs]. rewrite get_entries_in by (cbn; tauto). rewrite get_set. reflexivity.
Qed.

(** ** Weights *)
Lemma all_some_map_nth {A B} (f : A -> option B) l : forall r, all_some (map f l) = Some r ->
  length r = length l /\ forall i a, nth_error l i = Some a -> nth_error r i = f a.
Proof.
  induction l as [|x l IH]; intros r E; cbn in E.
  - injection E as <-. split; [reflexivity|]. intros [|i] a H; discriminate.
  - destruct (f x) as [y|] eqn:Ey; [|discriminate]. destruct (all_some (map f l)) as [ys|]; [|discriminate].
    injection E as <-. destruct (IH ys eq_refl) as [L H]. split; [cbn; congruence|]. intros [|i] a Ha; cbn in *; [congruence|auto].
Qed.
Lemma nth_error_seq n : forall a i, (i < n)%nat -> nth_error (seq a n) i = Some (a + i)%nat.
Proof.
  induction n as [|n IH]; intros a i H; [lia|]. destruct i as [|i]; cbn; [f_equal; lia|]. rewrite IH by lia. f_equal. lia.
Qed.
Lemma weights_used {X Y M G} (learn : list X -> list Y -> nat -> option (list R) -> option M) (learn_multi : list X -> list Y -> nat -> G)
  (n_single targets : nat) (red : R) (x : list X) (y : list Y) (w : option (list R)) (ms : list M) (g : option G) :
  qrf_fit learn learn_multi None n_single targets red x y w = Some (ms, g) ->
  length ms = n_single /\ forall i, (i < n_single)%nat -> nth_error ms i = learn x y i w.
Proof.
  unfold qrf_fit. cbn. intros E. destruct (all_some _) as [r|] eqn:A; [|discriminate]. injection E as -> _.
  apply all_some_map_nth in A as [L H]. rewrite seq_length in L. split; [assumption|]. intros i Hi. apply (H i i). apply nth_error_seq. assumption.
Qed.
Lemma held_out_unused {X Y M G} (learn : list X -> list Y -> nat -> option (list R) -> option M) (learn_multi : list X -> list Y -> nat -> G)
  (r : R) (n_single targets : nat) (red : R) (x x' : list X) (y y' : list Y) (w : option (list R)) :
  length x = length x' ->
  (forall n, (n + n_val (length x) r <= length x)%nat -> firstn n x = firstn n x' /\ firstn n y = firstn n y') ->
  qrf_fit learn learn_multi (Some r) n_single targets red x y w = qrf_fit learn learn_multi (Some r) n_single targets red x' y' w.
Proof.
  intros Hx H. unfold qrf_fit, train_val_split. rewrite <- Hx. destruct (le_lt_dec (n_val (length x) r) (length x)) as [L|L].
  - destruct (H (length x - n_val (length x) r)%nat) as [-> ->]; [lia|reflexivity].
  - replace (length x - n_val (length x) r)%nat with 0%nat by lia. reflexivity.
Qed.
Lemma weights_held_out {X Y M G} (learn : list X -> list Y -> nat -> option (list R) -> option M) (learn_multi : list X -> list Y -> nat -> G)
  (r : R) (n_single targets : nat) (red : R) (x : list X) (y : list Y) (w : list R) :
  checks_weights learn -> (0 < n_single)%nat -> length w = length x -> (1 <= INR (length x) * r)%R ->
  qrf_fit learn learn_multi (Some r) n_single targets red x y (Some w) = None.
Proof.
  intros C P L V. unfold qrf_fit, train_val_split.
  assert (0 < n_val (length x) r)%nat as K.
  { unfold n_val. destruct (floor_bounds (INR (length x) * r)) as [_ B]; [lra|].
    destruct (Z.to_nat (Int_part (INR (length x) * r))) eqn:E; [cbn in B; lra|lia]. }
  destruct n_single as [|n]; [lia|]. cbn [seq map]. rewrite C; [reflexivity|]. rewrite firstn_length.
  destruct x as [|x0 x]; [cbn in V; lra|]. cbn [length] in *. lia.
Qed.
Lemma weights_ignored {X Y M G} (learn : list X -> list Y -> nat -> option (list R) -> option M) (learn_multi : list X -> list Y -> nat -> G)
  (ratio : option R) (targets : nat) (red red' : R) (x : list X) (y : list Y) (w w' : option (list R)) :
  qrf_fit learn learn_multi ratio 0 targets red x y w = qrf_fit learn learn_multi ratio 0 targets red' x y w' /\
  forall n ms ms' g g', qrf_fit learn learn_multi ratio n targets red x y w = Some (ms, g) ->
    qrf_fit learn learn_multi ratio n targets red' x y w' = Some (ms', g') -> g = g'.
Proof.
  unfold qrf_fit. destruct (train_val_split ratio x y) as [[xt yt] v]. split; [reflexivity|].
  intros n ms ms' g g' A B. destruct (all_some _) as [r|]; [|discriminate]. destruct (all_some _) as [r'|] in B; [|discriminate]. congruence.
Qed.
Lemma global_reduction {X Y M G} (learn : list X -> list Y -> nat -> option (list R) -> option M) (learn_multi : list X -> list Y -> nat -> G)
  (n targets : nat) (red : R) (x : list X) (y : list Y) (w : option (list R)) (ms : list M) (g : option G) :
  (n < targets)%nat -> qrf_fit learn learn_multi None n targets red x y w = Some (ms, g) -> g = Some (learn_multi x y n).
Proof.
  unfold qrf_fit, train_val_split. intros L E. destruct (all_some _) as [r|]; [|discriminate]. injection E as _ <-.
  apply Nat.ltb_lt in L. rewrite L. reflexivity.
Qed.

(** ** Options of predict *)
Lemma predict_options (parallel : bool) (n_single n_multi : nat) (with_period : bool) (q : option quantiles_arg) :
  qrf_predicts parallel n_single n_multi with_period q = true <->
  (0 < n_single + n_multi)%nat /\ (with_period = true -> parallel = false /\ n_single = 0%nat) /\ (q = None \/ exists l, q = Some (Levels l)).
Proof.
  unfold qrf_predicts. destruct (Nat.ltb_spec 0 (n_single + n_multi)) as [L|L].
  2: { rewrite andb_false_r. split; [discriminate|]. intros [H _]. lia. }
  assert (forest_answers (request_of q) = true <-> q = None \/ exists l, q = Some (Levels l)) as Q.
  { destruct q as [[|l|]|]; cbn; split; intros H; eauto; try discriminate; destruct H as [H|[l' H]]; discriminate. }
  rewrite andb_true_iff, Q. assert ((if with_period && (parallel || (0 <? n_single)%nat) then false else true) = true <->
    (with_period = true -> parallel = false /\ n_single = 0%nat)) as P; [|tauto].
  clear. destruct with_period, parallel, n_single as [|n]; cbn; split; intros A; auto; try discriminate; try (intros; discriminate);
    destruct (A eq_refl); discriminate.
Qed.
Lemma predict_mean_refused (parallel : bool) (n_single n_multi : nat) (with_period : bool) :
  qrf_predicts parallel n_single n_multi with_period (Some Mean) = false /\
  qrf_predicts true n_single n_multi true None = false /\
  ((0 < n_single)%nat -> qrf_predicts parallel n_single n_multi true None = false).
Proof.
  assert (forall p a b w q, ~ (qrf_predicts p a b w q = true) -> qrf_predicts p a b w q = false) as K
    by (intros; destruct (qrf_predicts _ _ _ _ _); [exfalso|]; auto).
  split; [|split]; [| |intros P]; apply K; rewrite predict_options; intros (A & B & C).
  - destruct C as [C|[l C]]; discriminate.
  - destruct (B eq_refl). discriminate.
  - destruct (B eq_refl). lia.
Qed.
Lemma predict_quantiles_answers (parallel : bool) (n_single n_multi : nat) (q_vect : list R) (q : option (list R)) :
  (0 < n_single + n_multi)%nat ->
  (forall l, q = Some l -> qrf_predict_quantiles parallel n_single n_multi q_vect q = Some l) /\
  (q = None -> qrf_predict_quantiles parallel n_single n_multi q_vect q = Some q_vect).
Proof.
  intros L. assert (A : forall l, qrf_predicts parallel n_single n_multi false (Some (Levels l)) = true).
  { intros l. apply predict_options. split; [assumption|]. split; [discriminate|]. right. eauto. }
  split; [intros l ->|intros ->]; unfold qrf_predict_quantiles; rewrite A; reflexivity.
Qed.

Lemma columns_as_trained (tmetas fmetas : list (list meta)) (keep : list text) (tol lags ns : Z) (i : nat) (period : option Z) :
  (period = None \/ period = Some (24 * 3600 * 1000000000)%Z) ->
  lgb_columns tmetas fmetas keep tol lags ns period i = lgb_columns tmetas fmetas keep tol lags ns None i.
Proof. intros [->| ->]; reflexivity. Qed.
Lemma columns_differ : exists (tmetas fmetas : list (list meta)) (period : Z),
  (0 < period)%Z /\ lgb_columns tmetas fmetas [] 0 0 0 None 0 <> lgb_columns tmetas fmetas [] 0 0 0 (Some period) 0.
Proof.
  exists [[Meta [] [] (Some (-1)%Z) 0 0 []]], [[Meta [] [] (Some 12%Z) (-43200000000000) (-43200000000000) []]], 43200000000000%Z.
  split; [lia|]. vm_compute. discriminate.
Qed.

(** ** The training set of the global model *)
Local Open Scope R_scope.
Lemma ratio_pos rows k red : (0 < k)%nat -> 0 <= INR rows * (Rmax 1 (red * INR k) / INR k).
Proof.
  intros K. apply Rmult_le_pos; [apply pos_INR|]. apply Rmult_le_pos.
  - apply Rle_trans with 1; [lra|apply Rmax_l].
  - apply Rlt_le, Rinv_0_lt_compat, lt_0_INR. assumption.
Qed.
Lemma batch_bounds (rows k : nat) (red : R) : (0 < k)%nat -> red <= 1 ->
  (batch_rows rows k red <= rows)%nat /\ (long_rows rows k red <= rows * k)%nat /\ (rows < (batch_rows rows k red + 1) * k)%nat /\
  INR rows * red < INR (batch_rows rows k red) + 1.
Proof.
  intros K Rd. pose proof (floor_bounds _ (ratio_pos rows k red K)) as [B1 B2]. fold (batch_rows rows k red) in B1, B2.
  assert (0 < INR k) as Kp by (apply lt_0_INR; assumption). assert (1 <= INR k) as K1 by (change 1 with (INR 1); apply le_INR; lia).
  assert (Rmax 1 (red * INR k) / INR k <= 1) as U.
  { apply Rmult_le_reg_r with (INR k); [assumption|]. unfold Rdiv. rewrite Rmult_assoc, Rinv_l, Rmult_1_r, Rmult_1_l by lra.
    apply Rmax_lub; nra. }
  assert (/ INR k <= Rmax 1 (red * INR k) / INR k) as L1.
  { unfold Rdiv. rewrite <- (Rmult_1_l (/ INR k)) at 1. apply Rmult_le_compat_r; [apply Rlt_le, Rinv_0_lt_compat; lra|apply Rmax_l]. }
  assert (red <= Rmax 1 (red * INR k) / INR k) as L2.
  { apply Rmult_le_reg_r with (INR k); [assumption|]. unfold Rdiv. rewrite Rmult_assoc, Rinv_l, Rmult_1_r by lra. apply Rmax_r. }
  pose proof (pos_INR rows) as Pr.
  assert (batch_rows rows k red <= rows)%nat as G by (apply INR_le; nra).
  split; [assumption|]. split; [unfold long_rows; nia|]. split.
  - apply INR_lt. rewrite mult_INR, plus_INR. change (INR 1) with 1.
    assert (INR rows * / INR k < INR (batch_rows rows k red) + 1) as Q by nra.
    apply Rmult_lt_compat_r with (r := INR k) in Q; [|assumption]. rewrite Rmult_assoc, Rinv_l, Rmult_1_r in Q by lra. assumption.
  - nra.
Qed.
Lemma batch_all (rows k : nat) (red : R) : (0 < k)%nat -> (red = 1 \/ (k = 1%nat /\ red <= 1)) -> batch_rows rows k red = rows /\ long_rows rows k red = (rows * k)%nat.
Proof.
  intros K H. assert (batch_rows rows k red = rows) as E.
  { unfold batch_rows. apply floor_eq. assert (0 < INR k) as Kp by (apply lt_0_INR; assumption).
    assert (1 <= INR k) as K1 by (change 1 with (INR 1); apply le_INR; lia).
    replace (Rmax 1 (red * INR k) / INR k) with 1; [lra|]. destruct H as [->|[-> H]].
    - rewrite Rmult_1_l, Rmax_right by assumption. field. lra.
    - cbn [INR]. rewrite Rmult_1_r, Rmax_left by assumption. field. }
  unfold long_rows. rewrite E. split; reflexivity.
Qed.
Lemma sampled_spec (draw : nat -> nat) (rows k : nat) (red : R) (step : nat) : valid_draw draw rows ->
  length (sampled_rows draw rows k red step) = batch_rows rows k red /\
  forall r, In r (sampled_rows draw rows k red step) -> (r < rows)%nat.
Proof.
  intros D. unfold sampled_rows. rewrite map_length, seq_length. split; [reflexivity|]. intros r I. apply in_map_iff in I as (i & <- & _). apply D.
Qed.
Lemma sampled_blocks (draw : nat -> nat) (rows k : nat) (red : R) :
  flat_map (sampled_rows draw rows k red) (seq 0 k) = map draw (seq 0 (long_rows rows k red)).
Proof.
  unfold long_rows, sampled_rows. set (b := batch_rows rows k red). clearbody b.
  assert (forall n s, flat_map (fun step => map (fun i => draw (step * b + i)%nat) (seq 0 b)) (seq s n) = map draw (seq (s * b) (n * b))) as G.
  { induction n as [|n IH]; intros s; [reflexivity|]. cbn [seq flat_map]. rewrite IH.
    replace (S n * b)%nat with (b + n * b)%nat by lia. rewrite seq_app, map_app. f_equal.
    - transitivity (map draw (map (fun i => (s * b + i)%nat) (seq 0 b))); [rewrite map_map; reflexivity|]. f_equal.
      clear. generalize (s * b)%nat as o. intros o.
      assert (forall m z, map (fun i => (o + i)%nat) (seq z m) = seq (o + z) m) as Q.
      { induction m as [|m IH]; intros z; [reflexivity|]. cbn [seq map]. rewrite IH. f_equal. f_equal. lia. }
      rewrite Q. f_equal. lia.
    - f_equal. f_equal. lia. }
  rewrite (G k 0%nat). f_equal. f_equal; lia.
Qed.
Lemma batch_mono (rows k : nat) (red red' : R) : (0 < k)%nat -> red <= red' -> (batch_rows rows k red <= batch_rows rows k red')%nat.
Proof.
  intros K L. pose proof (floor_bounds _ (ratio_pos rows k red K)) as [B1 B2]. pose proof (floor_bounds _ (ratio_pos rows k red' K)) as [B1' B2'].
  fold (batch_rows rows k red) in B1, B2. fold (batch_rows rows k red') in B1', B2'.
  assert (0 < INR k) as Kp by (apply lt_0_INR; assumption).
  assert (Rmax 1 (red * INR k) / INR k <= Rmax 1 (red' * INR k) / INR k) as U.
  { apply Rmult_le_compat_r; [apply Rlt_le, Rinv_0_lt_compat; lra|]. apply Rle_max_compat_l. nra. }
  pose proof (pos_INR rows) as Pr. apply le_S_n. apply INR_lt. rewrite S_INR. nra.
Qed.
Lemma row_left_out (rows k : nat) : (1 < rows)%nat -> (0 < k)%nat -> exists draw row,
  valid_draw draw rows /\ (row < rows)%nat /\ ~ drawn draw rows k 1 row.
Proof.
  intros H K. exists (fun _ => 0%nat), 1%nat. split; [intros i; lia|]. split; [assumption|]. intros (s & _ & I).
  apply in_map_iff in I as (i & E & _). discriminate.
Qed.
Lemma no_rows (rows k : nat) (red : R) (draw : nat -> nat) : (rows < k)%nat -> red * INR k <= 1 ->
  long_rows rows k red = 0%nat /\ forall row, ~ drawn draw rows k red row.
Proof.
  intros L H. assert (batch_rows rows k red = 0%nat) as E.
  { unfold batch_rows. apply floor_eq. rewrite Rmax_left by assumption. assert (0 < INR k) as Kp by (apply lt_0_INR; lia).
    pose proof (pos_INR rows). cbn [INR]. split; [apply Rmult_le_pos; [lra|apply Rmult_le_pos; [lra|apply Rlt_le, Rinv_0_lt_compat; lra]]|].
    rewrite Rplus_0_l. apply Rmult_lt_reg_r with (INR k); [assumption|]. unfold Rdiv. rewrite Rmult_1_l, Rmult_assoc, Rinv_l by lra.
    rewrite Rmult_1_r, Rmult_1_l. apply lt_INR. assumption. }
  split; [unfold long_rows; rewrite E; reflexivity|]. intros row (s & _ & I). unfold sampled_rows in I. rewrite E in I. destruct I.
Qed.

(** ** Energy-aware forecasts *)
Lemma prefix_iff sub : forall c, prefix sub c = true <-> exists s, c = (sub ++ s)%string.
Proof.
  induction sub as [|a sub IH]; intros c; cbn.
  - destruct c; (split; [intros _; eauto|reflexivity]).
  - destruct c as [|b c]; [split; [discriminate|intros [s E]; discriminate]|]. cbn [prefix]. destruct (Ascii.ascii_dec a b) as [->|N].
    + rewrite IH. split; intros [s E]; exists s; congruence.
    + split; [discriminate|]. intros [s E]. congruence.
Qed.
Lemma contains_iff sub c : contains sub c = true <-> occurs sub c.
Proof.
  unfold occurs. induction c as [|a c IH]; cbn [contains]; rewrite orb_true_iff, prefix_iff.
  - split.
    + intros [[s E]|E]; [exists EmptyString, s; assumption|discriminate].
    + intros (p & s & E). left. exists s. destruct p; [assumption|discriminate].
  - rewrite IH. split.
    + intros [[s E]|(p & s & ->)]; [exists EmptyString, s; assumption|]. exists (String a p), s. reflexivity.
    + intros ([|b p] & s & E); [left; exists s; assumption|]. right. exists p, s. cbn in E. congruence.
Qed.
Lemma controlled_iff c : controlled c = true <-> control_column c.
Proof. unfold controlled, control_column. rewrite andb_true_iff, !contains_iff. reflexivity. Qed.
Lemma without_control_spec (x : inputs) : control_removed x (without_control x).
Proof.
  unfold control_removed, without_control. induction x as [|e x IH]; cbn; constructor; [|assumption].
  destruct (controlled (fst e)) eqn:E; cbn; (split; [reflexivity|]).
  - apply controlled_iff in E. split; [reflexivity|contradiction].
  - split; [|reflexivity]. intros C. apply controlled_iff in C. congruence.
Qed.
Lemma without_control_id (x : inputs) : no_control x -> without_control x = x.
Proof.
  unfold no_control, without_control. induction x as [|[c v] x IH]; intros H; [reflexivity|]. cbn. rewrite IH.
  - destruct (controlled c) eqn:E; [|reflexivity]. apply controlled_iff in E. rewrite (H c v); [reflexivity|left; reflexivity|assumption].
  - intros c' v' I. apply H. right. assumption.
Qed.
Lemma removed_unique (x x' : inputs) : control_removed x x' -> x' = without_control x.
Proof.
  unfold control_removed. induction 1 as [|e e' x x' (A & B & C) H IH]; [reflexivity|]. cbn. f_equal; [|assumption].
  destruct e as [c v], e' as [c' v']. cbn in *. subst c'. destruct (controlled c) eqn:E.
  - rewrite B by (apply controlled_iff; assumption). reflexivity.
  - rewrite C; [reflexivity|]. intros D. apply controlled_iff in D. congruence.
Qed.

Section E.
Context (model : nat -> inputs -> option R -> R).
Lemma sum_app (l : list R) a : fold_right Rplus 0 (l ++ [a]) = fold_right Rplus 0 l + a.
Proof. induction l as [|b l IH]; cbn; [lra|]. rewrite IH. lra. Qed.
Lemma steps_length xs : forall i us, length (fst (energy_steps model i us xs)) = length xs.
Proof.
  induction xs as [|x xs IH]; intros i us; [reflexivity|]. cbn.
  specialize (IH (S i) (us ++ [model i (without_control x) (feature i us) - model i x (feature i us)])).
  destruct (energy_steps model (S i) _ xs). cbn in *. congruence.
Qed.
Lemma steps_firstn n : forall xs i us, fst (energy_steps model i us (firstn n xs)) = firstn n (fst (energy_steps model i us xs)).
Proof.
  induction n as [|n IH]; intros xs i us; [reflexivity|]. destruct xs as [|x xs]; [reflexivity|]. cbn.
  specialize (IH xs (S i) (us ++ [model i (without_control x) (feature i us) - model i x (feature i us)])).
  destruct (energy_steps model (S i) _ (firstn n xs)), (energy_steps model (S i) _ xs). cbn in *. congruence.
Qed.
(** With the unbalances as a function of the step. *)
Lemma steps_unbalance xs : forall i us, exists u : nat -> R,
  forall j, (j < length xs)%nat ->
    let f := if (i + j =? 0)%nat then None else Some (fold_right Rplus 0 us + sum_to u j) in
    nth j (fst (energy_steps model i us xs)) 0 = model (i + j)%nat (nth j xs []) f /\
    u j = model (i + j)%nat (without_control (nth j xs [])) f - model (i + j)%nat (nth j xs []) f.
Proof.
  induction xs as [|x xs IH]; intros i us; [exists (fun _ => 0); intros j H; cbn in H; lia|].
  set (d := model i (without_control x) (feature i us) - model i x (feature i us)).
  destruct (IH (S i) (us ++ [d])) as [u H]. exists (fun j => match j with O => d | S j => u j end). intros j Hj.
  assert (forall n, sum_to (fun j => match j with O => d | S j => u j end) (S n) = d + sum_to u n) as Sm.
  { induction n as [|n IHn]; [cbn; lra|]. cbn [sum_to] in *. rewrite IHn. lra. }
  destruct j as [|j].
  - cbn [energy_steps]. fold d. rewrite Nat.add_0_r. cbn [sum_to nth]. destruct (energy_steps model (S i) (us ++ [d]) xs). cbn [fst nth].
    unfold d, feature. rewrite Rplus_0_r. destruct (i =? 0)%nat; split; reflexivity.
  - cbn in Hj. specialize (H j ltac:(lia)). cbn [energy_steps nth]. fold d. destruct (energy_steps model (S i) (us ++ [d]) xs). cbn [fst nth] in *.
    rewrite Sm. replace (i + S j)%nat with (S i + j)%nat by lia. rewrite sum_app, Rplus_assoc in H. exact H.
Qed.
End E.
Lemma energy_recursion (model : nat -> inputs -> option R -> R) (xs off : list inputs) :
  Forall2 control_removed xs off ->
  length (energy_predict model xs) = length xs /\
  exists unbalance feature, 
    (forall i, feature i = if (i =? 0)%nat then None else Some (sum_to unbalance i)) /\
    forall i, (i < length xs)%nat ->
      nth i (energy_predict model xs) 0 = model i (nth i xs []) (feature i) /\
      unbalance i = model i (nth i off []) (feature i) - nth i (energy_predict model xs) 0.
Proof.
  intros F. split; [apply steps_length|]. destruct (steps_unbalance model xs 0 []) as [u H].
  exists u, (fun i => if (i =? 0)%nat then None else Some (sum_to u i)). split; [reflexivity|]. intros i Hi. specialize (H i Hi). cbn [plus fold_right] in H.
  rewrite Rplus_0_l in H. destruct H as [H1 H2]. unfold energy_predict. rewrite H1. split; [reflexivity|]. rewrite H2. do 2 f_equal.
  symmetry. apply removed_unique. clear -F Hi. revert i Hi. induction F as [|x o xs os A F IH]; intros [|i] Hi; cbn in *; try lia; [assumption|]. apply IH. lia.
Qed.
Lemma energy_no_control (model : nat -> inputs -> option R -> R) (xs : list inputs) (i : nat) :
  Forall no_control xs -> (i < length xs)%nat ->
  nth i (energy_predict model xs) 0 = model i (nth i xs []) (if (i =? 0)%nat then None else Some 0).
Proof.
  intros F Hi. destruct (steps_unbalance model xs 0 []) as [u H].
  assert (forall n, (n <= length xs)%nat -> sum_to u n = 0) as Z.
  { induction n as [|n IH]; intros L; [reflexivity|]. cbn. rewrite IH by lia. destruct (H n ltac:(lia)) as [_ Hu]. rewrite Hu.
    rewrite without_control_id by (apply (proj1 (Forall_forall _ _) F); apply nth_In; lia). lra. }
  destruct (H i Hi) as [H1 _]. unfold energy_predict. rewrite H1. cbn [plus fold_right]. rewrite Z by lia. rewrite Rplus_0_r. reflexivity.
Qed.
Lemma energy_causal (model : nat -> inputs -> option R -> R) (xs xs' : list inputs) (n : nat) :
  firstn n xs = firstn n xs' -> firstn n (energy_predict model xs) = firstn n (energy_predict model xs').
Proof. intros E. unfold energy_predict. rewrite <- !steps_firstn, E. reflexivity. Qed.
Lemma energy_frame_steps (model : nat -> inputs -> option R -> R) (targets : nat) (xs : list inputs) :
  (length xs = targets -> energy_frame model targets xs = Some (energy_predict model xs)) /\
  (length xs <> targets -> energy_frame model targets xs = None).
Proof.
  unfold energy_frame. unfold energy_predict. rewrite steps_length. split; intros H.
  - rewrite H, Nat.eqb_refl. reflexivity.
  - destruct (Nat.eqb_spec (length xs) targets); [contradiction|reflexivity].
Qed.
