From Coq Require Import List ZArith Bool Arith Lia Reals Lra Sorted Permutation.
From Verif Require Import Model.Series Model.Subsample Model.Stats Model.Quantiles Model.Metrics Model.ScenGen
  Spec.StatsSpec Spec.MetricsSpec Spec.ScenGenSpec Proof.SeriesProof Proof.SubsampleProof Proof.StatsProof Proof.QuantilesProof
  Proof.MetricsProof Proof.ScenGenProof.
Import ListNotations.
Local Open Scope R_scope.

(** * Copula samples *)
Lemma copula_hour_ok cdf dim n_scen n_h draws : n_scen <> 1%nat -> (1 <= n_h)%nat -> (1 <= dim)%nat ->
  exists b, copula_hour cdf dim n_scen n_h draws = Some b /\ nd_shape b = [n_h; dim; n_scen] /\
    forall i j s, (i < n_h)%nat -> (j < dim)%nat -> (s < n_scen)%nat -> nd_at b [i; j; s] = cdf (draws [i; s; j]).
Proof.
  intros Hs Hn Hd. unfold copula_hour, squeeze, squeeze_shape, broadcasts, broadcast_index, map2. cbn.
  assert (E2 : (n_scen =? 1)%nat = false) by (apply Nat.eqb_neq; exact Hs).
  destruct (Nat.eqb_spec n_h 1) as [E|E], (Nat.eqb_spec dim 1) as [F|F]; subst;
    try (apply Nat.eqb_neq in E); try (apply Nat.eqb_neq in F); cbn; rewrite ?E2, ?E, ?F; cbn.
  all: rewrite ?E2, ?E, ?F, ?Nat.eqb_refl, ?orb_true_r; cbn; rewrite ?E2, ?E, ?F, ?Nat.eqb_refl, ?orb_true_r; cbn.
  all: eexists; (split; [reflexivity|]); (split; [reflexivity|]); intros i j s Hi Hj Hs2; cbn; rewrite ?E2, ?E, ?F, ?Nat.eqb_refl; cbn;
    rewrite ?E2, ?E, ?F, ?Nat.eqb_refl; cbn; repeat match goal with H : (?x < 1)%nat |- _ => assert (x = 0%nat) by lia; clear H end; subst; reflexivity.
Qed.
Lemma copula_hour_single cdf dim n_h draws : (1 <= n_h)%nat -> (1 <= dim)%nat -> copula_hour cdf dim 1 n_h draws = None.
Proof.
  intros Hn Hd. unfold copula_hour, squeeze, squeeze_shape, broadcasts. cbn.
  destruct (Nat.eqb_spec n_h 1) as [E|E], (Nat.eqb_spec dim 1) as [F|F]; subst;
    try (apply Nat.eqb_neq in E); try (apply Nat.eqb_neq in F); cbn; rewrite ?E, ?F; cbn; try reflexivity.
  all: rewrite ?E, ?F, ?orb_false_r, ?andb_false_r; try reflexivity.
Qed.

Lemma all_some_none {A B} (f : A -> option B) l a : In a l -> f a = None -> all_some (map f l) = None.
Proof. induction l as [|b l IH]; [contradiction|]. intros [->|H] E; cbn; [rewrite E; reflexivity|]. rewrite (IH H E). destruct (f b); reflexivity. Qed.
Lemma count_hour_pos hours h : In h hours -> (1 <= count_hour hours h)%nat.
Proof. intros H. unfold count_hour. assert (In h (filter (Z.eqb h) hours)) by (apply filter_In; split; [auto|apply Z.eqb_refl]). destruct (filter _ _); [contradiction|cbn; lia]. Qed.

Lemma rank_spec hours : numbers_rows hours (rank_in_hour hours).
Proof.
  intros i Hi. unfold rank_in_hour, rows_of_hour.
  assert (Hlt : forall a b, (a < b < length hours)%nat -> nth a hours 0%Z = nth b hours 0%Z ->
    (length (filter (Z.eqb (nth a hours 0%Z)) (firstn a hours)) < length (filter (Z.eqb (nth b hours 0%Z)) (firstn b hours)))%nat).
  { intros a b Hab E. rewrite <- E.
    replace (firstn b hours) with (firstn a hours ++ nth a hours 0%Z :: skipn (S a) (firstn b hours)).
    - rewrite filter_app, app_length. cbn [filter]. rewrite Z.eqb_refl. cbn [length]. lia.
    - rewrite <- (firstn_skipn a (firstn b hours)) at 2. f_equal; [rewrite firstn_firstn, Nat.min_l by lia; reflexivity|].
      rewrite <- (firstn_skipn 1 (skipn a (firstn b hours))).
      assert (Hsk : forall (l : list Z) n, (n < length l)%nat -> firstn 1 (skipn n l) = [nth n l 0%Z]).
      { induction l as [|x l IH]; intros n Hn; [cbn in Hn; lia|]. destruct n; [reflexivity|]. cbn in *. apply IH. lia. }
      rewrite Hsk by (rewrite firstn_length; lia). rewrite nth_firstn by lia. cbn [app]. f_equal.
      assert (Hsk2 : forall n m (l : list Z), skipn n (skipn m l) = skipn (n + m) l).
      { intros n m l. revert l. induction m as [|m IH]; intros l; [rewrite Nat.add_0_r; reflexivity|]. rewrite Nat.add_succ_r.
        destruct l; cbn; [rewrite !skipn_nil; reflexivity|]. apply IH. }
      rewrite Hsk2. reflexivity. }
  split.
  - replace (length (filter (Z.eqb (nth i hours 0%Z)) hours)) with (length (filter (Z.eqb (nth i hours 0%Z)) (firstn i hours ++ skipn i hours)))
      by (rewrite firstn_skipn; reflexivity). rewrite filter_app, app_length.
    assert (1 <= length (filter (Z.eqb (nth i hours 0%Z)) (skipn i hours)))%nat; [|lia].
    apply (count_hour_pos (skipn i hours)). replace (nth i hours 0%Z) with (nth 0 (skipn i hours) 0%Z) by (rewrite nth_skipn, Nat.add_0_r; reflexivity).
    apply nth_In. rewrite skipn_length. lia.
  - intros i' Hi' E Er. destruct (lt_eq_lt_dec i i') as [[H|H]|H]; [|exact H|].
    + specialize (Hlt i i' ltac:(lia) E). lia.
    + specialize (Hlt i' i ltac:(lia) (eq_sym E)). lia.
Qed.

Lemma existsb_in (l : list Z) h : existsb (Z.eqb h) l = true <-> In h l.
Proof. rewrite existsb_exists. split; [intros (x & H & E); apply Z.eqb_eq in E; congruence|]. intros H. exists h. rewrite Z.eqb_refl. auto. Qed.

Lemma copula_sample_correct cdf fitted dim n_scen hours draws :
  n_scen <> 1%nat -> (1 <= dim)%nat -> incl hours fitted ->
  exists a rank, copula_sample cdf fitted dim n_scen hours draws = Some a /\
    a_dim0 a = length hours /\ a_dim1 a = dim /\ a_dim2 a = n_scen /\ numbers_rows hours rank /\
    forall i j s, (i < length hours)%nat -> (j < dim)%nat -> (s < n_scen)%nat ->
      a_at a i j s = cdf (draws (nth i hours 0%Z) [rank i; s; j]).
Proof.
  intros Hs Hd Hf. unfold copula_sample.
  set (f := fun h => if existsb (Z.eqb h) fitted then option_map (pair h) (copula_hour cdf dim n_scen (count_hour hours h) (draws h)) else None).
  set (g := fun h => match copula_hour cdf dim n_scen (count_hour hours h) (draws h) with Some b => (h, b) | None => (h, ND [] (fun _ => 0)) end).
  assert (Hg : forall h, In h (unique_hours hours) -> f h = Some (g h)).
  { intros h Hh. apply (proj1 (unique_hours_in hours h)) in Hh. unfold f, g.
    rewrite (proj2 (existsb_in fitted h) (Hf h Hh)).
    destruct (copula_hour_ok cdf dim n_scen (count_hour hours h) (draws h) Hs (count_hour_pos hours h Hh) Hd) as (b & -> & _). reflexivity. }
  rewrite (all_some_map f g) by exact Hg.
  eexists. exists (rank_in_hour hours). split; [reflexivity|]. split; [reflexivity|]. split; [reflexivity|]. split; [reflexivity|].
  split; [apply rank_spec|]. intros i j s Hi Hj Hsc. cbn [a_at].
  set (h := nth i hours 0%Z). assert (Hh : In h hours) by (apply nth_In, Hi).
  assert (Hfind : forall us, In h us -> find (fun b : Z * ndarray R => (fst b =? h)%Z) (map g us) = Some (g h)).
  { induction us as [|u us IH]; [contradiction|]. intros Hin. cbn.
    assert (Eg : fst (g u) = u) by (unfold g; destruct (copula_hour _ _ _ _ _); reflexivity). rewrite Eg.
    destruct (Z.eqb_spec u h) as [->|]; [reflexivity|]. apply IH. destruct Hin; congruence. }
  rewrite Hfind by (apply unique_hours_in, Hh). unfold g.
  destruct (copula_hour_ok cdf dim n_scen (count_hour hours h) (draws h) Hs (count_hour_pos hours h Hh) Hd) as (b & Eb & _ & Hb). rewrite Eb. cbn [snd].
  apply Hb; auto. apply rank_spec, Hi.
Qed.
Lemma copula_single_scenario cdf fitted dim hours draws : (1 <= dim)%nat -> hours <> [] ->
  copula_sample cdf fitted dim 1 hours draws = None.
Proof.
  intros Hd Hh. unfold copula_sample. destruct hours as [|h hours]; [congruence|].
  rewrite (all_some_none _ _ h); [reflexivity|apply unique_hours_in; cbn; auto|].
  destruct (existsb _ _); [|reflexivity]. rewrite copula_hour_single; [reflexivity|apply count_hour_pos; cbn; auto|exact Hd].
Qed.
Lemma copula_unseen_hour cdf fitted dim n_scen hours draws h : In h hours -> ~ In h fitted ->
  copula_sample cdf fitted dim n_scen hours draws = None.
Proof.
  intros Hin Hno. unfold copula_sample. rewrite (all_some_none _ _ h); [reflexivity|apply unique_hours_in, Hin|].
  destruct (existsb (Z.eqb h) fitted) eqn:E; [|reflexivity]. apply existsb_in in E. contradiction.
Qed.

(** * Sampling *)
Lemma sampled_scenarios q_vect init nz rows steps n_scen quantiles samples i s :
  (i < rows)%nat -> (forall i j, (i < rows)%nat -> (j < steps)%nat -> quantile_curve q_vect (quantiles i j)) ->
  (forall j, (j < steps)%nat -> exists scen, sample_scenarios q_vect false init nz rows steps n_scen quantiles samples = Some (steps, scen) /\
     exists v, interp1d q_vect (quantiles i j) (a_at samples i j s) = Some v /\ scen i j s = Some (v + n_normal nz i j s / 10 ^ 9)) /\
  (forall obs, obs = match init with Some l => l | None => repeat 0 rows end -> length obs = rows ->
     exists scen, sample_scenarios q_vect true init nz rows steps n_scen quantiles samples = Some (S steps, scen) /\
     scen i 0%nat s = Some (nth i obs 0 + n_uniform nz i s / 10 ^ 6 + n_normal nz i 0%nat s / 10 ^ 9) /\
     forall j, (j < steps)%nat -> exists v, interp1d q_vect (quantiles i j) (a_at samples i j s) = Some v /\
       scen i (S j) s = Some (v + n_normal nz i (S j) s / 10 ^ 9)).
Proof.
  intros Hi HQ. split.
  - intros j Hj. eexists. split; [reflexivity|]. exists (curve q_vect (quantiles i j) (a_at samples i j s)).
    rewrite interp_curve by auto. split; [reflexivity|]. cbn [option_map]. f_equal. lra.
  - intros obs -> Ho. unfold sample_scenarios. rewrite Ho, Nat.eqb_refl. eexists. split; [reflexivity|]. cbn [option_map]. split; [f_equal; lra|].
    intros j Hj. exists (curve q_vect (quantiles i j) (a_at samples i j s)). rewrite interp_curve by auto. split; [reflexivity|].
    cbn [option_map]. f_equal. lra.
Qed.
Lemma sampled_wrong_init q_vect l nz rows steps n_scen quantiles samples : length l <> rows ->
  sample_scenarios q_vect true (Some l) nz rows steps n_scen quantiles samples = None.
Proof. intros H. unfold sample_scenarios. rewrite (proj2 (Nat.eqb_neq _ _) H). reflexivity. Qed.

(** With an additional node [predict_scenarios] fails for every horizon but one. *)
Lemma additional_node_raises q_vect init nz rows steps n_scen quantiles samples : (2 <= steps)%nat ->
  predict_scenarios q_vect true init nz rows steps n_scen quantiles samples = None.
Proof.
  intros H. unfold predict_scenarios, sample_scenarios, predict_scenarios_check. destruct (Nat.eqb_spec (length (match init with Some l => l | None => repeat 0 rows end)) rows); [|reflexivity].
  destruct (Nat.eqb_spec (S steps) steps), (Nat.eqb_spec (S steps) 1), (Nat.eqb_spec steps 1); try lia; reflexivity.
Qed.
Lemma predict_scenarios_plain q_vect init nz rows steps n_scen quantiles samples :
  predict_scenarios q_vect false init nz rows steps n_scen quantiles samples = sample_scenarios q_vect false init nz rows steps n_scen quantiles samples.
Proof. unfold predict_scenarios, sample_scenarios, predict_scenarios_check. rewrite Nat.eqb_refl. reflexivity. Qed.

(** * Frames of quantiles *)
Section Dstack.
Context {T L : Type} (eqd : forall a b : T, {a = b} + {a <> b}).
Lemma nodup_block x m rest : (0 < m)%nat -> ~ In x rest -> nodup eqd (repeat x m ++ rest) = x :: nodup eqd rest.
Proof.
  intros Hm Hx. induction m as [|m IH]; [lia|]. cbn [repeat app nodup]. destruct m as [|m].
  - cbn [repeat app]. destruct (in_dec eqd x rest); [contradiction|reflexivity].
  - destruct (in_dec eqd x (repeat x (S m) ++ rest)) as [|n]; [apply IH; lia|]. exfalso. apply n. cbn. auto.
Qed.
Lemma nodup_blocks m l : (0 < m)%nat -> NoDup l -> nodup eqd (flat_map (fun x => repeat x m) l) = l.
Proof.
  intros Hm Hn. induction Hn as [|x l Hx Hn IH]; [reflexivity|]. cbn. rewrite nodup_block; [congruence|exact Hm|].
  rewrite in_flat_map. intros (y & Hy & Hin). apply repeat_spec in Hin. congruence.
Qed.
Lemma prod_fst (a : list T) (b : list L) : map fst (list_prod a b) = flat_map (fun x => repeat x (length b)) a.
Proof.
  induction a as [|x a IH]; [reflexivity|]. cbn. rewrite map_app, IH, map_map. f_equal. cbn.
  clear. induction b; cbn; congruence.
Qed.
Lemma rev_flat_map_repeat m (l : list T) : rev (flat_map (fun x => repeat x m) l) = flat_map (fun x => repeat x m) (rev l).
Proof.
  induction l as [|x l IH]; [reflexivity|]. cbn. rewrite rev_app_distr, IH, flat_map_app. f_equal. cbn. rewrite app_nil_r.
  clear. induction m; cbn; [reflexivity|]. rewrite IHm. clear. induction m; cbn; congruence.
Qed.
Lemma first_labels_prod (a : list T) (b : list L) : NoDup a -> b <> [] -> first_labels eqd (list_prod a b) = a.
Proof.
  intros Ha Hb. unfold first_labels. rewrite prod_fst, rev_flat_map_repeat, nodup_blocks.
  - apply rev_involutive.
  - destruct b; [congruence|cbn; lia].
  - apply NoDup_rev, Ha.
Qed.
Lemma nth_prod_fst (a : list T) (b : list L) k j d : (k < length a)%nat -> (j < length b)%nat ->
  nth (k * length b + j) (map fst (list_prod a b)) d = nth k a d.
Proof.
  intros Hk Hj. rewrite prod_fst. revert k Hk. induction a as [|x a IH]; intros k Hk; [cbn in Hk; lia|]. cbn [flat_map].
  destruct k as [|k].
  - rewrite app_nth1 by (rewrite repeat_length; lia). cbn [Nat.mul Nat.add nth]. rewrite (nth_indep _ d x) by (rewrite repeat_length; exact Hj). apply nth_repeat.
  - rewrite app_nth2 by (rewrite repeat_length; cbn; lia). rewrite repeat_length. cbn [nth].
    replace (S k * length b + j - length b)%nat with (k * length b + j)%nat by (cbn; lia). apply IH. cbn in Hk. lia.
Qed.
Lemma sub_columns_prod (a : list T) (b : list L) k d : NoDup a -> (k < length a)%nat ->
  sub_columns eqd (list_prod a b) (nth k a d) = seq (k * length b) (length b).
Proof.
  intros Ha Hk. unfold sub_columns. rewrite prod_length. set (m := length b).
  assert (Htot : (length a * m = k * m + (m + (length a - k - 1) * m))%nat).
  { replace (length a) with (k + (1 + (length a - k - 1)))%nat at 1 by lia. rewrite !Nat.mul_add_distr_r. lia. }
  pose proof (Nat.le_0_l ((length a - k - 1) * m)) as Hpos.
  rewrite Htot, !seq_app, !filter_app.
  assert (Hlab : forall c, (c < length a * m)%nat -> exists k' j, c = (k' * m + j)%nat /\ (k' < length a)%nat /\ (j < m)%nat).
  { intros c Hc. exists (c / m)%nat, (c mod m)%nat. assert (m <> 0)%nat by nia. pose proof (Nat.div_mod c m H). pose proof (Nat.mod_upper_bound c m H).
    split; [lia|]. split; [|auto]. apply Nat.div_lt_upper_bound; nia. }
  assert (Hk' : forall c, (c < length a * m)%nat -> forall k', (k' * m <= c < k' * m + m)%nat -> nth c (map fst (list_prod a b)) (nth k a d) = nth k' a (nth k a d)).
  { intros c Hc k' Hb. replace c with (k' * m + (c - k' * m))%nat by lia. apply nth_prod_fst; [nia|unfold m in *; lia]. }
  rewrite (filter_none _ (seq 0 (k * m))), (filter_all _ (seq (0 + k * m) m)), (filter_none _ (seq (0 + k * m + m) _)).
  - rewrite app_nil_r. reflexivity.
  - intros c Hc. apply in_seq in Hc. destruct (Hlab c) as (k' & j & -> & K1 & K2); [lia|].
    rewrite (Hk' (k' * m + j)%nat ltac:(lia) k') by lia. destruct (eqd _ _) as [E|]; [|reflexivity]. exfalso.
    assert (E2 : nth k' a d = nth k a d) by (rewrite (nth_indep a d (nth k a d) K1); exact E).
    apply (proj1 (NoDup_nth a d) Ha) in E2; [|exact K1|exact Hk]. clear - Hc K2 E2. subst k'. lia.
  - intros c Hc. apply in_seq in Hc. rewrite (Hk' c ltac:(rewrite Htot; clear -Hc Hpos; lia) k) by lia. rewrite (nth_indep a (nth k a d) d) by exact Hk.
    destruct (eqd _ _); [reflexivity|congruence].
  - intros c Hc. apply in_seq in Hc. destruct (Hlab c) as (k' & j & -> & K1 & K2); [lia|].
    rewrite (Hk' (k' * m + j)%nat ltac:(lia) k') by lia. destruct (eqd _ _) as [E|]; [|reflexivity]. exfalso.
    assert (E2 : nth k' a d = nth k a d) by (rewrite (nth_indep a d (nth k a d) K1); exact E).
    apply (proj1 (NoDup_nth a d) Ha) in E2; [|exact K1|exact Hk]. clear - Hc K2 E2. subst k'. lia.
Qed.
End Dstack.

Lemma dstack_product (T L : Type) :
  forall (eqd : forall a b : T, {a = b} + {a <> b}) (outer : list T) (inner : list L) (blocks : list (list (list R))),
  NoDup outer -> outer <> [] -> inner <> [] ->
  Forall (fun row => length row = length outer /\ Forall (fun b => length b = length inner) row) blocks ->
  let a := dstack eqd (QFrame (list_prod outer inner) (map (@concat R) blocks)) in
  a_dim0 a = length blocks /\ a_dim1 a = length inner /\ a_dim2 a = length outer /\
  forall i j k, (i < length blocks)%nat -> (j < length inner)%nat -> (k < length outer)%nat ->
    a_at a i j k = nth j (nth k (nth i blocks []) []) 0.
Proof.
  intros eqd outer inner blocks Hn Ho Hi HB. cbv zeta. unfold dstack. cbn [qf_columns qf_rows a_dim0 a_dim1 a_dim2 a_at].
  rewrite first_labels_prod by auto.
  assert (Hb : forall k, (k < length outer)%nat -> nth k (map (sub_columns eqd (list_prod outer inner)) outer) [] = seq (k * length inner) (length inner)).
  { intros k Hk. destruct outer as [|t0 outer']; [congruence|]. set (outer := t0 :: outer') in *.
    rewrite (nth_indep _ [] (sub_columns eqd (list_prod outer inner) t0)) by (rewrite map_length; exact Hk). rewrite map_nth. apply sub_columns_prod; auto. }
  split; [apply map_length|]. split; [rewrite Hb by (destruct outer; [congruence|cbn; lia]); apply seq_length|]. split; [apply map_length|].
  intros i j k H1 H2 H3. rewrite Hb, seq_nth by auto.
  rewrite (nth_indep _ [] (concat [])) by (rewrite map_length; exact H1). rewrite map_nth.
  rewrite Forall_forall in HB. destruct (HB (nth i blocks []) (nth_In _ _ H1)) as [E1 E2].
  apply (concat_nth (nth i blocks []) (length inner) k j 0); auto. rewrite E1. exact H3.
Qed.

Lemma forecaster_frame (T : Type) :
  forall (eqd : forall a b : T, {a = b} + {a <> b}) (targets : list T) (levels : list R) (q : list (list (list R))),
  NoDup targets -> targets <> [] -> levels <> [] ->
  Forall (fun row => length row = length targets /\ Forall (fun b => length b = length levels) row) q ->
  (length targets <> length levels -> checked_quantiles eqd levels (quantiles_to_df targets levels q) = None) /\
  (length targets = length levels -> exists a, checked_quantiles eqd levels (quantiles_to_df targets levels q) = Some a /\
     forall i j k, (i < length q)%nat -> (j < length targets)%nat -> (k < length levels)%nat ->
       a_at a i j k = nth j (nth k (nth i q []) []) 0).
Proof.
  intros eqd targets levels q Hn Ht Hl HB. destruct (dstack_product T R eqd targets levels q Hn Ht Hl HB) as (D0 & D1 & D2 & D3).
  unfold checked_quantiles, quantiles_to_df in *. rewrite D2. split; intros E.
  - destruct (Nat.eqb_spec (length levels) (length targets)); [congruence|reflexivity].
  - rewrite E, Nat.eqb_refl. eexists. split; [reflexivity|]. intros i j k Hi Hj Hk. apply D3; auto; lia.
Qed.

(** * Trees *)
Lemma map2_map2 {A B} (f g : A -> B -> B) : forall la lb, map2 f la (map2 g la lb) = map2 (fun a b => f a (g a b)) la lb.
Proof. induction la as [|a la IH]; intros [|b lb]; [reflexivity| |reflexivity|]; [reflexivity|]. rewrite !map2_cons, IH. reflexivity. Qed.
Lemma map2_id_r {A B} : forall (la : list A) (lb : list B), length lb = length la -> map2 (fun _ b => b) la lb = lb.
Proof. induction la as [|a la IH]; intros [|b lb] H; try discriminate; [reflexivity|]. rewrite map2_cons, IH by (cbn in H; lia). reflexivity. Qed.
Lemma map2_ext {A B C} (f g : A -> B -> C) la lb : (forall a b, f a b = g a b) -> map2 f la lb = map2 g la lb.
Proof. intros H. unfold map2. apply map_ext. intros [a b]. apply H. Qed.
Lemma superimpose_loop x times : forall us vals, NoDup us -> length vals = length times ->
  fold_left (fun vals u => map2 (fun tm v => if (tm =? u)%nat then v + nth u x 0 else v) times vals) us vals =
  map2 (fun tm v => if in_dec Nat.eq_dec tm us then v + nth tm x 0 else v) times vals.
Proof.
  induction us as [|u us IH]; intros vals Hn Hl.
  - cbn [fold_left]. rewrite (map2_ext _ (fun _ b => b)) by reflexivity. rewrite map2_id_r by exact Hl. reflexivity.
  - inversion Hn; subst. cbn [fold_left]. rewrite IH; [|assumption|rewrite map2_length; auto]. rewrite map2_map2. apply map2_ext.
    intros tm v. destruct (Nat.eqb_spec tm u) as [->|Hne].
    + destruct (in_dec Nat.eq_dec u us); [contradiction|]. destruct (in_dec Nat.eq_dec u (u :: us)) as [|n0]; [reflexivity|]. exfalso. apply n0. cbn. auto.
    + destruct (in_dec Nat.eq_dec tm us) as [|n0], (in_dec Nat.eq_dec tm (u :: us)) as [|n1]; try reflexivity.
      * exfalso. apply n1. cbn. auto.
      * exfalso. destruct i as [|]; [congruence|contradiction].
Qed.
Lemma uniq_sorted_in l a : In a (uniq_sorted l) <-> In a l.
Proof.
  unfold uniq_sorted. rewrite <- (nodup_In Nat.eq_dec l a). split; apply Permutation_in; [|apply Permutation_sym]; apply sort_by_perm.
Qed.
Lemma uniq_sorted_nodup l : NoDup (uniq_sorted l).
Proof. unfold uniq_sorted. eapply Permutation_NoDup; [apply Permutation_sym, sort_by_perm|]. apply NoDup_nodup. Qed.
Lemma superimpose_nodes x t : tr_nodes (superimpose x t) = map (fun n => Node (nd_time n) (nd_prob n) (nd_value n + nth (nd_time n) x 0)) (tr_nodes t).
Proof.
  unfold superimpose. cbn [tr_nodes]. unfold unique_times. rewrite superimpose_loop by (rewrite ?map_length; auto using uniq_sorted_nodup).
  set (us := uniq_sorted (map nd_time (tr_nodes t))).
  assert (H : forall n, In n (tr_nodes t) -> In (nd_time n) us) by (intros; apply uniq_sorted_in, in_map; assumption).
  clearbody us. revert H. generalize (tr_nodes t). induction l as [|n l IH]; intros H; [reflexivity|]. cbn [map]. rewrite !map2_cons. f_equal.
  - destruct (in_dec Nat.eq_dec (nd_time n) us) as [|n0]; [reflexivity|]. exfalso. apply n0, H. cbn. auto.
  - apply IH. intros; apply H; cbn; auto.
Qed.
Lemma superimpose_shifts x t : shifted x t (superimpose x t).
Proof.
  split; [reflexivity|]. rewrite superimpose_nodes. split; [apply map_length|]. intros i n n' E E'.
  rewrite nth_error_map, E in E'. cbn in E'. injection E' as <-. auto.
Qed.

Lemma put_last (h : heap) t t' : put (h ++ [t]) (length h) t' = h ++ [t'].
Proof.
  unfold put. rewrite firstn_app, Nat.sub_diag, firstn_all. cbn [firstn]. rewrite app_nil_r. f_equal. f_equal.
  rewrite skipn_all2; [reflexivity|]. rewrite app_length. cbn. lia.
Qed.
Lemma known_app h h2 stored hour t : stored_tree h stored hour t -> stored_tree (h ++ h2) stored hour t.
Proof. intros (a & F & N). exists a. split; [exact F|]. rewrite nth_error_app1; [exact N|]. apply nth_error_Some. congruence. Qed.
Lemma trees_gen_ok stored : forall rows h, (forall hr x, In (hr, x) rows -> exists t, stored_tree h stored hr t) ->
  exists new, trees_gen h stored rows = Some (h ++ new, seq (length h) (length rows)) /\ length new = length rows /\
    forall k hr x, nth_error rows k = Some (hr, x) -> exists t t', stored_tree h stored hr t /\ nth_error new k = Some t' /\ shifted x t t'.
Proof.
  induction rows as [|[hr x] rows IH]; intros h H.
  - exists []. cbn. rewrite app_nil_r. split; [reflexivity|]. split; [reflexivity|]. intros k hr x E. destruct k; discriminate.
  - destruct (H hr x (or_introl eq_refl)) as (t & a & F & N). cbn [trees_gen]. unfold tree_gen. rewrite F, N. cbv zeta. rewrite put_last.
    destruct (IH (h ++ [superimpose x t])) as (new & E & Hl & Hr).
    { intros hr' x' Hin. destruct (H hr' x' (or_intror Hin)) as (t' & K). exists t'. apply known_app, K. }
    rewrite E. exists (superimpose x t :: new). cbn [option_map fst snd length seq]. split; [|split].
    + rewrite <- app_assoc. rewrite app_length. cbn [app length]. rewrite Nat.add_1_r. reflexivity.
    + rewrite Hl. reflexivity.
    + intros [|k] hr' x' Ek; cbn in Ek.
      * injection Ek as <- <-. exists t, (superimpose x t). split; [exists a; auto|]. split; [reflexivity|apply superimpose_shifts].
      * destruct (Hr k hr' x' Ek) as (t1 & t' & K & En & Sh). destruct (H hr' x') as (t0 & K0); [right; eapply nth_error_In, Ek|].
        assert (t1 = t0).
        { destruct K as (a1 & F1 & N1), K0 as (a0 & F0 & N0). rewrite F0 in F1. injection F1 as <-.
          rewrite nth_error_app1 in N1 by (apply nth_error_Some; congruence). congruence. }
        subst t1. exists t0, t'. auto.
Qed.

Lemma with_root_rows init rows : match init with Some l => length l = length rows | None => True end ->
  exists rows', with_root init rows = Some rows' /\ length rows' = length rows /\
    forall k, nth_error rows' k = option_map (fun p => (fst p, tree_signal true init k (snd p))) (nth_error rows k).
Proof.
  intros H. unfold with_root, tree_signal. destruct init as [l|].
  - rewrite H, Nat.eqb_refl. eexists. split; [reflexivity|]. split; [rewrite map2_length; auto|].
    revert rows H. induction l as [|o l IH]; intros [|p rows] H k; try discriminate; [destruct k; reflexivity|].
    rewrite map2_cons. destruct k; [reflexivity|]. cbn. apply IH. cbn in H. lia.
  - eexists. split; [reflexivity|]. split; [apply map_length|]. intros k. rewrite nth_error_map. reflexivity.
Qed.
Lemma predict_trees_correct h stored additional init rows :
  stored <> [] -> (additional = true -> match init with Some l => length l = length rows | None => True end) ->
  (forall hr x, In (hr, x) rows -> exists t, stored_tree h stored hr t) ->
  exists h' out, predict_trees h stored additional init rows = Some (h', out) /\
    firstn (length h) h' = h /\ length out = length rows /\ NoDup out /\ Forall (fun b => length h <= b)%nat out /\
    forall k hr x, nth_error rows k = Some (hr, x) ->
      exists t t', stored_tree h stored hr t /\ nth_error h' (nth k out 0%nat) = Some t' /\ shifted (tree_signal additional init k x) t t'.
Proof.
  intros Hst Hi Hr. unfold predict_trees. destruct stored as [|p0 stored0]; [congruence|]. set (stored := p0 :: stored0) in *.
  assert (Hrows : exists rows', (if additional then with_root init rows else Some rows) = Some rows' /\ length rows' = length rows /\
    forall k, nth_error rows' k = option_map (fun p => (fst p, tree_signal additional init k (snd p))) (nth_error rows k)).
  { destruct additional; [apply with_root_rows, Hi; reflexivity|]. exists rows. split; [reflexivity|]. split; [reflexivity|]. intros k.
    destruct (nth_error rows k) as [[]|]; reflexivity. }
  destruct Hrows as (rows' & -> & Hl & Hn). clear Hi.
  destruct (trees_gen_ok stored rows' h) as (new & -> & Hln & Hnew).
  { intros hr x Hin. destruct (In_nth_error _ _ Hin) as [k Ek]. rewrite Hn in Ek. destruct (nth_error rows k) as [[hr0 x0]|] eqn:E0; [|discriminate].
    cbn in Ek. injection Ek as <- _. apply (Hr hr0 x0). eapply nth_error_In, E0. }
  exists (h ++ new), (seq (length h) (length rows')). split; [reflexivity|]. split.
  { rewrite firstn_app, Nat.sub_diag, firstn_all. apply app_nil_r. }
  split; [rewrite seq_length; exact Hl|]. split; [apply seq_NoDup|]. split.
  { apply Forall_forall. intros b Hb. apply in_seq in Hb. lia. }
  intros k hr x Ek. destruct (Hnew k hr (tree_signal additional init k x)) as (t & t' & K & N & Sh); [rewrite Hn, Ek; reflexivity|].
  exists t, t'. split; [exact K|]. split; [|exact Sh].
  assert (k < length rows')%nat by (rewrite Hl; apply nth_error_Some; congruence).
  rewrite seq_nth by assumption. rewrite nth_error_app2 by lia. replace (length h + k - length h)%nat with k by lia. exact N.
Qed.
Lemma predict_trees_unseen h stored additional init rows hr x :
  In (hr, x) rows -> (forall a, ~ In (hr, a) stored) -> predict_trees h stored additional init rows = None.
Proof.
  intros Hin Hno. unfold predict_trees. destruct stored as [|p0 stored0]; [reflexivity|]. set (stored := p0 :: stored0) in *.
  assert (Hg : forall rows h0 y, In (hr, y) rows -> trees_gen h0 stored rows = None).
  { clear rows Hin. induction rows as [|[hr' y'] rows IH]; intros h0 y Hy; [contradiction|]. cbn [trees_gen]. destruct Hy as [Hy|Hy].
    - injection Hy as -> ->. unfold tree_gen. destruct (find _ stored) as [[h2 a]|] eqn:F; [|reflexivity].
      apply find_some in F. destruct F as [F1 F2]. cbn in F2. apply Z.eqb_eq in F2. subst. exfalso. eapply Hno, F1.
    - destruct (tree_gen _ _ _ _) as [[h1 a]|]; [|reflexivity]. rewrite (IH _ y Hy). reflexivity. }
  destruct additional; [|eapply Hg, Hin]. unfold with_root. destruct init as [l|].
  - destruct (Nat.eqb_spec (length l) (length rows)) as [E|]; [|reflexivity].
    assert (exists y, In (hr, y) (map2 (fun o p => (fst p, o :: snd p)) l rows)) as [y Hy]; [|eapply Hg, Hy].
    revert l E. clear Hg. induction rows as [|p rows IH]; intros [|o l] E; try contradiction; try discriminate. rewrite map2_cons. destruct Hin as [->|Hin].
    + eexists. left. reflexivity.
    + destruct (IH Hin l) as [y Hy]; [cbn in E; lia|]. exists y. right. exact Hy.
  - eapply Hg. apply in_map_iff. exists (hr, x). split; [reflexivity|exact Hin].
Qed.

(** An hour-by-hour sum of node probabilities and the topology are unchanged too. *)
Lemma shifted_probability x t t' : shifted x t t' -> map nd_prob (tr_nodes t') = map nd_prob (tr_nodes t).
Proof.
  intros (_ & Hl & H). revert Hl H. generalize (tr_nodes t') (tr_nodes t). induction l as [|n' l IH]; intros [|n l0] Hl H; try discriminate; [reflexivity|].
  cbn [map]. f_equal.
  - apply (H 0%nat n n' eq_refl eq_refl).
  - apply IH; [cbn in Hl; lia|]. intros i. apply (H (S i)).
Qed.
