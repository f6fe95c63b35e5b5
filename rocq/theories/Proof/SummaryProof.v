From Coq Require Import List ZArith Bool Arith Reals Lia Lra Sorted Permutation.
From Verif Require Import Model.Series Model.Subsample Model.Stats Model.Quantiles Model.Metrics Model.Summary
  Spec.StatsSpec Spec.MetricsSpec Spec.SummarySpec Proof.SeriesProof Proof.StatsProof Proof.MetricsProof Proof.OptimizeProof Proof.FormatterProof2.
Import ListNotations.
Local Open Scope R_scope.

Lemma all_some_total {A B} (f : A -> option B) (g : A -> B) l : (forall a, In a l -> f a = Some (g a)) -> all_some (map f l) = Some (map g l).
Proof.
  induction l as [|a l IH]; intros H; [reflexivity|]. cbn [map all_some]. rewrite (H a) by now left.
  rewrite IH by (intros; apply H; now right). reflexivity.
Qed.

Lemma masked_grouped ax labels m f : grouped ax labels f -> grouped ax labels (masked m f).
Proof. destruct m; [|auto]. unfold grouped. destruct ax; auto. Qed.

Lemma masked_pairs m x t cells : pairs (masked (Some m) x) (masked (Some m) t) cells = pairs x t (kept m cells).
Proof.
  unfold pairs, kept. induction cells as [|c cells IH]; [reflexivity|]. cbn [flat_map filter].
  rewrite IH. unfold observed_pair at 1. cbn [masked f_at]. destruct (m (fst c) (snd c)); [|reflexivity]. reflexivity.
Qed.

Lemma groupings_integers nq ls : groupings nq (map integers ls) = Some ls.
Proof.
  unfold groupings. assert (existsb is_floats (map integers ls) = false) as -> by (induction ls; auto).
  f_equal. rewrite map_map. cbn. apply map_id.
Qed.

Lemma existing {A B} (P : A -> B -> Prop) l : (forall a, In a l -> exists b, P a b) -> exists bs, Forall2 P l bs.
Proof.
  induction l as [|a l IH]; intros H; [exists []; constructor|].
  destruct (H a ltac:(now left)) as (b & Hb). destruct IH as (bs & Hbs); [intros; apply H; now right|]. exists (b :: bs). now constructor.
Qed.
Lemma all_some_forall2 {A B} (f : A -> option B) l bs : Forall2 (fun a b => f a = Some b) l bs -> all_some (map f l) = Some bs.
Proof. induction 1 as [|a b l bs H _ IH]; [reflexivity|]. cbn [map all_some]. now rewrite H, IH. Qed.
Lemma forall2_and {A B} (P Q : A -> B -> Prop) l bs : Forall2 (fun a b => P a b /\ Q a b) l bs -> Forall2 P l bs /\ Forall2 Q l bs.
Proof. induction 1 as [|a b l bs [H H'] _ [IH IH']]; split; constructor; auto. Qed.

Lemma summary_rmse (ax : axis) (x t : frame) (mask : nat -> nat -> bool) (nq : nat) (groups : list (list Z)) :
  Forall (fun labels => grouped ax labels x) groups ->
  exists tables, summary_scores rmse x t (Some mask) nq (map integers groups) = Some tables /\
    Forall2 (fun labels tbl => listed labels (map fst tbl) /\
      forall g k, In g labels -> (k < other_size ax x)%nat ->
        root_mean_square (pairs x t (kept mask (group_cells ax labels g k))) (entry tbl g k)) groups tables.
Proof.
  intros H. rewrite Forall_forall in H. unfold summary_scores. rewrite groupings_integers.
  destruct (existing (fun labels tbl => rmse (masked (Some mask) x) (masked (Some mask) t) (Some labels) = Some tbl /\
      listed labels (map fst tbl) /\
      forall g k, In g labels -> (k < other_size ax x)%nat ->
        root_mean_square (pairs x t (kept mask (group_cells ax labels g k))) (entry tbl g k)) groups) as (tables & Ht).
  - intros labels Hl. destruct (rmse_correct ax (masked (Some mask) x) (masked (Some mask) t) labels) as (tbl & E & Hs & Hv).
    { now apply masked_grouped, H. }
    exists tbl. split; [exact E|]. split; [exact Hs|]. intros g k Hg Hk. rewrite <- masked_pairs. apply Hv; [exact Hg|].
    destruct ax; exact Hk.
  - exists tables. apply forall2_and in Ht as [H1 H2]. split; [now apply all_some_forall2|exact H2].
Qed.

Lemma summary_mape (ax : axis) (x t : frame) (mask : nat -> nat -> bool) (nq : nat) (groups : list (list Z)) :
  Forall (fun labels => grouped ax labels x) groups ->
  exists tables, summary_scores mape x t (Some mask) nq (map integers groups) = Some tables /\
    Forall2 (fun labels tbl => listed labels (map fst tbl) /\
      forall g k, In g labels -> (k < other_size ax x)%nat ->
        mean_of percentage_error (pairs x t (kept mask (group_cells ax labels g k))) (entry tbl g k)) groups tables.
Proof.
  intros H. rewrite Forall_forall in H. unfold summary_scores. rewrite groupings_integers.
  destruct (existing (fun labels tbl => mape (masked (Some mask) x) (masked (Some mask) t) (Some labels) = Some tbl /\
      listed labels (map fst tbl) /\
      forall g k, In g labels -> (k < other_size ax x)%nat ->
        mean_of percentage_error (pairs x t (kept mask (group_cells ax labels g k))) (entry tbl g k)) groups) as (tables & Ht).
  - intros labels Hl. destruct (mape_correct ax (masked (Some mask) x) (masked (Some mask) t) labels) as (tbl & E & Hs & Hv).
    { now apply masked_grouped, H. }
    exists tbl. split; [exact E|]. split; [exact Hs|]. intros g k Hg Hk. rewrite <- masked_pairs. apply Hv; [exact Hg|].
    destruct ax; exact Hk.
  - exists tables. apply forall2_and in Ht as [H1 H2]. split; [now apply all_some_forall2|exact H2].
Qed.

(** * Independence from the masked cells *)
Definition same_frame (f f' : frame) : Prop :=
  f_rows f = f_rows f' /\ f_cols f = f_cols f' /\ forall i j, f_at f i j = f_at f' i j.
Lemma same_group_mean agg f f' : same_frame f f' -> group_mean agg f = group_mean agg f'.
Proof.
  intros (_ & Hc & H). unfold group_mean. rewrite Hc. apply map_ext. intros g. f_equal. apply map_ext. intros j.
  f_equal. apply map_ext. intros i. apply H.
Qed.
Lemma same_aggregate n agg f f' : same_frame f f' -> aggregate n agg f = aggregate n agg f'.
Proof.
  intros S. unfold aggregate. rewrite (same_group_mean _ _ _ S). destruct S as (Hr & Hc & H). rewrite Hc.
  rewrite (same_group_mean agg (transpose f) (transpose f')); [reflexivity|]. split; [exact Hc|split; [exact Hr|]]. intros i j. apply H.
Qed.
Lemma same_row_level f f' i : same_frame f f' -> row_level f i = row_level f' i.
Proof. intros (Hr & Hc & H). unfold row_level. rewrite Hc. f_equal. apply map_ext. intros j. now rewrite H. Qed.
Lemma same_offset f f' inter : same_frame f f' -> nmae_offset f inter = nmae_offset f' inter.
Proof.
  intros S. unfold nmae_offset. destruct inter; [|reflexivity].
  assert (map (row_level f) (seq 0 (f_rows f)) = map (row_level f') (seq 0 (f_rows f'))) as ->; [|reflexivity].
  pose proof S as (Hr & _). rewrite Hr. apply map_ext. intros i. now apply same_row_level.
Qed.
Lemma score_same metric x x' t t' agg : point_score metric -> same_frame x x' -> same_frame t t' -> metric x t agg = metric x' t' agg.
Proof.
  intros M Sx St. pose proof Sx as (Hr & Hc & Hx). pose proof St as (_ & _ & Ht). destruct M.
  - unfold rmse. rewrite Hr. f_equal. apply same_aggregate. split; [exact Hr|split; [exact Hc|]]. intros i j. unfold squerr, err. cbn. now rewrite Hx, Ht.
  - unfold mape. rewrite Hr. apply same_aggregate. split; [auto|split; [auto|]]. intros i j. unfold err. cbn [f_at]. now rewrite Hx, Ht.
  - unfold nmae. rewrite Hr. apply same_aggregate. split; [auto|split; [auto|]]. intros i j. unfold err. cbn [f_at].
    now rewrite Hx, Ht, (same_row_level _ _ i St), (same_offset _ _ _ St).
Qed.
Lemma masked_same m x x' : same_where m x x' -> same_frame (masked (Some m) x) (masked (Some m) x').
Proof. intros (Hr & Hc & H). split; [exact Hr|split; [exact Hc|]]. intros i j. cbn. destruct (m i j) eqn:E; auto. Qed.

Lemma summary_independent metric (x x' t t' : frame) (mask : nat -> nat -> bool) (nq : nat) (cols : list column) :
  point_score metric -> same_where mask x x' -> same_where mask t t' ->
  summary_scores metric x t (Some mask) nq cols = summary_scores metric x' t' (Some mask) nq cols.
Proof.
  intros M Hx Ht. unfold summary_scores. destruct (groupings nq cols) as [gs|]; [|reflexivity]. f_equal. apply map_ext. intros g.
  apply score_same; [exact M|now apply masked_same|now apply masked_same].
Qed.

Lemma quantiles_unmaskable (metric : cube -> frame -> option (list Z) -> option table) (q : cube) (t : frame)
  (mask : nat -> nat -> bool) (nq : nat) (cols : list column) :
  c_dim0 q = f_rows t -> c_dim1 q = f_cols t -> ~ (f_rows t = f_cols t /\ c_dim2 q = f_cols t) ->
  summary_scores3 metric q t (Some mask) nq cols = None.
Proof.
  intros H0 H1 H. unfold summary_scores3, masked3.
  destruct ((c_dim1 q =? f_rows t)%nat && (c_dim2 q =? f_cols t)%nat) eqn:E; [|reflexivity].
  apply andb_true_iff in E as [E1 E2]. apply Nat.eqb_eq in E1, E2. exfalso. apply H. lia.
Qed.

(** * Groups of a continuous variable *)
Lemma strict_sorted l : NoDup l -> StronglySorted Rle l -> StronglySorted Rlt l.
Proof.
  intros Hn Hs. induction Hs as [|a l Hs IH Hf]; [constructor|]. inversion Hn; subst. constructor; [auto|].
  rewrite Forall_forall in *. intros b Hb. specialize (Hf b Hb). destruct Hf as [Hf|Hf]; [exact Hf|]. subst b. contradiction.
Qed.
Lemma strict_nth l : StronglySorted Rlt l -> forall i j, (i < j < length l)%nat -> nth i l 0 < nth j l 0.
Proof.
  induction 1 as [|a l Hs IH Hf]; intros i j Hij; [cbn in Hij; lia|]. destruct j as [|j]; [lia|]. destruct i as [|i]; cbn in *.
  - rewrite Forall_forall in Hf. apply Hf, nth_In. lia.
  - apply IH. lia.
Qed.
Lemma filter_suffix p (l : list R) n : (forall i, (i < length l)%nat -> p (nth i l 0) = (i <? n)%nat) -> (n <= length l)%nat -> length (filter p l) = n.
Proof.
  revert n. induction l as [|a l IH]; intros n H Hn; [cbn in *; lia|]. cbn.
  pose proof (H 0%nat ltac:(cbn; lia)) as H0. cbn in H0. rewrite H0. destruct n as [|n].
  - cbn. rewrite (IH 0%nat); [reflexivity| |lia]. intros i Hi. apply (H (S i)). cbn. lia.
  - cbn. f_equal. apply IH; [|cbn in Hn; lia]. intros i Hi. apply (H (S i)). cbn. lia.
Qed.

(** In a sample without ties exactly floor(q(n-1)) + 1 values are at most the quantile. *)
Lemma quantile_count l q : NoDup l -> l <> [] -> 0 <= q <= 1 ->
  let c := count (fun x => Rleb x (quantile l q)) l in INR c - 1 <= q * INR (length l - 1) < INR c.
Proof.
  intros Hd Hl Hq c. unfold c, count. rewrite <- (filter_length_perm _ _ _ (rsort_perm l)).
  assert (Hn : (0 < length l)%nat) by (destruct l; [congruence|cbn; lia]).
  rewrite quantile_at_index. set (v := q * INR (length l - 1)).
  pose proof (level_index q (length l - 1) Hq) as Hv. fold v in Hv.
  pose proof (rsort_sorted l) as Hs. pose proof (rsort_length l) as Hr.
  assert (Hds : NoDup (rsort l)) by (apply (Permutation_NoDup (Permutation_sym (rsort_perm l)) Hd)).
  pose proof (strict_sorted _ Hds Hs) as Hst. set (s := rsort l) in *.
  destruct (index_cell v (length l - 1) Hv) as (i & t & Ev & Ht & Hi).
  assert (Hil : (i < length l)%nat) by (destruct Hi as [[Hi _]|[-> _]]; lia).
  assert (Hlo : nth i s 0 <= at_index s v).
  { destruct Hi as [[Hi Ht1]|[-> ->]].
    - rewrite Ev. apply at_index_between; [exact Hs|lra|lia].
    - rewrite Ev, Rplus_0_r, at_index_int by lia. lra. }
  assert (Hhi : forall j, (i < j < length l)%nat -> at_index s v < nth j s 0).
  { intros j Hj. destruct Hi as [[Hi Ht1]|[-> ->]]; [|lia].
    assert (Hup : at_index s v < nth (S i) s 0).
    { rewrite Ev. rewrite at_index_cell by (lia || lra).
      pose proof (strict_nth s Hst i (S i) ltac:(lia)). nra. }
    destruct (Nat.eq_dec j (S i)) as [->|Hne]; [exact Hup|]. apply Rlt_trans with (nth (S i) s 0); [exact Hup|]. apply strict_nth; [exact Hst|lia]. }
  assert (E : length (filter (fun x => Rleb x (at_index s v)) s) = S i).
  { apply filter_suffix; [|lia]. intros j Hj. destruct (Nat.ltb_spec j (S i)) as [H|H].
    - apply Rleb_spec. apply Rle_trans with (nth i s 0); [|exact Hlo]. apply sorted_nth_le; [exact Hs|lia].
    - apply not_true_is_false. rewrite Rleb_spec. specialize (Hhi j ltac:(lia)). lra. }
  rewrite E, S_INR, Ev. destruct Hi as [[_ Ht1]|[_ ->]]; lra.
Qed.

Lemma count_below l v j : StronglySorted Rle l -> (j < length l)%nat -> ((count (fun e => Rltb e v) l <= j)%nat <-> v <= nth j l 0).
Proof.
  intros Hs. revert j. unfold count. induction Hs as [|a l Hs IH Hf]; intros j Hj; [cbn in Hj; lia|]. cbn [filter].
  unfold Rltb at 1. destruct (Rlt_dec a v) as [H|H].
  - cbn [length]. destruct j as [|j]; cbn [nth]; [split; intros B; [lia|exfalso; lra]|]. rewrite <- IH by (cbn in Hj; lia). lia.
  - assert (filter (fun e => Rltb e v) l = []) as ->.
    { rewrite Forall_forall in Hf. clear -Hf H. induction l as [|b l IH]; [reflexivity|]. cbn. unfold Rltb at 1.
      destruct (Rlt_dec b v); [pose proof (Hf b ltac:(now left)); lra|]. apply IH. intros c Hc. apply Hf. now right. }
    cbn [length]. split; [intros _|lia]. destruct j as [|j]; cbn [nth]; [lra|].
    assert (Hj2 : (j < length l)%nat) by (cbn in Hj; lia). rewrite Forall_forall in Hf. specialize (Hf (nth j l 0) (nth_In l 0 Hj2)). lra.
Qed.

Lemma sorted_map_seq (f : nat -> R) n : forall m, (forall i j, (m <= i <= j)%nat -> (j < m + n)%nat -> f i <= f j) -> StronglySorted Rle (map f (seq m n)).
Proof.
  induction n as [|n IH]; intros m H; [constructor|]. cbn. constructor.
  - apply IH. intros i j H1 H2. apply H; lia.
  - apply Forall_forall. intros x Hx. apply in_map_iff in Hx as (j & <- & Hj). apply in_seq in Hj. apply H; lia.
Qed.

Lemma level_range k nq : (0 < nq)%nat -> (k <= nq)%nat -> 0 <= INR k / INR nq <= 1.
Proof.
  intros Hn Hk. assert (0 < INR nq) by now apply lt_0_INR. pose proof (pos_INR k). apply le_INR in Hk. split.
  - apply Rmult_le_pos; [lra|]. left. now apply Rinv_0_lt_compat.
  - apply (Rmult_le_reg_r (INR nq)); [lra|]. unfold Rdiv. rewrite Rmult_assoc, Rinv_l by lra. lra.
Qed.

Lemma edges_sorted nq l : (0 < nq)%nat -> l <> [] -> StronglySorted Rle (edges nq l).
Proof.
  intros Hn Hl. unfold edges. apply sorted_map_seq. intros i j H1 H2.
  pose proof (level_range i nq Hn ltac:(lia)). pose proof (level_range j nq Hn ltac:(lia)). apply quantile_monotone; [exact Hl|lra| |lra].
  apply Rmult_le_compat_r; [left; apply Rinv_0_lt_compat; now apply lt_0_INR|]. apply le_INR. lia.
Qed.

Lemma bin_at_most nq l v j : (0 < nq)%nat -> l <> [] -> (1 <= j <= nq)%nat ->
  ((bin nq l v <= Z.of_nat j)%Z <-> v <= quantile l (INR j / INR nq)).
Proof.
  intros Hn Hl Hj. unfold bin.
  assert (E : nth j (edges nq l) 0 = quantile l (INR j / INR nq)) by (unfold edges; now rewrite nth_map_seq by lia).
  rewrite <- E, <- (count_below (edges nq l) v j).
  - lia.
  - now apply edges_sorted.
  - unfold edges. rewrite map_length, seq_length. lia.
Qed.

Lemma bin_monotone nq l v w : v <= w -> (bin nq l v <= bin nq l w)%Z.
Proof.
  intros H. unfold bin. assert (count (fun e => Rltb e v) (edges nq l) <= count (fun e => Rltb e w) (edges nq l))%nat; [|lia].
  unfold count. induction (edges nq l) as [|e es IH]; [cbn; lia|]. cbn [filter]. destruct (Rltb e v) eqn:E1, (Rltb e w) eqn:E2; cbn [length]; try lia. unfold Rltb in E1, E2. destruct (Rlt_dec e v), (Rlt_dec e w); try discriminate. lra.
Qed.

Lemma in_upper l x : In x l -> x <= quantile l 1.
Proof.
  intros Hx. assert (Hl : l <> []) by (intros ->; destruct Hx). rewrite (quantile_at_index l 1), Rmult_1_l.
  assert (Hn : (0 < length l)%nat) by (destruct l; [congruence|cbn; lia]).
  rewrite at_index_int by (rewrite rsort_length; lia).
  apply (Permutation_in _ (Permutation_sym (rsort_perm l))) in Hx. apply (In_nth _ _ 0) in Hx as (i & Hi & <-).
  apply sorted_nth_le; [apply rsort_sorted|]. rewrite rsort_length in *. lia.
Qed.

Lemma bin_range nq l v : (0 < nq)%nat -> In v l -> (1 <= bin nq l v <= Z.of_nat nq)%Z.
Proof.
  intros Hn Hv. split; [unfold bin; lia|]. apply bin_at_most; [exact Hn|intros ->; destruct Hv|lia|].
  unfold Rdiv. rewrite Rinv_r by (apply not_0_INR; lia). now apply in_upper.
Qed.

Lemma size_difference {A} (f : A -> Z) l j :
  (count_occ Z.eq_dec (map f l) j + length (filter (fun a => (f a <=? j - 1)%Z) l) = length (filter (fun a => (f a <=? j)%Z) l))%nat.
Proof.
  induction l as [|a l IH]; [reflexivity|]. cbn [map count_occ filter].
  destruct (Z.eq_dec (f a) j), (Z.leb_spec (f a) j), (Z.leb_spec (f a) (j - 1)); cbn [length]; lia.
Qed.

Lemma at_most_count nq l j : (0 < nq)%nat -> l <> [] -> NoDup l -> (1 <= j <= nq)%nat ->
  let c := length (filter (fun v => (bin nq l v <=? Z.of_nat j)%Z) l) in
  INR c - 1 <= INR j * (INR (length l - 1) / INR nq) < INR c.
Proof.
  intros Hn Hl Hd Hj c. pose proof (quantile_count l (INR j / INR nq) Hd Hl (level_range j nq Hn ltac:(lia))) as H. cbv zeta in H.
  assert (E : count (fun x => Rleb x (quantile l (INR j / INR nq))) l = c).
  { unfold count, c. f_equal. apply filter_ext. intros v. apply eq_true_iff_eq. rewrite Rleb_spec, Z.leb_le. symmetry. now apply bin_at_most. }
  rewrite E in H. replace (INR j * (INR (length l - 1) / INR nq)) with (INR j / INR nq * INR (length l - 1)); [exact H|].
  unfold Rdiv. ring.
Qed.

Lemma bin_balanced nq l j : (0 < nq)%nat -> l <> [] -> NoDup l -> (1 <= j <= nq)%nat ->
  Rabs (INR (count_occ Z.eq_dec (map (bin nq l) l) (Z.of_nat j)) - INR (length l - 1) / INR nq) <= 1.
Proof.
  intros Hn Hl Hd Hj. pose proof (size_difference (bin nq l) l (Z.of_nat j)) as E.
  pose proof (at_most_count nq l j Hn Hl Hd Hj) as H. cbv zeta in H.
  set (c := length (filter (fun v => (bin nq l v <=? Z.of_nat j)%Z) l)) in *. set (s := count_occ _ _ _) in *.
  set (w := INR (length l - 1) / INR nq) in *.
  destruct (Nat.eq_dec j 1) as [->|Hne].
  - assert (E0 : length (filter (fun a => (bin nq l a <=? Z.of_nat 1 - 1)%Z) l) = 0%nat).
    { assert (F : forall m, filter (fun a => (bin nq l a <=? Z.of_nat 1 - 1)%Z) m = []); [|now rewrite F].
      induction m as [|a m IH]; [reflexivity|]. cbn [filter].
      destruct (Z.leb_spec (bin nq l a) (Z.of_nat 1 - 1)) as [B|B]; [unfold bin in B; lia|exact IH]. }
    rewrite E0 in E. assert (s = c) by lia. subst s. rewrite H0. cbn [INR] in H. apply Rabs_le. lra.
  - pose proof (at_most_count nq l (j - 1) Hn Hl Hd ltac:(lia)) as H'. cbv zeta in H'.
    replace (Z.of_nat (j - 1)) with (Z.of_nat j - 1)%Z in H' by lia.
    set (c' := length (filter (fun a => (bin nq l a <=? Z.of_nat j - 1)%Z) l)) in *.
    assert (INR s + INR c' = INR c) by (rewrite <- plus_INR; now f_equal).
    rewrite minus_INR in H' by lia. cbn [INR] in H'. fold w in H'. rewrite Rmult_minus_distr_r, Rmult_1_l in H'. apply Rabs_le. lra.
Qed.

Lemma all_some_nth {A B} (f : A -> option B) l : forall bs k a, all_some (map f l) = Some bs -> nth_error l k = Some a -> nth_error bs k = f a.
Proof.
  induction l as [|x l IH]; intros bs k a H Hk; [destruct k; discriminate|]. cbn [map all_some] in H.
  destruct (f x) as [b|] eqn:E; [|discriminate]. destruct (all_some (map f l)) as [bs'|] eqn:E'; [|discriminate].
  apply some_inj in H. subst bs. destruct k as [|k]; cbn in *; [apply some_inj in Hk; now subst|]. now apply IH.
Qed.

Lemma groupings_floats nq cols gs k l : groupings nq cols = Some gs -> nth_error cols k = Some (floats l) ->
  nth_error gs k = if (nq <=? distinct_numbers l)%nat then Some (map (bin nq l) l) else Some (plain (floats l)).
Proof.
  intros H Hk. unfold groupings in H.
  assert (existsb is_floats cols = true) as E by (apply existsb_exists; exists (floats l); split; [eapply nth_error_In; eauto|reflexivity]).
  rewrite E in H. now rewrite (all_some_nth _ _ _ _ _ H Hk).
Qed.

Lemma balanced_groups (nq : nat) (cols : list column) (gs : list (list Z)) (k : nat) (l : list R) :
  groupings nq cols = Some gs -> nth_error cols k = Some (floats l) -> NoDup l -> (0 < nq <= length l)%nat ->
  exists labels, nth_error gs k = Some labels /\ length labels = length l /\
    (forall i i', (i < length l)%nat -> (i' < length l)%nat -> nth i l 0 <= nth i' l 0 -> (nth i labels 0 <= nth i' labels 0)%Z) /\
    (forall g, In g labels -> (1 <= g <= Z.of_nat nq)%Z) /\
    (forall j, (1 <= j <= nq)%nat -> Rabs (INR (group_size labels (Z.of_nat j)) - INR (length l - 1) / INR nq) <= 1).
Proof.
  intros H Hk Hd Hn. rewrite (groupings_floats _ _ _ _ _ H Hk). unfold distinct_numbers. rewrite nodup_fixed_point by exact Hd.
  destruct (Nat.leb_spec nq (length l)) as [_|B]; [|lia]. eexists. split; [reflexivity|]. split; [apply map_length|].
  assert (Hl : l <> []) by (intros ->; cbn in Hn; lia). split; [|split].
  - intros i i' Hi Hi' Hle. rewrite !(nth_indep _ 0%Z (bin nq l 0)) by (rewrite map_length; lia). rewrite !map_nth. now apply bin_monotone.
  - intros g Hg. apply in_map_iff in Hg as (v & <- & Hv). apply bin_range; [lia|exact Hv].
  - intros j Hj. apply bin_balanced; auto. lia.
Qed.

Lemma column_groups (nq : nat) (cols cols' : list column) (gs gs' : list (list Z)) (k k' : nat) (c : column) :
  standard c -> groupings nq cols = Some gs -> groupings nq cols' = Some gs' -> nth_error cols k = Some c -> nth_error cols' k' = Some c ->
  nth_error gs k = nth_error gs' k'.
Proof.
  intros Hs H H' Hk Hk'. destruct c as [l|l|l|l]; try destruct Hs.
  - assert (F : forall cols gs k, groupings nq cols = Some gs -> nth_error cols k = Some (integers l) -> nth_error gs k = Some l).
    { clear. intros cols gs k H Hk. unfold groupings in H. destruct (existsb is_floats cols).
      - now rewrite (all_some_nth _ _ _ _ _ H Hk).
      - apply some_inj in H. subst gs. now rewrite nth_error_map, Hk. }
    now rewrite (F _ _ _ H Hk), (F _ _ _ H' Hk').
  - now rewrite (groupings_floats _ _ _ _ _ H Hk), (groupings_floats _ _ _ _ _ H' Hk').
Qed.

Lemma groupings_plain nq cols : existsb is_floats cols = false -> groupings nq cols = Some (map plain cols).
Proof. intros H. unfold groupings. now rewrite H. Qed.

Lemma nodup_map_IZR l : NoDup l -> NoDup (map IZR l).
Proof.
  induction 1 as [|a l Ha _ IH]; [constructor|]. cbn. constructor; [|exact IH]. intros Hi. apply in_map_iff in Hi as (b & Eb & Hb). apply eq_IZR in Eb. now subst.
Qed.

Lemma small_integers_merged (nq : nat) (l : list Z) (f : list R) (gs : list (list Z)) (labels : list Z) :
  (0 < nq < length (nodup Z.eq_dec l))%nat -> groupings nq [small_integers l] = Some [l] /\
  (groupings nq [small_integers l; floats f] = Some gs -> nth_error gs 0 = Some labels ->
   ~ forall i i', (i < length l)%nat -> (i' < length l)%nat -> nth i labels 0%Z = nth i' labels 0%Z -> nth i l 0%Z = nth i' l 0%Z).
Proof.
  intros Hn. split; [reflexivity|]. intros H Hlab Hinj. unfold groupings in H. cbn [existsb is_floats orb] in H.
  pose proof (all_some_nth _ _ _ 0 (small_integers l) H eq_refl) as E. rewrite Hlab in E. cbn [selected distinct] in E.
  destruct (Nat.leb_spec nq (length (nodup Z.eq_dec l))) as [_|B]; [|lia]. cbn [qcut] in E. apply some_inj in E. subst labels.
  set (r := map IZR l) in *.
  assert (Hl : length r = length l) by apply map_length.
  assert (Hn2 : (length (map (fun z => bin nq r (IZR z)) (nodup Z.eq_dec l)) <= length (map Z.of_nat (seq 1 nq)))%nat).
  { apply NoDup_incl_length.
    - assert (Hsub : forall z, In z (nodup Z.eq_dec l) -> In z l) by (intros z; apply nodup_In).
      pose proof (NoDup_nodup Z.eq_dec l) as Hd. clear Hn. induction (nodup Z.eq_dec l) as [|a m IH]; [constructor|]. cbn. inversion Hd; subst. constructor.
      + intros Hi. apply in_map_iff in Hi as (b & Eb & Hb).
        apply (In_nth _ _ 0%Z) in Hb as Hb'. destruct (In_nth _ _ 0%Z (Hsub b ltac:(now right))) as (i & Hi & Ei).
        destruct (In_nth _ _ 0%Z (Hsub a ltac:(now left))) as (i' & Hi' & Ei').
        assert (Eba : b = a); [|rewrite Eba in Hb; contradiction]. rewrite <- Ei, <- Ei'. apply Hinj; [lia|lia|].
        rewrite !(nth_indep _ 0%Z (bin nq r 0)) by (rewrite map_length; lia). rewrite !map_nth. unfold r.
        rewrite !map_nth, Ei, Ei'. exact Eb.
      + apply IH; [intros; apply Hsub; now right|assumption].
    - intros z Hz. apply in_map_iff in Hz as (b & <- & Hb). apply nodup_In in Hb.
      pose proof (bin_range nq r (IZR b) ltac:(lia) ltac:(now apply in_map)) as B.
      apply in_map_iff. exists (Z.to_nat (bin nq r (IZR b))). split; [lia|]. apply in_seq. lia. }
  rewrite !map_length, seq_length in Hn2. lia.
Qed.

Lemma small_integers_cut (nq : nat) (l : list Z) (f : list R) : exists gs labels,
  groupings nq [small_integers l; floats f] = Some gs /\ nth_error gs 0 = Some labels.
Proof.
  unfold groupings. cbn [existsb is_floats orb map all_some selected distinct].
  destruct (nq <=? length (nodup Z.eq_dec l))%nat, (nq <=? distinct_numbers f)%nat; cbn [qcut]; eexists; eexists; (split; [reflexivity|reflexivity]).
Qed.

Lemma texts_raise (nq : nat) (l : list Z) (f : list R) (before after : list column) :
  (nq <= length (nodup Z.eq_dec l))%nat -> In (floats f) (before ++ texts l :: after) -> groupings nq (before ++ texts l :: after) = None.
Proof.
  intros Hn Hf. unfold groupings.
  assert (existsb is_floats (before ++ texts l :: after) = true) as -> by (apply existsb_exists; exists (floats f); auto).
  clear Hf. induction before as [|b before IH]; cbn [app map all_some].
  - cbn [selected distinct]. destruct (Nat.leb_spec nq (length (nodup Z.eq_dec l))); [reflexivity|lia].
  - rewrite IH. now destruct (if selected nq b then qcut nq b else Some (plain b)).
Qed.
