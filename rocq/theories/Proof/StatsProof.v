From Coq Require Import List ZArith Bool Arith Reals Lra Lia Sorted Permutation.
From Verif Require Import Model.Stats Spec.StatsSpec Proof.SeriesProof.
Import ListNotations.
Local Open Scope R_scope.

Lemma rinsert_perm x l : Permutation (rinsert x l) (x :: l).
Proof.
  induction l as [|a l IH]; [reflexivity|]. cbn. destruct (Rle_dec x a); [reflexivity|]. rewrite IH. apply perm_swap.
Qed.
Lemma rsort_perm l : Permutation (rsort l) l.
Proof. induction l as [|a l IH]; [reflexivity|]. cbn. rewrite rinsert_perm. now constructor. Qed.
Lemma rinsert_sorted x l : StronglySorted Rle l -> StronglySorted Rle (rinsert x l).
Proof.
  induction l as [|a l IH]; intros H; [repeat constructor|]. inversion H as [|? ? Hs Hf]; subst. cbn.
  destruct (Rle_dec x a) as [Hle|Hn].
  - constructor; [exact H|]. constructor; [exact Hle|]. eapply Forall_impl; [|exact Hf]. intros b Hb. cbn in *. lra.
  - constructor; [now apply IH|]. apply Forall_forall. intros b Hb. apply (Permutation_in _ (rinsert_perm x l)) in Hb.
    destruct Hb as [<-|Hb]; [lra|]. rewrite Forall_forall in Hf. now apply Hf.
Qed.
Lemma rsort_sorted l : StronglySorted Rle (rsort l).
Proof. induction l as [|a l IH]; [constructor|]. cbn. now apply rinsert_sorted. Qed.
Lemma rsort_length l : length (rsort l) = length l.
Proof. apply Permutation_length, rsort_perm. Qed.

Lemma sorted_nth_le s : StronglySorted Rle s -> forall i j, (i <= j < length s)%nat -> nth i s 0 <= nth j s 0.
Proof.
  induction 1 as [|a l Hs IH Hf]; intros i j Hij; cbn in Hij; [lia|].
  destruct i as [|i], j as [|j]; cbn; try lra; try lia.
  - rewrite Forall_forall in Hf. apply Hf, nth_In. lia.
  - apply IH. lia.
Qed.
Lemma sorted_unique (s1 s2 : list R) :
  StronglySorted Rle s1 -> StronglySorted Rle s2 -> Permutation s1 s2 -> s1 = s2.
Proof.
  revert s2. induction s1 as [|a s1 IH]; intros [|b s2] H1 H2 HP; [reflexivity| | |].
  - apply Permutation_length in HP. cbn in HP. lia.
  - apply Permutation_length in HP. cbn in HP. lia.
  - inversion H1 as [|? ? H1' F1]; inversion H2 as [|? ? H2' F2]; subst. rewrite Forall_forall in F1, F2.
    assert (a = b).
    { apply Rle_antisym.
      - destruct (Permutation_in _ (Permutation_sym HP) (or_introl eq_refl : In b (b :: s2))) as [<-|H]; [lra|auto].
      - destruct (Permutation_in _ HP (or_introl eq_refl : In a (a :: s1))) as [<-|H]; [lra|auto]. }
    subst b. f_equal. apply IH; auto. now apply Permutation_cons_inv in HP.
Qed.
Lemma sorted_copy_rsort l s : sorted_copy l s -> s = rsort l.
Proof.
  intros [HP Hs]. apply sorted_unique; [exact Hs|apply rsort_sorted|]. rewrite <- HP. symmetry. apply rsort_perm.
Qed.

(** Integer part. *)
Lemma floor_eq v i : INR i <= v < INR i + 1 -> Z.to_nat (Int_part v) = i.
Proof.
  intros H. pose proof (base_Int_part v) as [B1 B2]. rewrite INR_IZR_INZ in H.
  assert (Int_part v < Z.of_nat i + 1)%Z by (apply lt_IZR; rewrite plus_IZR; lra).
  assert (Z.of_nat i < Int_part v + 1)%Z by (apply lt_IZR; rewrite plus_IZR; lra).
  replace (Int_part v) with (Z.of_nat i) by lia. apply Nat2Z.id.
Qed.
Lemma floor_bounds v : 0 <= v -> INR (Z.to_nat (Int_part v)) <= v < INR (Z.to_nat (Int_part v)) + 1.
Proof.
  intros Hv. pose proof (base_Int_part v) as [B1 B2].
  assert (Hz : (0 <= Int_part v)%Z) by (assert (-1 < Int_part v)%Z; [apply lt_IZR; lra|lia]).
  rewrite INR_IZR_INZ, Z2Nat.id by exact Hz. lra.
Qed.

(** The interpolated value at a virtual index. *)
Definition at_index (s : list R) (v : R) : R :=
  let i := Z.to_nat (Int_part v) in
  nth i s 0 + (v - INR i) * (nth (Nat.min (S i) (length s - 1)) s 0 - nth i s 0).

Lemma quantile_at_index l q : quantile l q = at_index (rsort l) (q * INR (length l - 1)).
Proof. unfold quantile, at_index. now rewrite rsort_length. Qed.

Lemma at_index_cell s i t : (S i < length s)%nat -> 0 <= t <= 1 ->
  at_index s (INR i + t) = (1 - t) * nth i s 0 + t * nth (S i) s 0.
Proof.
  intros Hi Ht. unfold at_index. destruct (Req_dec t 1) as [->|Hne].
  - rewrite (floor_eq _ (S i)) by (rewrite S_INR; lra). rewrite S_INR.
    replace (INR i + 1 - (INR i + 1)) with 0 by ring. ring.
  - rewrite (floor_eq _ i) by lra. replace (Nat.min (S i) (length s - 1)) with (S i) by lia.
    replace (INR i + t - INR i) with t by ring. ring.
Qed.
Lemma at_index_int s i : (i < length s)%nat -> at_index s (INR i) = nth i s 0.
Proof.
  intros Hi. unfold at_index. rewrite (floor_eq _ i) by lra. replace (INR i - INR i) with 0 by ring. ring.
Qed.

(** Every admissible virtual index lies in a cell. *)
Lemma index_cell v n : 0 <= v <= INR n -> exists i t, v = INR i + t /\ 0 <= t /\ ((i < n)%nat /\ t < 1 \/ i = n /\ t = 0).
Proof.
  intros Hv. pose proof (floor_bounds v ltac:(lra)) as Hf. set (i := Z.to_nat (Int_part v)) in *.
  exists i, (v - INR i). split; [ring|]. split; [lra|].
  assert (Hle : (i <= n)%nat) by (apply INR_le; lra). destruct (Nat.eq_dec i n) as [->|Hne].
  - right. split; [reflexivity|]. lra.
  - left. split; [lia|lra].
Qed.

Lemma at_index_between s i v : StronglySorted Rle s -> INR i <= v <= INR i + 1 -> (S i < length s)%nat ->
  nth i s 0 <= at_index s v <= nth (S i) s 0.
Proof.
  intros Hs Hv Hi. replace v with (INR i + (v - INR i)) by ring. rewrite at_index_cell by (lia || lra).
  pose proof (sorted_nth_le s Hs i (S i) ltac:(lia)) as Hle.
  pose proof (Rmult_le_compat_l (v - INR i) _ _ ltac:(lra) Hle). pose proof (Rmult_le_compat_l (1 - (v - INR i)) _ _ ltac:(lra) Hle).
  lra.
Qed.

Lemma at_index_mono s v w : StronglySorted Rle s -> (0 < length s)%nat ->
  0 <= v -> v <= w -> w <= INR (length s - 1) -> at_index s v <= at_index s w.
Proof.
  intros Hs Hn Hv Hvw Hw.
  destruct (index_cell v (length s - 1) ltac:(lra)) as (i & t & -> & Ht & Hi).
  destruct (index_cell w (length s - 1) ltac:(lra)) as (j & u & -> & Hu & Hj).
  assert (Hij : (i <= j)%nat).
  { destruct (le_lt_dec i j) as [H|H]; [exact H|]. apply le_INR in H. rewrite S_INR in H. lra. }
  destruct (Nat.eq_dec i j) as [<-|Hne].
  - destruct Hi as [[Hi Ht1]|[-> ->]].
    + rewrite !at_index_cell by (lia || lra). pose proof (sorted_nth_le s Hs i (S i) ltac:(lia)) as Hle.
      assert (Htu : t <= u) by lra.
      pose proof (Rmult_le_compat_r (nth (S i) s 0 - nth i s 0) _ _ ltac:(lra) Htu). lra.
    + destruct Hj as [[Hj _]|[_ ->]]; [lia|lra].
  - assert (H1 : at_index s (INR i + t) <= nth (S i) s 0).
    { apply at_index_between; [exact Hs| |lia]. lra. }
    assert (H2 : nth (S i) s 0 <= nth j s 0) by (apply sorted_nth_le; [exact Hs|lia]).
    assert (H3 : nth j s 0 <= at_index s (INR j + u)).
    { destruct Hj as [[Hj Hu1]|[-> ->]].
      - apply at_index_between; [exact Hs| |lia]. lra.
      - rewrite Rplus_0_r, at_index_int by lia. lra. }
    lra.
Qed.

Lemma level_index q n : 0 <= q <= 1 -> 0 <= q * INR n <= INR n.
Proof.
  intros Hq. pose proof (pos_INR n) as Hn. split; [apply Rmult_le_pos; lra|].
  rewrite <- (Rmult_1_l (INR n)) at 2. apply Rmult_le_compat_r; lra.
Qed.

Lemma quantile_interpolates l s : sorted_copy l s -> interpolates s (quantile l).
Proof.
  intros Hs. pose proof (Permutation_length (proj1 Hs)) as Hl. pose proof (sorted_copy_rsort l s Hs) as ->. split.
  - intros H1 q Hq. rewrite quantile_at_index, Hl, H1. cbn [Nat.sub INR]. rewrite Rmult_0_r.
    change 0 with (INR 0) at 1. apply at_index_int. lia.
  - intros i t Hi Ht. rewrite quantile_at_index, Hl.
    replace ((INR i + t) / INR (length (rsort l) - 1) * INR (length (rsort l) - 1)) with (INR i + t).
    + now apply at_index_cell.
    + field. apply not_0_INR. lia.
Qed.

Lemma quantile_monotone l q q' : l <> [] -> 0 <= q -> q <= q' -> q' <= 1 -> quantile l q <= quantile l q'.
Proof.
  intros Hl H1 H2 H3. rewrite !quantile_at_index. pose proof (rsort_length l) as Hr.
  assert (Hn : (0 < length l)%nat) by (destruct l; [congruence|cbn; lia]).
  pose proof (level_index q (length l - 1) ltac:(lra)) as Hq. pose proof (level_index q' (length l - 1) ltac:(lra)) as Hq'.
  apply at_index_mono; [apply rsort_sorted|lia|lra| |rewrite Hr; lra].
  apply Rmult_le_compat_r; [apply pos_INR|exact H2].
Qed.

Lemma quantile_0 l : l <> [] -> quantile l 0 = nth 0 (rsort l) 0.
Proof.
  intros Hl. rewrite quantile_at_index, Rmult_0_l. change 0 with (INR 0) at 1. apply at_index_int.
  rewrite rsort_length. destruct l; [congruence|cbn; lia].
Qed.
Lemma quantile_1 l : l <> [] -> quantile l 1 = nth (length l - 1) (rsort l) 0.
Proof.
  intros Hl. rewrite quantile_at_index, Rmult_1_l. apply at_index_int.
  rewrite rsort_length. destruct l; [congruence|cbn; lia].
Qed.

Lemma quantile_bounds l q lo hi : l <> [] -> 0 <= q <= 1 -> (forall x, In x l -> lo <= x <= hi) ->
  lo <= quantile l q <= hi.
Proof.
  intros Hl Hq Hb.
  assert (Hin : forall i, (i < length l)%nat -> lo <= nth i (rsort l) 0 <= hi).
  { intros i Hi. apply Hb. apply (Permutation_in _ (rsort_perm l)). apply nth_In. rewrite rsort_length. exact Hi. }
  assert (Hn : (0 < length l)%nat) by (destruct l; [congruence|cbn; lia]).
  split.
  - apply Rle_trans with (quantile l 0).
    + rewrite quantile_0 by exact Hl. apply Hin. exact Hn.
    + apply quantile_monotone; [exact Hl|lra..].
  - apply Rle_trans with (quantile l 1).
    + apply quantile_monotone; [exact Hl|lra..].
    + rewrite quantile_1 by exact Hl. apply Hin. lia.
Qed.

(** Counting. *)
Lemma how_many_filter (P : R -> Prop) (f : R -> bool) l :
  (forall x, f x = true <-> P x) -> how_many P l (length (filter f l)).
Proof.
  intros H. exists (filter f l), (filter (fun x => negb (f x)) l). split; [|split; [|split]].
  - induction l as [|a l IH]; [constructor|]. cbn. destruct (f a); cbn; [now constructor|].
    rewrite IH at 1. apply Permutation_middle.
  - apply Forall_forall. intros x Hx. apply filter_In in Hx. now apply H.
  - apply Forall_forall. intros x Hx. apply filter_In in Hx. destruct Hx as [_ Hx]. apply negb_true_iff in Hx.
    intros HP. apply H in HP. congruence.
  - reflexivity.
Qed.
Lemma filter_length_perm (f : R -> bool) l1 l2 : Permutation l1 l2 -> length (filter f l1) = length (filter f l2).
Proof.
  intros HP. induction HP; cbn; auto.
  - destruct (f x); cbn; congruence.
  - destruct (f x), (f y); reflexivity.
  - congruence.
Qed.
Lemma how_many_unique (P : R -> Prop) (f : R -> bool) l n :
  (forall x, f x = true <-> P x) -> how_many P l n -> n = length (filter f l).
Proof.
  intros H (a & b & HP & Ha & Hb & <-). rewrite (filter_length_perm f _ _ HP), filter_app, app_length.
  rewrite filter_all. 2:{ intros x Hx. apply H. rewrite Forall_forall in Ha. now apply Ha. }
  rewrite filter_none; [cbn; lia|]. intros x Hx. rewrite Forall_forall in Hb. specialize (Hb x Hx).
  destruct (f x) eqn:E; [|reflexivity]. apply H in E. contradiction.
Qed.
Lemma Rleb_spec a b : Rleb a b = true <-> a <= b.
Proof. unfold Rleb. destruct (Rle_dec a b); split; intros; try congruence; try lra. Qed.
Lemma Rltb_spec a b : Rltb a b = true <-> a < b.
Proof. unfold Rltb. destruct (Rlt_dec a b); split; intros; try congruence; try lra. Qed.

Lemma filter_prefix_ge (f : R -> bool) s k :
  (k <= length s)%nat -> (forall i, (i < k)%nat -> f (nth i s 0) = true) -> (k <= length (filter f s))%nat.
Proof.
  revert k. induction s as [|a s IH]; intros k Hk H; cbn in Hk; [lia|]. destruct k as [|k]; [lia|].
  cbn. rewrite (H 0%nat ltac:(lia) : f a = true). cbn. apply le_n_S, IH; [lia|]. intros i Hi. apply (H (S i)). lia.
Qed.
Lemma filter_suffix_ge (f : R -> bool) s k :
  (forall i, (k <= i < length s)%nat -> f (nth i s 0) = true) -> (length s - k <= length (filter f s))%nat.
Proof.
  revert k. induction s as [|a s IH]; intros k H; [cbn; lia|]. cbn [length filter].
  assert (Hs : (length s - (k - 1) <= length (filter f s))%nat).
  { apply IH. intros i Hi. apply (H (S i)). cbn. lia. }
  destruct k as [|k].
  - rewrite (H 0%nat ltac:(cbn; lia) : f a = true). cbn. rewrite Nat.sub_0_r in Hs. cbn in Hs. lia.
  - destruct (f a); cbn; lia.
Qed.

(** At least a fraction q (up to one observation) lies below, 1-q above. *)
Lemma quantile_coverage l q m m' :
  l <> [] -> 0 <= q <= 1 ->
  how_many (fun x => x <= quantile l q) l m -> how_many (fun x => quantile l q <= x) l m' ->
  q * INR (length l - 1) < INR m /\ (1 - q) * INR (length l - 1) < INR m'.
Proof.
  intros Hl Hq Hm Hm'.
  rewrite (how_many_unique _ (fun x => Rleb x (quantile l q)) _ _ (fun x => Rleb_spec x _) Hm).
  rewrite (how_many_unique _ (fun x => Rleb (quantile l q) x) _ _ (fun x => Rleb_spec _ x) Hm').
  clear Hm Hm'. rewrite <- !(filter_length_perm _ _ _ (rsort_perm l)).
  assert (Hn : (0 < length l)%nat) by (destruct l; [congruence|cbn; lia]).
  rewrite quantile_at_index. set (v := q * INR (length l - 1)).
  pose proof (level_index q (length l - 1) Hq) as Hv. fold v in Hv.
  pose proof (rsort_sorted l) as Hs. pose proof (rsort_length l) as Hr. set (s := rsort l) in *.
  destruct (index_cell v (length l - 1) Hv) as (i & t & Ev & Ht & Hi).
  assert (Hlo : nth i s 0 <= at_index s v).
  { destruct Hi as [[Hi Ht1]|[-> ->]].
    - rewrite Ev. apply at_index_between; [exact Hs|lra|lia].
    - rewrite Ev, Rplus_0_r, at_index_int by lia. lra. }
  split.
  - assert (H : (S i <= length (filter (fun x => Rleb x (at_index s v)) s))%nat).
    { apply filter_prefix_ge; [destruct Hi as [[Hi _]|[-> _]]; lia|]. intros j Hj. apply Rleb_spec.
      apply Rle_trans with (nth i s 0); [|exact Hlo]. apply sorted_nth_le; [exact Hs|].
      destruct Hi as [[Hi _]|[-> _]]; lia. }
    apply le_INR in H. rewrite S_INR in H. destruct Hi as [[_ Ht1]|[_ ->]]; lra.
  - replace ((1 - q) * INR (length l - 1)) with (INR (length l - 1) - v) by (unfold v; ring).
    assert (Hi' : (i <= length l - 1)%nat) by (destruct Hi as [[Hi _]|[-> _]]; lia).
    destruct (Req_dec t 0) as [Et|Et].
    + assert (E : at_index s v = nth i s 0) by (rewrite Ev, Et, Rplus_0_r; apply at_index_int; lia).
      assert (H : (length s - i <= length (filter (fun x => Rleb (at_index s v) x) s))%nat).
      { apply filter_suffix_ge. intros j Hj. apply Rleb_spec. rewrite E. apply sorted_nth_le; [exact Hs|lia]. }
      apply le_INR in H. replace (length s - i)%nat with (S (length l - 1 - i)) in H by lia.
      rewrite S_INR, minus_INR in H by lia. lra.
    + destruct Hi as [[Hi Ht1]|[_ Ht0]]; [|congruence].
      assert (H : (length s - S i <= length (filter (fun x => Rleb (at_index s v) x) s))%nat).
      { apply filter_suffix_ge. intros j Hj. apply Rleb_spec. apply Rle_trans with (nth (S i) s 0).
        - apply at_index_between; [exact Hs|lra|lia].
        - apply sorted_nth_le; [exact Hs|lia]. }
      apply le_INR in H. replace (length s - S i)%nat with (length l - 1 - i)%nat in H by lia.
      rewrite minus_INR in H by lia. lra.
Qed.

(** Histograms. *)
Lemma monotone_nth e : monotone e = true -> forall i j, (i <= j < length e)%nat -> nth i e 0 <= nth j e 0.
Proof.
  induction e as [|a e IH]; intros H i j Hij; [cbn in Hij; lia|].
  assert (He : monotone e = true).
  { destruct e; [reflexivity|]. cbn in H. apply andb_true_iff in H. tauto. }
  specialize (IH He). cbn [length] in Hij. destruct i as [|i], j as [|j]; cbn; try lra; try lia.
  - destruct e as [|b e]; [cbn in Hij; lia|]. cbn in H. apply andb_true_iff in H. destruct H as [H _]. apply Rleb_spec in H.
    specialize (IH 0%nat j ltac:(cbn [length] in *; lia)). cbn [nth] in IH |- *. lra.
  - apply IH. lia.
Qed.
Lemma monotone_intro e : (forall i j, (i <= j < length e)%nat -> nth i e 0 <= nth j e 0) -> monotone e = true.
Proof.
  induction e as [|a e IH]; intros H; [reflexivity|]. destruct e as [|b e]; [reflexivity|].
  cbn [monotone]. apply andb_true_iff. split.
  - apply Rleb_spec. apply (H 0%nat 1%nat). cbn. lia.
  - apply IH. intros i j Hij. apply (H (S i) (S j)). cbn in *. lia.
Qed.

Lemma count_diff (f g : R -> bool) l : (forall x, In x l -> f x = true -> g x = true) ->
  (Z.of_nat (count g l) - Z.of_nat (count f l))%Z = Z.of_nat (count (fun x => g x && negb (f x)) l).
Proof.
  unfold count. induction l as [|a l IH]; intros H; [reflexivity|]. cbn [filter].
  specialize (IH (fun x Hx => H x (or_intror Hx))). specialize (H a (or_introl eq_refl)).
  destruct (f a), (g a); cbn [negb andb length]; try lia.
Qed.

(** Every bin counts what lies in it. *)
Lemma histogram_counts l edges h :
  histogram l edges = Some h ->
  length h = (length edges - 1)%nat /\
  forall i, (S i < length edges)%nat -> exists n, nth i h 0%Z = Z.of_nat n /\ how_many (in_bin edges i) l n.
Proof.
  unfold histogram. destruct (monotone edges) eqn:Em; [|discriminate]. intros [= <-].
  split; [now rewrite map_length, seq_length|]. intros i Hi.
  set (gg := fun i => (cumulative l edges (S i) - cumulative l edges i)%Z).
  rewrite (nth_map_seq gg (length edges - 1) i 0%Z) by lia. unfold gg, cumulative.
  pose proof (monotone_nth edges Em i (S i) ltac:(lia)) as Hle.
  destruct (S i =? length edges)%nat eqn:E1; [apply Nat.eqb_eq in E1; lia|]. clear E1.
  destruct (S (S i) =? length edges)%nat eqn:E2.
  - apply Nat.eqb_eq in E2. rewrite count_diff.
    2:{ intros x _. rewrite Rltb_spec, Rleb_spec. lra. }
    eexists. split; [reflexivity|]. apply how_many_filter. intros x. rewrite andb_true_iff, negb_true_iff, Rleb_spec.
    rewrite <- not_true_iff_false, Rltb_spec. unfold in_bin. rewrite E2. split.
    + intros [H1 H2]. split; [lra|]. right. split; [reflexivity|exact H1].
    + intros [H1 [H2|[_ H2]]]; split; lra.
  - apply Nat.eqb_neq in E2. rewrite count_diff.
    2:{ intros x _. rewrite !Rltb_spec. lra. }
    eexists. split; [reflexivity|]. apply how_many_filter. intros x. rewrite andb_true_iff, negb_true_iff, Rltb_spec.
    rewrite <- not_true_iff_false, Rltb_spec. unfold in_bin. split.
    + intros [H1 H2]. split; [lra|]. now left.
    + intros [H1 [H2|[H3 _]]]; [split; lra|congruence].
Qed.

Lemma telescope (f : nat -> Z) n : fold_right Z.add 0%Z (map (fun i => (f (S i) - f i)%Z) (seq 0 n)) = (f n - f 0%nat)%Z.
Proof.
  assert (H : forall s, fold_right Z.add 0%Z (map (fun i => (f (S i) - f i)%Z) (seq s n)) = (f (s + n)%nat - f s)%Z).
  { induction n as [|n IH]; intros s; cbn [seq map fold_right]; [rewrite Nat.add_0_r; lia|].
    rewrite IH. replace (S s + n)%nat with (s + S n)%nat by lia. lia. }
  exact (H 0%nat).
Qed.

Lemma histogram_total l edges h :
  (2 <= length edges)%nat -> histogram l edges = Some h ->
  exists n, fold_right Z.add 0%Z h = Z.of_nat n /\
    how_many (fun x => nth 0 edges 0 <= x <= nth (length edges - 1) edges 0) l n.
Proof.
  intros Hn. unfold histogram. destruct (monotone edges) eqn:Em; [|discriminate]. intros [= <-].
  rewrite telescope. unfold cumulative.
  replace (S (length edges - 1) =? length edges)%nat with true by (symmetry; apply Nat.eqb_eq; lia).
  replace (1 =? length edges)%nat with false by (symmetry; apply Nat.eqb_neq; lia).
  pose proof (monotone_nth edges Em 0 (length edges - 1) ltac:(lia)) as Hle.
  rewrite count_diff. 2:{ intros x _. rewrite Rltb_spec, Rleb_spec. lra. }
  eexists. split; [reflexivity|]. apply how_many_filter. intros x. rewrite andb_true_iff, negb_true_iff, Rleb_spec.
  rewrite <- not_true_iff_false, Rltb_spec. lra.
Qed.
