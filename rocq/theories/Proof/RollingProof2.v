From Coq Require Import List ZArith Bool Arith Reals Lia Lra Permutation.
From Verif Require Import Model.Series Model.Stats Model.Subsample Model.HoltWinters Model.Rolling Spec.StatsSpec Spec.RollingSpec
  Proof.SeriesProof Proof.QuantilesProof Proof.SubsampleProof Proof.StatsProof Proof.TuningProof Proof.RollingProof Proof.HwQuantProof.
Import ListNotations.
Local Open Scope R_scope.

Lemma predict_quantile_at {M} (lib : library M R) m n rows k q later i : (i < length later)%nat ->
  nth i (predict_quantile lib m n rows k q later) 0 = nth k (nth i (get_forecasts lib m n later) []) 0 + error_quantile lib m n rows k q.
Proof.
  intros Hi. unfold predict_quantile.
  rewrite (nth_indep _ 0 (nth k [] 0 + error_quantile lib m n rows k q)) by (rewrite map_length, forecasts_length; exact Hi).
  apply (map_nth (fun r => nth k r 0 + error_quantile lib m n rows k q)).
Qed.

Lemma rolling_ordered {M} (lib : library M R) (m : M) (n k i : nat) (rows later : list (Z * R)) (q q' : R) :
  (0 < n < length rows)%nat -> 0 <= q -> q <= q' -> q' <= 1 -> (i < length later)%nat ->
  nth i (predict_quantile lib m n rows k q later) 0 <= nth i (predict_quantile lib m n rows k q' later) 0.
Proof.
  intros Hn H0 Hq H1 Hi. rewrite !predict_quantile_at by exact Hi. apply Rplus_le_compat_l. unfold error_quantile.
  apply quantile_monotone; try assumption. pose proof (residuals_length lib m n rows) as L.
  destruct (residuals lib m n rows); [cbn in L; lia|discriminate].
Qed.

Lemma residual_at {M} (lib : library M R) (m : M) n rows t k :
  (forall m', length (lib_forecast lib m' n) = n) -> (t < length rows - n)%nat -> (k < n)%nat ->
  nth k (nth t (residuals lib m n rows) []) 0 = nth (t + 1 + k) (map snd rows) 0 - nth k (nth t (get_forecasts lib m n rows) []) 0.
Proof.
  intros Hf Ht Hk. unfold residuals.
  assert (Lt : length (tl (map snd rows)) = (length rows - 1)%nat) by (destruct rows; cbn; rewrite ?map_length; lia).
  rewrite (map2_nth (map2 Rminus) _ _ t [] [] []).
  2:{ unfold hankel. rewrite map_length, seq_length, Lt. lia. }
  2:{ rewrite firstn_length, forecasts_length. lia. }
  rewrite nth_firstn by lia.
  assert (Er : nth t (hankel (tl (map snd rows)) n) [] = firstn n (skipn t (tl (map snd rows)))).
  { unfold hankel. rewrite nth_map_seq by (rewrite Lt; lia). reflexivity. }
  rewrite Er. rewrite (map2_nth Rminus _ _ k 0 0 0).
  - rewrite nth_firstn by lia. rewrite nth_skipn, tl_nth. f_equal. f_equal. lia.
  - rewrite firstn_length, skipn_length, Lt. lia.
  - rewrite forecasts_nth by lia. rewrite Hf. exact Hk.
Qed.

Lemma rolling_cover {M} (lib : library M R) (m : M) (n k : nat) (rows : list (Z * R)) (q : R) :
  (forall m', length (lib_forecast lib m' n) = n) -> (0 < n < length rows)%nat -> (k < n)%nat -> 0 <= q <= 1 ->
  let forecast t := nth t (predict_quantile lib m n rows k q rows) 0 in
  let observation t := nth (t + 1 + k) (map snd rows) 0 in
  let N := (length rows - n)%nat in
  q * INR (N - 1) < INR (length (filter (fun t => Rleb (observation t) (forecast t)) (seq 0 N))) /\
  (1 - q) * INR (N - 1) < INR (length (filter (fun t => Rleb (forecast t) (observation t)) (seq 0 N))).
Proof.
  intros Hf Hn Hk Hq forecast observation N.
  set (col := map (fun r => nth k r 0) (residuals lib m n rows)).
  assert (Lc : length col = N) by (unfold col; rewrite map_length; apply residuals_length; lia).
  assert (Cn : forall t, (t < N)%nat -> nth t col 0 = observation t - nth k (nth t (get_forecasts lib m n rows) []) 0).
  { intros t Ht. unfold col. rewrite (nth_indep _ 0 (nth k [] 0)) by (rewrite map_length, residuals_length; [exact Ht|lia]).
    rewrite (map_nth (fun r => nth k r 0)). apply residual_at; assumption. }
  assert (Fn : forall t, (t < N)%nat -> forecast t = nth k (nth t (get_forecasts lib m n rows) []) 0 + quantile col q).
  { intros t Ht. unfold forecast. rewrite predict_quantile_at by (unfold N in Ht; lia). reflexivity. }
  assert (B : length (filter (fun t => Rleb (observation t) (forecast t)) (seq 0 N)) = length (filter (fun x => Rleb x (quantile col q)) col)).
  { rewrite <- Lc. apply (filter_seq_count _ _ col 0). intros t Ht. rewrite Lc in Ht. rewrite Cn, Fn by exact Ht.
    unfold Rleb. destruct (Rle_dec _ _); destruct (Rle_dec _ _); try reflexivity; lra. }
  assert (A : length (filter (fun t => Rleb (forecast t) (observation t)) (seq 0 N)) = length (filter (fun x => Rleb (quantile col q) x) col)).
  { rewrite <- Lc. apply (filter_seq_count _ _ col 0). intros t Ht. rewrite Lc in Ht. rewrite Cn, Fn by exact Ht.
    unfold Rleb. destruct (Rle_dec _ _); destruct (Rle_dec _ _); try reflexivity; lra. }
  rewrite A, B, <- Lc. apply quantile_coverage; [destruct col; [cbn in Lc; unfold N in Lc; lia|discriminate]|exact Hq| |];
    apply how_many_filter; intros x; unfold Rleb; destruct (Rle_dec _ _); split; intros; try assumption; try reflexivity; try discriminate; contradiction.
Qed.
