From Coq Require Import List ZArith Bool Arith Lia Reals Lra Sorted.
From Verif Require Import Model.Series Model.Subsample Model.Stats Model.Quantiles Model.Metrics
  Spec.StatsSpec Spec.MetricsSpec Proof.SeriesProof Proof.SubsampleProof Proof.StatsProof Proof.QuantilesProof Proof.MetricsProof.
Import ListNotations.
Local Open Scope R_scope.

Lemma flat_map_single {A} (l : list A) : flat_map (fun c => [c]) l = l.
Proof. induction l; cbn; congruence. Qed.

(** * Pinball loss *)
Lemma pinball_score alpha q y : 0 <= alpha <= 1 ->
  ((if Rltb 0 (q - y) then 1 else 0) - alpha) * (q - y) = pinball alpha (q, y).
Proof.
  intros Ha. unfold pinball, Rltb. destruct (Rlt_dec 0 (q - y)).
  - rewrite Rmax_left; [reflexivity|]. nra.
  - rewrite Rmax_right; [lra|]. nra.
Qed.
Lemma pinball_nonneg alpha p : 0 <= alpha <= 1 -> 0 <= pinball alpha p.
Proof.
  intros Ha. destruct p as [q y]. unfold pinball. destruct (Rle_dec y q).
  - eapply Rle_trans; [|apply Rmax_l]. nra.
  - eapply Rle_trans; [|apply Rmax_r]. nra.
Qed.
Lemma pinball_zero alpha p : 0 < alpha < 1 -> pinball alpha p = 0 <-> fst p = snd p.
Proof.
  intros Ha. destruct p as [q y]. cbn [fst snd]. unfold pinball. split; intros H.
  - pose proof (Rmax_l ((1 - alpha) * (q - y)) (alpha * (y - q))). pose proof (Rmax_r ((1 - alpha) * (q - y)) (alpha * (y - q))).
    destruct (Rtotal_order q y) as [|[|]]; nra.
  - subst. replace (y - y) with 0 by lra. rewrite !Rmult_0_r. apply Rmax_left. lra.
Qed.
(** Subgradients. *)
Lemma pinball_above alpha c c' y : 0 <= alpha <= 1 -> c <= c' ->
  pinball alpha (c, y) + (c' - c) * ((if Rleb y c then 1 else 0) - alpha) <= pinball alpha (c', y).
Proof.
  intros Ha H. rewrite <- !pinball_score by assumption. unfold Rleb, Rltb.
  destruct (Rle_dec y c), (Rlt_dec 0 (c - y)), (Rlt_dec 0 (c' - y)); nra.
Qed.
Lemma pinball_below alpha c c' y : 0 <= alpha <= 1 -> c' <= c ->
  pinball alpha (c, y) + (c' - c) * ((if Rltb y c then 1 else 0) - alpha) <= pinball alpha (c', y).
Proof.
  intros Ha H. rewrite <- !pinball_score by assumption. unfold Rltb.
  destruct (Rlt_dec y c), (Rlt_dec 0 (c - y)), (Rlt_dec 0 (c' - y)); nra.
Qed.
Lemma pinball_optimal alpha c c' (l : list R) : 0 <= alpha <= 1 -> empirical_quantile l alpha c ->
  total (map (fun y => pinball alpha (c, y)) l) <= total (map (fun y => pinball alpha (c', y)) l).
Proof.
  intros Ha [H1 H2].
  assert (K : forall (p : R -> bool), total (map (fun y => pinball alpha (c, y) + (c' - c) * ((if p y then 1 else 0) - alpha)) l) =
     total (map (fun y => pinball alpha (c, y)) l) + (c' - c) * (INR (length (filter p l)) - alpha * INR (length l))).
  { intros p. rewrite total_map_add, total_map_scal. f_equal. f_equal.
    rewrite (map_ext _ (fun y => (if p y then 1 else 0) + - alpha)) by (intros; lra).
    rewrite total_map_add, total_const, total_indicator. lra. }
  destruct (Rle_dec c c').
  - pose proof (total_map_le (fun y => pinball alpha (c, y) + (c' - c) * ((if Rleb y c then 1 else 0) - alpha)) (fun y => pinball alpha (c', y)) l
      (fun y _ => pinball_above alpha c c' y Ha r)) as L.
    rewrite (K (fun y => Rleb y c)) in L. unfold at_most in H2. unfold Rleb in L. nra.
  - assert (c' <= c) as r by lra.
    pose proof (total_map_le (fun y => pinball alpha (c, y) + (c' - c) * ((if Rltb y c then 1 else 0) - alpha)) (fun y => pinball alpha (c', y)) l
      (fun y _ => pinball_below alpha c c' y Ha r)) as L.
    rewrite (K (fun y => Rltb y c)) in L. unfold below in H1. unfold Rltb in L. nra.
Qed.

(** * Scores per level *)
Lemma laid_out_levels q t n f : laid_out q t n f -> n_quantiles q t = n.
Proof.
  unfold n_quantiles. intros [(H1 & H2 & _)|(H1 & H2 & H3 & _)].
  - rewrite H1, Nat.eqb_refl. exact H2.
  - destruct (Nat.eqb_spec (a_dim1 q) (f_cols t)); congruence.
Qed.
Lemma laid_out_error q t n f k i j : laid_out q t n f ->
  level_error q t k i j = option_map (fun b => f k i j - b) (f_at t i j).
Proof.
  unfold level_error. intros [(H1 & H2 & H)|(H1 & H2 & H3 & H)]; rewrite H.
  - rewrite H1, Nat.eqb_refl. reflexivity.
  - destruct (Nat.eqb_spec (a_dim1 q) (f_cols t)); [congruence|reflexivity].
Qed.

Definition score_frame q t k alpha := Frame (f_rows t) (f_cols t) (fun i j =>
  option_map (fun e => (indicator (level_error q t k i j) - alpha) * e) (level_error q t k i j)).
Definition rel_frame q t k := Frame (f_rows t) (f_cols t) (fun i j => Some (indicator (level_error q t k i j))).

Lemma scores_value ax q t alphas labels n f :
  laid_out q t n f -> grouped ax labels t -> (length alphas <= n)%nat ->
  quantile_scores q t alphas (Some labels) =
    Some (map (fun k => (nth k alphas 0, (on_axis ax labels (score_frame q t k (nth k alphas 0)), on_axis ax labels (rel_frame q t k))))
              (seq 0 (length alphas))).
Proof.
  intros HL Hg Hn. unfold quantile_scores. rewrite (laid_out_levels q t n f HL).
  destruct (Nat.ltb_spec n (length alphas)); [lia|].
  apply all_some_map. intros k _. unfold level_scores, agg_or_ones.
  rewrite !(aggregate_axis ax) by (auto; apply Hg). reflexivity.
Qed.
Lemma score_mean ax q t labels n f k alpha g c :
  laid_out q t n f -> grouped ax labels t -> 0 <= alpha <= 1 -> In g labels -> (c < other_size ax t)%nat ->
  mean_of (pinball alpha) (level_pairs (f k) t (group_cells ax labels g c)) (entry (on_axis ax labels (score_frame q t k alpha)) g c).
Proof.
  intros HL Hg Ha Hin Hc. unfold level_pairs.
  apply (on_axis_mean ax labels (score_frame q t k alpha) (fun cl => match f_at t (fst cl) (snd cl) with Some b => [(f k (fst cl) (snd cl), b)] | None => [] end)); auto.
  intros i j _ _. cbn [score_frame f_at fst snd]. rewrite (laid_out_error q t n f k i j HL). destruct (f_at t i j) as [b|]; [|reflexivity].
  cbn [option_map opt_list map indicator]. rewrite pinball_score by assumption. reflexivity.
Qed.
Definition hit (f : nat -> nat -> R) (t : frame) (c : nat * nat) : R :=
  match f_at t (fst c) (snd c) with Some b => if Rltb 0 (f (fst c) (snd c) - b) then 1 else 0 | None => 0 end.
Lemma rel_mean ax q t labels n f k g c :
  laid_out q t n f -> grouped ax labels t -> In g labels -> (c < other_size ax t)%nat ->
  mean_of (hit (f k) t) (group_cells ax labels g c) (entry (on_axis ax labels (rel_frame q t k)) g c).
Proof.
  intros HL Hg Hin Hc. rewrite <- (flat_map_single (group_cells ax labels g c)).
  apply (on_axis_mean ax labels (rel_frame q t k) (fun cl => [cl])); auto.
  intros i j _ _. cbn [rel_frame f_at fst snd]. rewrite (laid_out_error q t n f k i j HL). unfold hit. cbn [fst snd map].
  destruct (f_at t i j) as [b|]; reflexivity.
Qed.
Lemma hit_total f t cells : total (map (hit f t) cells) = INR (length (exceeded (level_pairs f t cells))).
Proof.
  induction cells as [|c cells IH]; [reflexivity|]. cbn [map]. rewrite total_cons, IH. unfold level_pairs, hit at 1. cbn [flat_map].
  unfold exceeded. rewrite filter_app, app_length, plus_INR. f_equal.
  destruct (f_at t (fst c) (snd c)) as [b|]; [|reflexivity]. cbn [filter fst snd]. unfold Rltb.
  destruct (Rlt_dec 0 _), (Rlt_dec b _); cbn; lra.
Qed.

Lemma scores_correct ax q t alphas labels n forecast :
  laid_out q t n forecast -> grouped ax labels t -> (length alphas <= n)%nat ->
  Forall (fun a => 0 <= a <= 1) alphas ->
  exists l, quantile_scores q t alphas (Some labels) = Some l /\ map fst l = alphas /\
    forall k alpha s r, nth_error l k = Some (alpha, (s, r)) ->
      listed labels (map fst s) /\ listed labels (map fst r) /\
      forall g c, In g labels -> (c < other_size ax t)%nat ->
        let seen := level_pairs (forecast k) t (group_cells ax labels g c) in
        mean_of (pinball alpha) seen (entry s g c) /\
        (forall v, entry s g c = Some v -> 0 <= v /\ (0 < alpha < 1 -> v = 0 <-> perfect seen)) /\
        exists v, entry r g c = Some v /\
          v = INR (length (exceeded seen)) / INR (length (group_cells ax labels g c)).
Proof.
  intros HL Hg Hn Ha. rewrite (scores_value ax q t alphas labels n forecast) by assumption. eexists. split; [reflexivity|].
  split. { rewrite map_map. cbn [fst]. apply map_seq_nth. }
  intros k alpha s r E.
  assert (Hk : (k < length alphas)%nat).
  { assert (H : nth_error _ k <> None) by (rewrite E; discriminate). apply nth_error_Some in H. rewrite map_length, seq_length in H. exact H. }
  apply nth_error_nth with (d := (0, ([], []))) in E. rewrite nth_map_seq in E by exact Hk.
  injection E as <- <- <-. set (alpha := nth k alphas 0).
  assert (Hal : 0 <= alpha <= 1) by (rewrite Forall_forall in Ha; apply Ha, nth_In, Hk).
  split; [apply on_axis_listed|]. split; [apply on_axis_listed|].
  intros g c Hin Hc. cbv zeta.
  pose proof (score_mean ax q t labels n forecast k alpha g c HL Hg Hal Hin Hc) as M.
  split; [exact M|]. split.
  - intros v Hv. rewrite Hv in M.
    assert (Hp : forall p, In p (level_pairs (forecast k) t (group_cells ax labels g c)) -> 0 <= pinball alpha p) by (intros; apply pinball_nonneg, Hal).
    split; [apply (mean_of_nonneg _ _ _ Hp M)|]. intros Hs. rewrite (mean_of_zero _ _ _ Hp M). unfold perfect.
    rewrite !Forall_forall. split; intros H p Hin'; apply (pinball_zero alpha p Hs), H, Hin'.
  - pose proof (rel_mean ax q t labels n forecast k g c HL Hg Hin Hc) as Rm.
    destruct (entry (on_axis ax labels (rel_frame q t k)) g c) as [v|] eqn:Ev.
    + exists v. split; [reflexivity|]. destruct Rm as [Rn Re]. rewrite hit_total in Re. rewrite <- Re. field.
      apply Rgt_not_eq, INR_len_pos, Rn.
    + exfalso. apply (group_cells_nonempty ax labels g c Hin). exact Rm.
Qed.

(** Among constant forecasts an empirical quantile scores best. *)
Lemma level_pairs_constant c (f : nat -> nat -> R) t cells :
  (forall cl, In cl cells -> f (fst cl) (snd cl) = c) ->
  level_pairs f t cells = map (pair c) (map snd (level_pairs f t cells)).
Proof.
  intros H. unfold level_pairs. induction cells as [|cl cells IH]; [reflexivity|]. cbn [flat_map].
  rewrite !map_app. f_equal; [|apply IH; intros; apply H; cbn; auto].
  destruct (f_at t (fst cl) (snd cl)); [|reflexivity]. cbn. rewrite H by (cbn; auto). reflexivity.
Qed.
Lemma level_pairs_observed f f' t cells : map snd (level_pairs f t cells) = map snd (level_pairs f' t cells).
Proof.
  unfold level_pairs. induction cells as [|cl cells IH]; [reflexivity|]. cbn [flat_map]. rewrite !map_app, IH.
  destruct (f_at t (fst cl) (snd cl)); reflexivity.
Qed.
Lemma constant_optimal ax q q' t alphas labels n f f' k alpha s r s' r' l l' g c v v' b b' :
  laid_out q t n f -> laid_out q' t n f' -> grouped ax labels t -> (length alphas <= n)%nat ->
  Forall (fun a => 0 <= a <= 1) alphas ->
  quantile_scores q t alphas (Some labels) = Some l -> quantile_scores q' t alphas (Some labels) = Some l' ->
  nth_error l k = Some (alpha, (s, r)) -> nth_error l' k = Some (alpha, (s', r')) ->
  In g labels -> (c < other_size ax t)%nat ->
  let cells := group_cells ax labels g c in
  (forall cl, In cl cells -> f k (fst cl) (snd cl) = b) -> (forall cl, In cl cells -> f' k (fst cl) (snd cl) = b') ->
  empirical_quantile (map snd (level_pairs (f k) t cells)) alpha b ->
  entry s g c = Some v -> entry s' g c = Some v' -> v <= v'.
Proof.
  intros HL HL' Hg Hn Ha E E' Ek Ek' Hin Hc cells Hb Hb' Hq Hv Hv'.
  destruct (scores_correct ax q t alphas labels n f HL Hg Hn Ha) as (l0 & E0 & F0 & C0). rewrite E in E0. injection E0 as <-.
  destruct (scores_correct ax q' t alphas labels n f' HL' Hg Hn Ha) as (l1 & E1 & _ & C1). rewrite E' in E1. injection E1 as <-.
  assert (Hal : 0 <= alpha <= 1).
  { rewrite Forall_forall in Ha. apply Ha. rewrite <- F0. apply (in_map fst l (alpha, (s, r))). eapply nth_error_In, Ek. }
  destruct (C0 k alpha s r Ek) as (_ & _ & D0). destruct (D0 g c Hin Hc) as (M & _).
  destruct (C1 k alpha s' r' Ek') as (_ & _ & D1). destruct (D1 g c Hin Hc) as (M' & _).
  fold cells in M, M'. rewrite Hv in M. rewrite Hv' in M'.
  pose proof (level_pairs_constant b (f k) t cells Hb) as Eb. pose proof (level_pairs_constant b' (f' k) t cells Hb') as Eb'.
  rewrite (level_pairs_observed (f' k) (f k)) in Eb'. set (obs := map snd (level_pairs (f k) t cells)) in *.
  rewrite Eb in M. rewrite Eb' in M'. destruct M as [Mn M], M' as [_ M']. rewrite map_map, map_length in M, M'.
  pose proof (pinball_optimal alpha b b' obs Hal Hq).
  assert (0 < INR (length obs)) by (apply INR_len_pos; intros Z; apply Mn; rewrite Z; reflexivity).
  assert (v * INR (length obs) <= v' * INR (length obs)) by lra. eapply Rmult_le_reg_r; eassumption.
Qed.

(** * Reliability *)
Lemma exceeded_le l : (length (exceeded l) <= length l)%nat.
Proof. unfold exceeded. induction l as [|a l IH]; cbn; [lia|]. destruct (Rlt_dec _ _); cbn; lia. Qed.
Lemma level_pairs_length f t cells : (length (level_pairs f t cells) <= length cells)%nat.
Proof. unfold level_pairs. induction cells as [|c cells IH]; [cbn; lia|]. cbn [flat_map length]. rewrite app_length. destruct (f_at t (fst c) (snd c)); cbn; lia. Qed.
Lemma level_pairs_full f t cells : all_observed t cells -> length (level_pairs f t cells) = length cells.
Proof.
  unfold level_pairs. induction cells as [|c cells IH]; intros H; [reflexivity|]. inversion H; subst. cbn [flat_map length]. rewrite app_length, IH by assumption.
  destruct (f_at t (fst c) (snd c)); [reflexivity|congruence].
Qed.
Lemma exceeded_mono f f' t cells : (forall c, In c cells -> f (fst c) (snd c) <= f' (fst c) (snd c)) ->
  (length (exceeded (level_pairs f t cells)) <= length (exceeded (level_pairs f' t cells)))%nat.
Proof.
  intros H. unfold level_pairs, exceeded. induction cells as [|c cells IH]; [cbn; lia|]. cbn [flat_map]. rewrite !filter_app, !app_length.
  assert (length (filter (fun p : R * R => if Rlt_dec (snd p) (fst p) then true else false) (match f_at t (fst c) (snd c) with Some b => [(f (fst c) (snd c), b)] | None => [] end)) <=
          length (filter (fun p : R * R => if Rlt_dec (snd p) (fst p) then true else false) (match f_at t (fst c) (snd c) with Some b => [(f' (fst c) (snd c), b)] | None => [] end)))%nat.
  { pose proof (H c (or_introl eq_refl)). destruct (f_at t (fst c) (snd c)); cbn [filter fst snd]; [|lia].
    destruct (Rlt_dec _ (f _ _)), (Rlt_dec _ (f' _ _)); cbn; try lia. lra. }
  specialize (IH ltac:(intros; apply H; cbn; auto)). lia.
Qed.
Lemma reliability_correct ax q t alphas labels n forecast get_score :
  laid_out q t n forecast -> grouped ax labels t -> (length alphas <= n)%nat ->
  exists l, reliability q t alphas (Some labels) get_score = Some l /\ map fst l = alphas /\
    forall k alpha r, nth_error l k = Some (alpha, r) -> listed labels (map fst r) /\
      forall g c, In g labels -> (c < other_size ax t)%nat -> all_observed t (group_cells ax labels g c) ->
        exists v, fraction_below (level_pairs (forecast k) t (group_cells ax labels g c)) v /\ 0 <= v <= 1 /\
          entry r g c = Some (if get_score then v - alpha else v).
Proof.
  intros HL Hg Hn. unfold reliability. rewrite (scores_value ax q t alphas labels n forecast) by assumption. cbn [option_map].
  eexists. split; [reflexivity|]. split. { rewrite !map_map. cbn [fst]. apply map_seq_nth. }
  intros k alpha r E. rewrite map_map in E. cbn [fst snd] in E.
  assert (Hk : (k < length alphas)%nat).
  { assert (H : nth_error _ k <> None) by (rewrite E; discriminate). apply nth_error_Some in H. rewrite map_length, seq_length in H. exact H. }
  apply nth_error_nth with (d := (0, [])) in E. rewrite nth_map_seq in E by exact Hk. injection E as <- <-. set (alpha := nth k alphas 0).
  split. { destruct get_score; [rewrite map_table_labels|]; apply on_axis_listed. }
  intros g c Hin Hc Hobs. pose proof (rel_mean ax q t labels n forecast k g c HL Hg Hin Hc) as Rm.
  set (cells := group_cells ax labels g c) in *.
  assert (Hne : cells <> []) by (apply group_cells_nonempty, Hin).
  destruct (entry (on_axis ax labels (rel_frame q t k)) g c) as [v|] eqn:Ev; [|congruence].
  destruct Rm as [_ Re]. rewrite hit_total in Re. pose proof (INR_len_pos cells Hne) as Hp.
  assert (Hv : v = INR (length (exceeded (level_pairs (forecast k) t cells))) / INR (length cells)) by (rewrite <- Re; field; lra).
  exists v. split; [|split].
  - split; [intros Z; apply Hne; apply length_zero_iff_nil; rewrite <- (level_pairs_full (forecast k) t cells Hobs), Z; reflexivity|].
    rewrite level_pairs_full by exact Hobs. exact Hv.
  - pose proof (pos_INR (length (exceeded (level_pairs (forecast k) t cells)))).
    assert (INR (length (exceeded (level_pairs (forecast k) t cells))) <= INR (length cells)).
    { apply le_INR. eapply Nat.le_trans; [apply exceeded_le|apply level_pairs_length]. }
    split; nra.
  - destruct get_score; [rewrite map_table_entry|]; rewrite Ev; reflexivity.
Qed.
Lemma reliability_monotone ax q t alphas labels n forecast l k k' alpha alpha' r r' g c v v' :
  laid_out q t n forecast -> grouped ax labels t -> (length alphas <= n)%nat ->
  reliability q t alphas (Some labels) false = Some l ->
  nth_error l k = Some (alpha, r) -> nth_error l k' = Some (alpha', r') ->
  In g labels -> (c < other_size ax t)%nat ->
  (forall i j, forecast k i j <= forecast k' i j) ->
  entry r g c = Some v -> entry r' g c = Some v' -> v <= v'.
Proof.
  intros HL Hg Hn E Ek Ek' Hin Hc Hm Hv Hv'. unfold reliability in E. rewrite (scores_value ax q t alphas labels n forecast) in E by assumption.
  cbn [option_map] in E. injection E as <-. rewrite map_map in Ek, Ek'. cbn [fst snd] in Ek, Ek'.
  assert (Hk : forall m x, nth_error (map (fun k => (nth k alphas 0, on_axis ax labels (rel_frame q t k))) (seq 0 (length alphas))) m = Some x ->
    x = (nth m alphas 0, on_axis ax labels (rel_frame q t m))).
  { intros m x H. assert (Hm' : (m < length alphas)%nat).
    { assert (Hs : nth_error (map (fun k => (nth k alphas 0, on_axis ax labels (rel_frame q t k))) (seq 0 (length alphas))) m <> None) by (rewrite H; discriminate).
      apply nth_error_Some in Hs. rewrite map_length, seq_length in Hs. exact Hs. }
    apply nth_error_nth with (d := x) in H. rewrite nth_map_seq in H by exact Hm'. symmetry. exact H. }
  apply Hk in Ek, Ek'. injection Ek as -> ->. injection Ek' as -> ->.
  pose proof (rel_mean ax q t labels n forecast k g c HL Hg Hin Hc) as M. rewrite Hv in M.
  pose proof (rel_mean ax q t labels n forecast k' g c HL Hg Hin Hc) as M'. rewrite Hv' in M'.
  destruct M as [Mn M], M' as [_ M']. rewrite hit_total in M, M'. pose proof (INR_len_pos _ Mn).
  pose proof (le_INR _ _ (exceeded_mono (forecast k) (forecast k') t (group_cells ax labels g c) (fun cl _ => Hm _ _))).
  assert (v * INR (length (group_cells ax labels g c)) <= v' * INR (length (group_cells ax labels g c))) by lra. eapply Rmult_le_reg_r; eassumption.
Qed.
