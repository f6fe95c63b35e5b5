From Coq Require Import Reals List Arith ZArith Bool Lia Lra.
From Verif Require Import Model.Subsample Model.HoltWinters Model.Benchmarks Model.BenchFit Spec.BenchFitSpec
  Proof.QuantilesProof Proof.SubsampleProof Proof.HoltWintersProof Proof.BenchmarksProof Proof.SeriesProof.
Import ListNotations.
Local Open Scope R_scope.

Lemma validation_nth ratio y t : nth t (validation_part ratio y) 0 = value_at y (offset ratio (length y) + t).
Proof.
  unfold validation_part, value_at, offset. destruct ratio as [r|]; cbn; [|reflexivity].
  rewrite nth_skipn. reflexivity.
Qed.
Lemma validation_length ratio y : length (validation_part ratio y) = (length y - offset ratio (length y))%nat.
Proof. unfold validation_part, offset. destruct ratio as [r|]; cbn; [rewrite skipn_length|]; lia. Qed.
Lemma offset_le ratio n : (offset ratio n <= n)%nat.
Proof. unfold offset. destruct ratio; lia. Qed.
Lemma without_last_length {V} n (l : list V) : length (without_last n l) = (length l - n)%nat.
Proof. unfold without_last. rewrite firstn_length. lia. Qed.
Lemma without_last_nth n (l : list R) i : (i < length l - n)%nat -> nth i (without_last n l) 0 = nth i l 0.
Proof. intros H. unfold without_last. apply nth_firstn. assumption. Qed.
Lemma tl_nth (l : list R) i : nth i (tl l) 0 = nth (S i) l 0.
Proof. destruct l; destruct i; reflexivity. Qed.
Lemma tl_length {V} (l : list V) : length (tl l) = (length l - 1)%nat.
Proof. destruct l; cbn; lia. Qed.
Lemma target_entry (l : list R) n_sa i h : (1 <= n_sa)%nat -> (i < length l - n_sa)%nat -> (h < n_sa)%nat ->
  length (nth i (hankel (tl l) n_sa) []) = n_sa /\ entry (hankel (tl l) n_sa) i h = nth (i + 1 + h) l 0.
Proof.
  intros H1 Hi Hh. destruct (hankel_windows (tl l) n_sa 0) as [_ W]; [rewrite tl_length; lia|].
  destruct (W i) as [Wl Wv]; [rewrite tl_length; lia|]. split; [assumption|].
  unfold entry. rewrite Wv by assumption. rewrite tl_nth. f_equal. lia.
Qed.
Lemma differences_entry (a b : list (list R)) i h : (i < length a)%nat -> (i < length b)%nat ->
  (h < length (nth i a []))%nat -> (h < length (nth i b []))%nat -> entry (differences a b) i h = entry a i h - entry b i h.
Proof.
  intros Ha Hb H1 H2. unfold entry, differences. rewrite (map2_nth _ a b i [] [] []) by assumption.
  rewrite (map2_nth _ _ _ h 0 0 0) by assumption. reflexivity.
Qed.
Lemma rows_at_nth {V} (d : V) ps l j : (j < length ps)%nat -> nth j (rows_at d ps l) d = nth (nth j ps 0%nat) l d.
Proof.
  intros H. unfold rows_at. rewrite (nth_indep _ d (nth 0 l d)) by (rewrite map_length; assumption).
  rewrite (map_nth (fun i => nth i l d) ps 0%nat). reflexivity.
Qed.
Lemma rows_at_length {V} (d : V) ps l : length (rows_at d ps l) = length ps.
Proof. apply map_length. Qed.
Lemma rows_at_all {V} (d : V) l : rows_at d (every_row (length l)) l = l.
Proof.
  unfold rows_at, every_row. apply (nth_ext _ _ d d).
  - rewrite map_length, seq_length. reflexivity.
  - intros i Hi. rewrite map_length, seq_length in Hi. rewrite nth_map_seq by assumption. reflexivity.
Qed.

(** Persistence *)
Lemma persistent_errors_values (ratio : option R) (n_sa : nat) (positions : nat -> list nat) (y : list R) (j h : nat) :
  (1 <= n_sa)%nat -> chooses positions ->
  let o := offset ratio (length y) in
  let kept := positions (length y - o - n_sa)%nat in
  (j < length kept)%nat -> (h < n_sa)%nat ->
  entry (persistent_errors ratio n_sa positions y) j h =
  value_at y (o + nth j kept 0%nat + 1 + h) - value_at y (o + nth j kept 0%nat).
Proof.
  intros H1 Hc o kept Hj Hh. unfold persistent_errors.
  assert (Lx : length (without_last n_sa (validation_part ratio y)) = (length y - o - n_sa)%nat)
    by (rewrite without_last_length, validation_length; reflexivity).
  rewrite Lx. fold kept. set (i := nth j kept 0%nat).
  assert (Hi : (i < length y - o - n_sa)%nat) by (apply Hc; apply nth_In; assumption).
  destruct (target_entry (validation_part ratio y) n_sa i h H1) as [Tl Tv]; [rewrite validation_length; fold o; lia|assumption|].
  destruct (persistent_rows n_sa (rows_at 0 kept (without_last n_sa (validation_part ratio y))) 0) as [Pl Pr].
  destruct (Pr j) as [Pl2 Pv]; [rewrite rows_at_length; assumption|].
  rewrite differences_entry.
  - unfold entry. rewrite rows_at_nth by assumption. fold i. fold (entry (hankel (tl (validation_part ratio y)) n_sa) i h).
    rewrite Tv, validation_nth. rewrite Pv by assumption. rewrite rows_at_nth by assumption. fold i.
    rewrite without_last_nth by (rewrite validation_length; assumption). rewrite validation_nth. fold o.
    f_equal. f_equal. lia.
  - rewrite rows_at_length. assumption.
  - rewrite Pl, rows_at_length. assumption.
  - rewrite rows_at_nth by assumption. fold i. lia.
  - rewrite Pl2. assumption.
Qed.

(** Seasonal persistence *)
Lemma training_nth ratio y t : (t < length (training_part ratio y))%nat -> nth t (training_part ratio y) 0 = value_at y t.
Proof.
  unfold training_part, value_at. destruct ratio as [r|]; cbn; [|reflexivity].
  intros H. apply nth_firstn. rewrite firstn_length in H. lia.
Qed.
Lemma training_length ratio y : length (training_part ratio y) = match ratio with None => length y | Some _ => offset ratio (length y) end.
Proof. unfold training_part, offset. destruct ratio as [r|]; cbn; [rewrite firstn_length|]; lia. Qed.
Lemma state_length ratio s y : (1 <= s)%nat -> (s <= length (training_part ratio y))%nat -> length (fitted_state ratio s y) = s.
Proof.
  intros H H2. unfold fitted_state, seasonal_state. destruct (Nat.eqb_spec s 0); [lia|]. rewrite skipn_length. lia.
Qed.
Lemma state_nth ratio s y t : (1 <= s)%nat -> (s <= length (training_part ratio y))%nat -> (t < s)%nat ->
  nth t (fitted_state ratio s y) 0 = value_at y (length (training_part ratio y) - s + t).
Proof.
  intros H H2 H3. unfold fitted_state, seasonal_state. destruct (Nat.eqb_spec s 0); [lia|]. rewrite nth_skipn.
  apply training_nth. lia.
Qed.
Lemma seasonal_after_fit (s n_sa : nat) (y x : list R) (rows : list (list R)) (i h : nat) :
  (1 <= n_sa)%nat -> (1 <= s <= length y)%nat -> seasonal_forecast None s n_sa y x = Some rows ->
  (i < length x)%nat -> (h < n_sa)%nat -> entry rows i h = value_at (y ++ x) (length y + i + h - s).
Proof.
  intros H1 Hs E Hi Hh. unfold seasonal_forecast in E.
  destruct (seasonal_rows n_sa _ _ _ 0 H1 E) as [L V]. destruct (V i h Hi Hh) as [B V1]. unfold entry. rewrite V1. clear V1.
  rewrite state_length in B by (rewrite ?training_length; lia). unfold value_at.
  destruct (Nat.lt_ge_cases (i + h) s) as [Lt|Ge].
  - rewrite app_nth1 by (rewrite state_length; rewrite ?training_length; lia).
    rewrite state_nth by (rewrite ?training_length; lia). rewrite training_length. unfold value_at.
    rewrite app_nth1 by lia. f_equal. lia.
  - rewrite app_nth2; rewrite state_length by (rewrite ?training_length; lia); [|lia].
    rewrite nth_firstn by lia. rewrite app_nth2 by lia. f_equal. lia.
Qed.
Lemma seasonal_after_split (r : R) (s n_sa : nat) (y x : list R) (rows : list (list R)) (i h : nat) :
  (1 <= n_sa)%nat -> (1 <= s)%nat -> (s + n_val (length y) r <= length y)%nat ->
  seasonal_forecast (Some r) s n_sa y x = Some rows -> (i < length x)%nat -> (h < n_sa)%nat -> (i + h < s)%nat ->
  entry rows i h = value_at (y ++ x) (length y + i + h - s - n_val (length y) r).
Proof.
  intros H1 Hs Hv E Hi Hh Hih. unfold seasonal_forecast in E.
  destruct (seasonal_rows n_sa _ _ _ 0 H1 E) as [L V]. destruct (V i h Hi Hh) as [B V1]. unfold entry. rewrite V1. clear V1. unfold value_at.
  assert (T : length (training_part (Some r) y) = (length y - n_val (length y) r)%nat) by (rewrite training_length; reflexivity).
  rewrite app_nth1 by (rewrite state_length; lia). rewrite state_nth by lia. rewrite T. unfold value_at. rewrite app_nth1 by lia. f_equal. lia.
Qed.
Lemma seasonal_errors_general (ratio : option R) (s n_sa : nat) (y : list R) (errs : list (list R)) (i h : nat) :
  (1 <= n_sa)%nat -> (1 <= s <= length (training_part ratio y))%nat -> let o := offset ratio (length y) in
  seasonal_errors ratio s n_sa every_row y = Some errs -> (o + i + n_sa < length y)%nat -> (h < n_sa)%nat ->
  (h <= s)%nat /\ entry errs i h = value_at y (o + i + 1 + h) - nth (i + h) (fitted_state ratio s y ++ validation_part ratio y) 0.
Proof.
  intros H1 Hs o E Hi Hh. unfold seasonal_errors in E.
  assert (O : offset ratio (length y) = o) by reflexivity.
  assert (Lx : length (without_last n_sa (validation_part ratio y)) = (length y - o - n_sa)%nat)
    by (rewrite without_last_length, validation_length, O; reflexivity).
  rewrite rows_at_all in E. destruct (seasonal_predict n_sa (fitted_state ratio s y) _) as [preds|] eqn:Ep; [|discriminate].
  injection E as <-.
  destruct (seasonal_rows n_sa _ _ _ 0 H1 Ep) as [L V]. rewrite Lx in *.
  destruct (V i h ltac:(lia) Hh) as [B V1]. rewrite state_length in B by lia.
  assert (Hfull : length (nth i preds []) = n_sa).
  { unfold seasonal_predict in Ep. destruct (Nat.eqb _ _) eqn:Eb; [|discriminate]. injection Ep as <-.
    rewrite nth_firstn by (rewrite Lx; lia). apply Nat.eqb_eq in Eb. rewrite firstn_length in Eb. rewrite Lx in Eb.
    assert (n_sa <= length (fitted_state ratio s y ++ without_last n_sa (validation_part ratio y)))%nat.
    { destruct (Nat.le_gt_cases n_sa (length (fitted_state ratio s y ++ without_last n_sa (validation_part ratio y)))) as [|G]; [assumption|].
      unfold hankel in Eb. rewrite map_length, seq_length in Eb. lia. }
    destruct (hankel_windows (fitted_state ratio s y ++ without_last n_sa (validation_part ratio y)) n_sa 0 ltac:(assumption)) as [HL HW].
    apply HW. rewrite HL in Eb. lia. }
  split; [lia|].
  destruct (target_entry (validation_part ratio y) n_sa i h H1) as [Tl Tv]; [rewrite validation_length, O; lia|assumption|].
  rewrite differences_entry.
  - unfold entry. rewrite rows_at_nth by (unfold every_row; rewrite seq_length; lia).
    unfold every_row at 1. rewrite seq_nth by lia. rewrite Nat.add_0_l. fold (entry (hankel (tl (validation_part ratio y)) n_sa) i h).
    rewrite Tv, V1, validation_nth, O. f_equal; [f_equal; lia|].
    destruct (Nat.lt_ge_cases (i + h) s) as [Lt|Ge].
    + rewrite !app_nth1 by (rewrite state_length; lia). reflexivity.
    + rewrite !app_nth2; rewrite ?state_length by lia; try lia. rewrite nth_firstn by lia.
      rewrite without_last_nth by (rewrite validation_length, O; lia). reflexivity.
  - rewrite rows_at_length. unfold every_row. rewrite seq_length. lia.
  - rewrite L. lia.
  - rewrite rows_at_nth by (unfold every_row; rewrite seq_length; lia). unfold every_row. rewrite seq_nth by lia. rewrite Nat.add_0_l. lia.
  - rewrite Hfull. assumption.
Qed.
Lemma seasonal_errors_split (r : R) (s n_sa : nat) (y : list R) (errs : list (list R)) (i h : nat) :
  (1 <= n_sa)%nat -> let o := (length y - n_val (length y) r)%nat in (1 <= s <= o)%nat ->
  seasonal_errors (Some r) s n_sa every_row y = Some errs -> (o + i + n_sa < length y)%nat -> (h < n_sa)%nat ->
  (h <= s)%nat /\ entry errs i h = value_at y (o + i + 1 + h) - value_at y (o + i + h - s).
Proof.
  intros H1 o Hs E Hi Hh.
  assert (T : length (training_part (Some r) y) = o) by (rewrite training_length; reflexivity).
  destruct (seasonal_errors_general (Some r) s n_sa y errs i h H1 ltac:(lia) E Hi Hh) as [B ->]. split; [assumption|].
  change (offset (Some r) (length y)) with o. f_equal.
  destruct (Nat.lt_ge_cases (i + h) s) as [Lt|Ge].
  - rewrite app_nth1 by (rewrite state_length; lia). rewrite state_nth by lia. rewrite T. f_equal. lia.
  - rewrite app_nth2; rewrite state_length by lia; [|lia]. rewrite validation_nth. change (offset (Some r) (length y)) with o. f_equal. lia.
Qed.
Lemma seasonal_errors_whole (s n_sa : nat) (y : list R) (errs : list (list R)) (i h : nat) :
  (1 <= n_sa)%nat -> (1 <= s < length y)%nat -> seasonal_errors None s n_sa every_row y = Some errs ->
  (i + n_sa < length y)%nat -> (h < n_sa)%nat -> (i + h < s)%nat ->
  (i < length y - s + i + h)%nat /\ entry errs i h = value_at y (i + 1 + h) - value_at y (length y - s + i + h).
Proof.
  intros H1 Hs E Hi Hh Hih. split; [lia|].
  destruct (seasonal_errors_general None s n_sa y errs i h H1 ltac:(rewrite training_length; lia) E Hi Hh) as [B ->].
  cbn [offset]. rewrite Nat.add_0_l. f_equal. rewrite app_nth1 by (rewrite state_length; rewrite ?training_length; lia).
  rewrite state_nth by (rewrite ?training_length; lia). rewrite training_length. f_equal. lia.
Qed.

(** Capped rows *)
Lemma persistent_capped (ratio : option R) (n_sa : nat) (positions : nat -> list nat) (y : list R) (j h : nat) :
  (1 <= n_sa)%nat -> chooses positions ->
  let kept := positions (length y - offset ratio (length y) - n_sa)%nat in
  (j < length kept)%nat -> (h < n_sa)%nat ->
  entry (persistent_errors ratio n_sa positions y) j h = entry (persistent_errors ratio n_sa every_row y) (nth j kept 0%nat) h.
Proof.
  intros H1 Hc kept Hj Hh. rewrite persistent_errors_values by assumption. fold kept.
  assert (Hi : (nth j kept 0 < length y - offset ratio (length y) - n_sa)%nat) by (apply Hc; apply nth_In; assumption).
  rewrite persistent_errors_values; try assumption.
  - unfold every_row. rewrite !seq_nth by assumption. reflexivity.
  - intros n i H. apply in_seq in H. lia.
  - unfold every_row. rewrite seq_length. assumption.
Qed.
Lemma seasonal_capped_refuted : exists (positions : nat -> list nat) (y : list R) (errs capped : list (list R)),
  chooses positions /\ (forall n, NoDup (positions n)) /\
  seasonal_errors (Some (3 / 4)) 1 1 every_row y = Some errs /\ seasonal_errors (Some (3 / 4)) 1 1 positions y = Some capped /\
  positions 5%nat = [0; 2]%nat /\ entry capped 1 0 <> entry errs 2 0.
Proof.
  set (positions := fun n : nat => if (n =? 5)%nat then [0; 2]%nat else []).
  set (y := [0; 0; 1; 3; 7; 15; 31; 63]).
  assert (Ho : n_val (length y) (3 / 4) = 6%nat).
  { unfold n_val. apply StatsProof.floor_eq. cbn. lra. }
  assert (V : validation_part (Some (3 / 4)) y = [1; 3; 7; 15; 31; 63]).
  { unfold validation_part, train_val_split. rewrite Ho. reflexivity. }
  assert (T : training_part (Some (3 / 4)) y = [0; 0]).
  { unfold training_part, train_val_split. rewrite Ho. reflexivity. }
  exists positions, y, [[3 - 0]; [7 - 1]; [15 - 3]; [31 - 7]; [63 - 15]], [[3 - 0]; [15 - 1]].
  split; [|split; [|split; [|split; [|split]]]].
  - intros n i H. unfold positions in H. destruct (Nat.eqb_spec n 5) as [->|]; [|destruct H]. cbn in H. lia.
  - intros n. unfold positions. destruct (n =? 5)%nat; repeat constructor; cbn; intuition discriminate.
  - unfold seasonal_errors, fitted_state. rewrite V, T. reflexivity.
  - unfold seasonal_errors, fitted_state. rewrite V, T. reflexivity.
  - reflexivity.
  - cbn. lra.
Qed.
