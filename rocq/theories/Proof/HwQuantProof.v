From Coq Require Import List ZArith Bool Arith Reals Lia Lra Permutation.
From Verif Require Import Model.Series Model.Stats Model.Subsample Model.HoltWinters Model.HwQuant Spec.StatsSpec Spec.HwQuantSpec
  Proof.SeriesProof Proof.QuantilesProof Proof.SubsampleProof Proof.StatsProof Proof.TuningProof.
Import ListNotations.
Local Open Scope R_scope.

Lemma shape_row n steps t i : of_shape n steps t -> (i < n)%nat -> length (nth i t []) = steps.
Proof. intros [H1 H2] Hi. rewrite Forall_forall in H2. apply H2, nth_In. lia. Qed.
Lemma shape_map2 f n steps a b : of_shape n steps a -> of_shape n steps b -> of_shape n steps (map2 (map2 f) a b) /\
  forall i j, (i < n)%nat -> (j < steps)%nat -> at2 (map2 (map2 f) a b) i j = f (at2 a i j) (at2 b i j).
Proof.
  intros Ha Hb. destruct Ha as [La Fa]. destruct Hb as [Lb Fb]. split.
  - split; [rewrite map2_length; lia|]. rewrite (map2_seq (map2 f) a b n [] []) by assumption. apply Forall_map, Forall_forall.
    intros i Hi. apply in_seq in Hi. rewrite map2_length; [apply (shape_row n steps a i); [split; assumption|lia]|].
    rewrite (shape_row n steps a i), (shape_row n steps b i) by (try split; try assumption; lia). reflexivity.
  - intros i j Hi Hj. unfold at2. rewrite (map2_nth (map2 f) a b i [] [] []) by lia.
    assert (L1 : length (nth i a []) = steps) by (apply (shape_row n steps a i); [split; assumption|lia]).
    assert (L2 : length (nth i b []) = steps) by (apply (shape_row n steps b i); [split; assumption|lia]).
    apply map2_nth; lia.
Qed.

Lemma errors_at steps levels resid j i : (j < steps)%nat -> (i < length levels)%nat ->
  at2 (error_quantiles steps levels resid) j i = quantile (map (fun r => nth j r 0) resid) (nth i levels 0).
Proof.
  intros Hj Hi. unfold at2, error_quantiles. rewrite nth_map_seq by exact Hj. cbn [Nat.add].
  rewrite (nth_indep _ 0 (quantile (map (fun r => nth j r 0) resid) 0)) by (rewrite map_length; exact Hi). apply map_nth.
Qed.
Lemma forecast_at steps levels resid row j i : (j < steps)%nat -> (i < length levels)%nat -> length row = steps ->
  at2 (quantile_forecast (error_quantiles steps levels resid) row) j i = nth j row 0 + at2 (error_quantiles steps levels resid) j i.
Proof.
  intros Hj Hi Hr. unfold at2, quantile_forecast.
  rewrite (map2_nth (fun p e => map (Rplus p) e) row _ j 0 [] []) by (unfold error_quantiles; rewrite ?map_length, ?seq_length; lia).
  assert (L : length (nth j (error_quantiles steps levels resid) []) = length levels).
  { unfold error_quantiles. rewrite nth_map_seq by exact Hj. apply map_length. }
  rewrite (nth_indep _ 0 (nth j row 0 + 0)) by (rewrite map_length; lia). apply map_nth.
Qed.

Lemma forecasts_ordered (steps : nat) (levels : list R) (resid : table) (row : list R) (j i i' : nat) :
  resid <> [] -> length row = steps -> Forall (fun q => 0 <= q <= 1) levels ->
  (j < steps)%nat -> (i < length levels)%nat -> (i' < length levels)%nat -> nth i levels 0 <= nth i' levels 0 ->
  let q := quantile_forecast (error_quantiles steps levels resid) row in at2 q j i <= at2 q j i'.
Proof.
  intros Hr Hw Hq Hj Hi Hi' Hle q. unfold q. rewrite !forecast_at by assumption. apply Rplus_le_compat_l. rewrite !errors_at by assumption.
  rewrite Forall_forall in Hq. apply quantile_monotone; [destruct resid; [congruence|discriminate]|apply Hq, nth_In; assumption|exact Hle|apply Hq, nth_In; assumption].
Qed.

Lemma filter_seq_count {A} (f : nat -> bool) (g : A -> bool) (l : list A) d : (forall i, (i < length l)%nat -> f i = g (nth i l d)) ->
  length (filter f (seq 0 (length l))) = length (filter g l).
Proof.
  revert f. induction l as [|a l IH]; intros f H; [reflexivity|]. cbn [length seq filter].
  assert (E : length (filter f (seq 1 (length l))) = length (filter g l)).
  { rewrite <- seq_shift. rewrite <- (IH (fun i => f (S i))) by (intros i Hi; apply (H (S i)); cbn; lia).
    clear. induction (seq 0 (length l)) as [|b s IHs]; [reflexivity|]. cbn. destruct (f (S b)); cbn; rewrite IHs; reflexivity. }
  rewrite (H 0%nat) by (cbn; lia). cbn [nth]. destruct (g a); cbn; rewrite E; reflexivity.
Qed.

Lemma errors_cover (n steps : nat) (levels : list R) (preds target : table) (j i : nat) :
  of_shape n steps preds -> of_shape n steps target -> (0 < n)%nat -> (j < steps)%nat -> (i < length levels)%nat ->
  0 <= nth i levels 0 <= 1 ->
  let err := error_quantiles steps levels (minus_table target preds) in
  nth i levels 0 * INR (n - 1) < INR (rows_below err preds target j i) /\
  (1 - nth i levels 0) * INR (n - 1) < INR (rows_above err preds target j i).
Proof.
  intros Hp Ht Hn Hj Hi Hq err.
  destruct (shape_map2 Rminus n steps target preds Ht Hp) as [Hs Hc]. fold (minus_table target preds) in *.
  set (resid := minus_table target preds) in *. set (col := map (fun r => nth j r 0) resid).
  assert (Lr : length resid = n) by apply Hs. assert (Lc : length col = n) by (unfold col; now rewrite map_length).
  assert (Cn : forall t, nth t col 0 = at2 resid t j).
  { intros t. unfold col, at2. destruct (lt_dec t (length resid)) as [L|L].
    - rewrite (nth_indep _ 0 (nth j [] 0)) by (rewrite map_length; exact L). apply (map_nth (fun r => nth j r 0)).
    - rewrite nth_overflow by (rewrite map_length; lia). rewrite (nth_overflow resid) by lia. destruct j; reflexivity. }
  set (q := nth i levels 0) in *.
  assert (Lt : length target = n) by apply Ht.
  assert (B : rows_below err preds target j i = length (filter (fun x => Rleb x (quantile col q)) col)).
  { unfold rows_below. rewrite Lt, <- Lc. apply (filter_seq_count _ _ col 0). intros t Hti. rewrite Lc in Hti. unfold err.
    rewrite forecast_at by (try assumption; now apply (shape_row n steps)). rewrite errors_at by assumption. fold col q.
    rewrite Cn, Hc by assumption. fold (at2 preds t j). unfold Rleb. destruct (Rle_dec _ _); destruct (Rle_dec _ _); try reflexivity; lra. }
  assert (A : rows_above err preds target j i = length (filter (fun x => Rleb (quantile col q) x) col)).
  { unfold rows_above. rewrite Lt, <- Lc. apply (filter_seq_count _ _ col 0). intros t Hti. rewrite Lc in Hti. unfold err.
    rewrite forecast_at by (try assumption; now apply (shape_row n steps)). rewrite errors_at by assumption. fold col q.
    rewrite Cn, Hc by assumption. fold (at2 preds t j). unfold Rleb. destruct (Rle_dec _ _); destruct (Rle_dec _ _); try reflexivity; lra. }
  rewrite A, B, <- Lc. apply quantile_coverage; [destruct col; [cbn in Lc; lia|discriminate]|exact Hq| |];
    apply how_many_filter; intros x; unfold Rleb; destruct (Rle_dec _ _); split; intros; try assumption; try reflexivity; try discriminate; contradiction.
Qed.

Lemma stateful_cover (n steps : nat) (levels : list R) (preds target : table) (j i : nat) :
  of_shape n steps preds -> of_shape n steps target -> (0 < n)%nat -> (j < steps)%nat -> (i < length levels)%nat ->
  0 <= nth i levels 0 <= 1 ->
  let err := stateful_errors steps levels preds target in
  nth i levels 0 * INR (n - 1) < INR (rows_below err preds target j i) /\
  (1 - nth i levels 0) * INR (n - 1) < INR (rows_above err preds target j i).
Proof. exact (errors_cover n steps levels preds target j i). Qed.

Lemma hw_cover (regress : table -> table) (columns n steps : nat) (levels : list R) (smooth target : table) (j i : nat) :
  (forall t, of_shape n steps t -> of_shape n steps (regress t)) -> (1 < columns)%nat ->
  of_shape n steps smooth -> of_shape n steps target -> (0 < n)%nat -> (j < steps)%nat -> (i < length levels)%nat ->
  0 <= nth i levels 0 <= 1 ->
  let err := hw_errors regress steps levels smooth target in
  let preds := hw_corrected columns smooth (regress (minus_table target smooth)) in
  nth i levels 0 * INR (n - 1) < INR (rows_below err preds target j i) /\
  (1 - nth i levels 0) * INR (n - 1) < INR (rows_above err preds target j i).
Proof.
  intros Hr Hc Hs Ht Hn Hj Hi Hq err preds. unfold err, preds, hw_errors, hw_corrected. rewrite (proj2 (Nat.ltb_lt 1 columns) Hc).
  apply (errors_cover n steps); try assumption. destruct (shape_map2 Rminus n steps target smooth Ht Hs) as [Hm _].
  apply (shape_map2 Rplus n steps); [exact Hs|apply Hr, Hm].
Qed.

(** * One column *)
Definition flat_state (v : R) (p1 p2 : nat) : state := State (Some 0) (Some 0) (repeat (Some v) p1) (repeat (Some v) p2).
Lemma repeat_snoc {A} (a : A) n : repeat a n ++ [a] = a :: repeat a n.
Proof. induction n as [|n IH]; [reflexivity|]. cbn. now rewrite IH. Qed.
Lemma shift_repeat v n : (0 < n)%nat -> HoltWinters.shift (repeat (Some v) n) (Some v) = repeat (Some v) n.
Proof. destruct n; [lia|]. intros _. unfold HoltWinters.shift. cbn [repeat tl]. apply repeat_snoc. Qed.
Lemma nth_repeat_lt {A} (a d : A) n i : (i < n)%nat -> nth i (repeat a n) d = a.
Proof. revert i. induction n as [|n IH]; intros [|i] H; cbn; try lia; [reflexivity|]. apply IH. lia. Qed.
Lemma flat_step v p1 p2 : (0 < p1)%nat -> (0 < p2)%nat ->
  step (Params 0 0 0 0 None None p1 p2 1) (flat_state v p1 p2) (Some v) (Some v) = (flat_state v p1 p2, [Some (2 * v)]).
Proof.
  intros H1 H2. unfold step. cbn [is_nan flat_state season1 season2 level trend alpha beta gamma1 gamma2 period1 period2 steps].
  assert (E1 : hd None (repeat (Some v) p1) = Some v) by (destruct p1; [lia|reflexivity]).
  assert (E2 : hd None (repeat (Some v) p2) = Some v) by (destruct p2; [lia|reflexivity]). rewrite E1, E2.
  cbn [minus plus lift2 scale option_map constrainify lower upper].
  replace (0 * (v - v - v) + (1 - 0) * (0 + 0)) with 0 by ring.
  replace (0 * (v - 0 - v) + (1 - 0) * v) with v by ring.
  replace (0 * (0 - 0) + (1 - 0) * 0) with 0 by ring.
  unfold constrainify. cbn [lower upper]. rewrite !shift_repeat by assumption. f_equal.
  cbn [seq map]. rewrite !Nat.mod_0_l by lia. rewrite !nth_repeat_lt by assumption. cbn [plus lift2 scale option_map INR]. do 2 f_equal. ring.
Qed.
Lemma flat_run v p1 p2 n : (0 < p1)%nat -> (0 < p2)%nat ->
  run (Params 0 0 0 0 None None p1 p2 1) (flat_state v p1 p2) (repeat (Some v) n) = (repeat [Some (2 * v)] n, flat_state v p1 p2).
Proof. intros H1 H2. induction n as [|n IH]; [reflexivity|]. cbn [repeat run]. rewrite flat_step by assumption. rewrite IH. reflexivity. Qed.
Lemma last_repeat {A} (a d : A) n : (0 < n)%nat -> last (repeat a n) d = a.
Proof. intros H. destruct n; [lia|]. clear H. induction n as [|n IH]; [reflexivity|]. exact IH. Qed.
Lemma flat_initial v p1 p2 n st : (0 < p1)%nat -> (0 < p2)%nat -> (0 < n)%nat -> (st = None \/ st = Some (flat_state v p1 p2)) ->
  initial (Params 0 0 0 0 None None p1 p2 1) st (repeat (Some v) n) = flat_state v p1 p2.
Proof.
  intros H1 H2 Hn [-> | ->]; unfold initial; cbn [period1 period2].
  - rewrite last_repeat by exact Hn. reflexivity.
  - unfold memory, flat_state. cbn [level trend season1 season2 or_zero].
    replace (forallb is_nan (repeat (Some v) p1)) with false by (destruct p1; [lia|reflexivity]).
    replace (forallb is_nan (repeat (Some v) p2)) with false by (destruct p2; [lia|reflexivity]). reflexivity.
Qed.
Lemma skipn_repeat {A} (a : A) k n : skipn k (repeat a n) = repeat a (n - k).
Proof. revert k. induction n as [|n IH]; intros [|k]; try reflexivity. cbn. apply IH. Qed.
Lemma firstn_repeat {A} (a : A) k n : firstn k (repeat a n) = repeat a (Nat.min k n).
Proof. revert k. induction n as [|n IH]; intros [|k]; try reflexivity. cbn. f_equal. apply IH. Qed.
Lemma flat_rerun v p1 p2 n : (0 < p1)%nat -> (0 < p2)%nat -> (0 < n)%nat -> forall k,
  rerun k (Params 0 0 0 0 None None p1 p2 1) (Some (flat_state v p1 p2)) (repeat (Some v) n) = Some (flat_state v p1 p2).
Proof.
  intros H1 H2 Hn. induction k as [|k IH]; [reflexivity|]. cbn [rerun]. unfold run_from.
  rewrite flat_initial by (try assumption; now right). rewrite flat_run by assumption. exact IH.
Qed.

Lemma repeat_map {A B} (f : A -> B) a n : map f (repeat a n) = repeat (f a) n.
Proof. induction n as [|n IH]; [reflexivity|]. cbn. now rewrite IH. Qed.
Lemma map2_repeat {A B C} (f : A -> B -> C) a b n : map2 f (repeat a n) (repeat b n) = repeat (f a b) n.
Proof. induction n as [|n IH]; [reflexivity|]. cbn [repeat]. now rewrite map2_cons, IH. Qed.
Lemma sum_repeat c n : fold_right Rplus 0 (repeat c n) = INR n * c.
Proof. induction n as [|n IH]; [cbn; lra|]. cbn [repeat fold_right]. rewrite IH, S_INR. ring. Qed.
Lemma quantile_const c n q : (0 < n)%nat -> 0 <= q <= 1 -> quantile (repeat c n) q = c.
Proof.
  intros Hn Hq. assert (c <= quantile (repeat c n) q <= c); [|lra]. apply quantile_bounds; [destruct n; [lia|discriminate]|exact Hq|].
  intros x Hx. apply repeat_spec in Hx. subst. lra.
Qed.

Lemma one_column_biased (v : R) (p1 p2 n : nat) (levels : list R) : (0 < p1)%nat -> (0 < p2)%nat -> (2 <= n)%nat -> v <> 0 ->
  Forall (fun q => 0 <= q <= 1) levels ->
  let p := Params 0 0 0 0 None None p1 p2 1 in
  exists target smooth st err,
    fit_rows p None (repeat (Some v) n) = (map (map Some) target, map (map Some) smooth, st) /\
    err = hw_errors (regress_one (repeat v (n - 1))) 1 levels smooth target /\
    fst (predict p st [Some v] None) = [[Some (2 * v)]] /\
    quantile_forecast err [2 * v] = [repeat (2 * v) (length levels)].
Proof.
  intros H1 H2 Hn Hv Hq p. exists (repeat [v] (n - 1)), (repeat [2 * v] (n - 1)), (Some (flat_state v p1 p2)).
  eexists. split; [|split; [reflexivity|split]].
  - unfold fit_rows, run_from, p. rewrite (flat_initial v) by (try assumption; try lia; now left). rewrite flat_run by assumption.
    assert (Ht : hankel (skipn 1 (repeat (Some v) n)) 1 = repeat [Some v] (n - 1)).
    { rewrite skipn_repeat. unfold hankel. rewrite repeat_length. replace (n - 1 + 1 - 1)%nat with (n - 1)%nat by lia.
      apply (list_eq_nth _ _ []); [now rewrite map_length, seq_length, repeat_length|]. intros i Hi. rewrite map_length, seq_length in Hi.
      rewrite nth_map_seq by exact Hi. rewrite nth_repeat_lt by exact Hi. cbn [Nat.add]. rewrite skipn_repeat.
      destruct (n - 1 - i)%nat as [|r] eqn:E; [lia|]. reflexivity. }
    cbn [steps]. match goal with |- context [hankel ?a 1] => change (hankel a 1) with (hankel (skipn 1 (repeat (Some v) n)) 1) end.
    rewrite Ht, repeat_length, firstn_repeat. replace (Nat.min (n - 1) n) with (n - 1)%nat by lia. rewrite !repeat_map. cbn [map].
    unfold reinit, last_values. rewrite repeat_length, skipn_repeat. cbn [period1 period2].
    rewrite flat_rerun by lia. reflexivity.
  - unfold predict, no_trend, p. cbn [alpha gamma1 gamma2 lower upper period1 period2 steps]. unfold run_from.
    change [Some v] with (repeat (Some v) 1). rewrite flat_initial by (try assumption; try lia; now right). rewrite flat_run by assumption. reflexivity.
  - assert (Ez : hw_errors (regress_one (repeat v (n - 1))) 1 levels (repeat [2 * v] (n - 1)) (repeat [v] (n - 1)) = [repeat 0 (length levels)]).
    { unfold hw_errors, minus_table, plus_table. rewrite (map2_repeat (map2 Rminus) [v] [2 * v]).
      unfold regress_one. rewrite repeat_map. cbn [map2 combine map nth fst snd]. rewrite !map2_repeat, !sum_repeat.
      assert (P : 0 < INR (n - 1)) by (apply lt_0_INR; lia).
      destruct (Req_EM_T (INR (n - 1) * (v * v)) 0) as [Z|Z].
      { exfalso. apply Rmult_integral in Z as [Z|Z]; [lra|]. apply Rmult_integral in Z as [Z|Z]; contradiction. }
      rewrite repeat_map. cbn [fst snd]. rewrite !map2_repeat. unfold error_quantiles. cbn [seq map]. rewrite repeat_map. cbn [map2 combine map nth fst snd].
      f_equal. rewrite ?sum_repeat. replace (v - (2 * v + v * (INR (n - 1) * (v * (v - 2 * v)) / (INR (n - 1) * (v * v))))) with 0 by (field; split; lra).
      rewrite Forall_forall in Hq. apply (list_eq_nth _ _ 0); [now rewrite map_length, repeat_length|]. intros i Hi. rewrite map_length in Hi.
      rewrite nth_repeat_lt by exact Hi. rewrite (nth_indep _ 0 (quantile (repeat 0 (n - 1)) 0)) by (rewrite map_length; exact Hi).
      rewrite map_nth. apply quantile_const; [lia|]. apply Hq, nth_In, Hi. }
    rewrite Ez. unfold quantile_forecast. cbn [map2 combine map fst snd]. rewrite repeat_map, Rplus_0_r. reflexivity.
Qed.

(** * States *)
Lemma states_round_trip {A B : Type} (o later : attributes A B) :
  at_a o <> None -> at_b o <> None -> at_s1 o <> None -> at_s2 o <> None -> set_states later (get_states o) = o.
Proof. destruct o as [[a|] [b|] [s|] [s'|]]; cbn; intros; try congruence. reflexivity. Qed.
Lemma states_partial {A B : Type} (o : attributes A B) (a : A) :
  set_states o (Attributes (Some a) None None None) = Attributes (Some a) (at_b o) (at_s1 o) (at_s2 o).
Proof. reflexivity. Qed.
Lemma states_not_reset {A B : Type} (later : attributes A B) : set_states later (get_states (Attributes None None None None)) = later.
Proof. destruct later; reflexivity. Qed.
