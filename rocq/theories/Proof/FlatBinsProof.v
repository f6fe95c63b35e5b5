From Coq Require Import List ZArith Bool Ascii Lia Sorted.
From Verif Require Import Model.Names Model.Series Model.Transformer Model.FlatBins.
From Verif Require Import Spec.TransformerSpec Spec.TransformerInput Spec.FlatBinsSpec.
From Verif Require Import Proof.SeriesProof Proof.TransformerProof Proof.TransformerProof2 Proof.TransformerProof4.
Import ListNotations.
Local Open Scope Z_scope.

Section P.
Context {V : Type}.
Implicit Types (d : series V).

Lemma position_spec i rows : NoDup rows ->
  (forall r, position i rows = Some r <-> (r < length rows)%nat /\ nth r rows O = i) /\
  (position i rows = None <-> ~ In i rows).
Proof.
  induction 1 as [|a rows Ha _ IH]; cbn [position].
  - split; [intros r; split; [discriminate|cbn; lia]|tauto].
  - destruct IH as [IH1 IH2]. destruct (Nat.eqb_spec a i) as [->|E].
    + split; [|split; [discriminate|intros H; exfalso; apply H; left; reflexivity]].
      intros r; split.
      * intros [= <-]. cbn; split; [lia|reflexivity].
      * intros [L N]. destruct r as [|r]; [reflexivity|]. cbn in N, L. exfalso; apply Ha.
        rewrite <- N. apply nth_In; lia.
    + split.
      * intros r. destruct (position i rows) as [p|] eqn:P; cbn [option_map].
        -- split.
           ++ intros [= <-]. destruct (proj1 (IH1 p) eq_refl) as [L N]. cbn. split; [lia|exact N].
           ++ intros [L N]. destruct r as [|r]; [cbn in N; contradiction|].
              cbn in N, L. assert (Some p = Some r) as H by (apply IH1; split; [lia|exact N]).
              injection H as ->. reflexivity.
        -- split; [discriminate|]. intros [L N]. destruct r as [|r]; [cbn in N; contradiction|].
           cbn in N, L. assert (None = Some r) by (apply IH1; split; [lia|exact N]). discriminate.
      * destruct (position i rows) as [p|] eqn:P; cbn [option_map].
        -- split; [discriminate|]. intros H. exfalso.
           assert (Some p = None) by (apply IH2; intros I; apply H; right; exact I). discriminate.
        -- split; [|reflexivity]. intros _ [H|H]; [contradiction|]. apply IH2 in H; [exact H|reflexivity].
Qed.

Lemma kept_nodup m d : NoDup (kept_rows m d).
Proof. apply NoDup_filter, seq_NoDup. Qed.

Lemma shift_zero (c : series V) : shift 0 c = c.
Proof.
  rewrite shift_sample. transitivity (map (fun i => nth i c None) (seq 0 (length c))).
  - apply map_ext_in. intros i I. apply in_seq in I. unfold sample.
    replace (Z.of_nat i - 0) with (Z.of_nat i) by lia.
    rewrite (proj2 (Z.leb_le _ _)), (proj2 (Z.ltb_lt _ _)), Nat2Z.id by lia. reflexivity.
  - apply map_seq_nth.
Qed.

Lemma nth_shift l (c : series V) r : (r < length c)%nat -> nth r (shift l c) None = sample c (Z.of_nat r - l).
Proof. intros H. rewrite shift_sample. rewrite nth_map_seq by exact H. reflexivity. Qed.

(** Cell of a realigned column shifted twice. *)
Lemma flat_cell n rows (g : nat -> option V) l s i : NoDup rows -> (i < n)%nat ->
  nth i (realign n rows (shift l (shift s (map g rows)))) None =
  match position i rows with
  | None => None
  | Some r =>
      let a := Z.of_nat r - l in
      if (0 <=? a) && (a <? Z.of_nat (length rows)) then
        let b := a - s in
        if (0 <=? b) && (b <? Z.of_nat (length rows)) then g (nth (Z.to_nat b) rows O) else None
      else None
  end.
Proof.
  intros ND I. unfold realign. rewrite nth_map_seq by exact I.
  destruct (position i rows) as [r|] eqn:P; [|reflexivity].
  destruct (proj1 (proj1 (position_spec i rows ND) r) P) as [L _].
  rewrite nth_shift by (rewrite shift_length, map_length; exact L).
  cbv zeta. unfold sample at 1. rewrite shift_length, map_length.
  destruct ((0 <=? Z.of_nat r - l) && (Z.of_nat r - l <? Z.of_nat (length rows))) eqn:E; [|reflexivity].
  apply andb_prop in E as [E1 E2]. apply Z.leb_le in E1. apply Z.ltb_lt in E2.
  rewrite nth_shift by (rewrite map_length; lia).
  rewrite Z2Nat.id by exact E1. unfold sample. rewrite map_length.
  destruct ((0 <=? Z.of_nat r - l - s) && (Z.of_nat r - l - s <? Z.of_nat (length rows))) eqn:F; [|reflexivity].
  apply andb_prop in F as [F1 F2]. apply Z.leb_le in F1. apply Z.ltb_lt in F2.
  rewrite (nth_indep _ None (g O)) by (rewrite map_length; lia). apply map_nth.
Qed.

(** The whole column of a request. *)
Definition flat_col (edges : list Z) d (e : entry V) : series V :=
  let m := Z.to_nat (flat_steps edges) in
  realign (length d) (kept_rows m d)
    (shift (e_rows e) (shift (nth 0 edges 0 - 1)
      (map (fun i => fn (e_fun e)
              (firstn (Z.to_nat (nth 0 edges 0 - e_to e) - Z.to_nat (nth 0 edges 0 - e_from e))
                (skipn (Z.to_nat (nth 0 edges 0 - e_from e)) (forward_window m d i))))
           (kept_rows m d)))).

Lemma flat_closed lags rel edges (fs : list (aggfun V)) name d :
  flat_columns lags rel edges fs name d =
  match kept_rows (Z.to_nat (flat_steps edges)) d with
  | [] => None
  | _ => Some (map (fun e => (bin_label e, flat_col edges d e))
                (flat_requested name (requested_lags lags rel (total_span edges)) (bin_pairs edges) fs))
  end.
Proof.
  unfold flat_columns.
  assert (H : map (fun c => (fst c, realign (length d) (kept_rows (Z.to_nat (flat_steps edges)) d) (snd c)))
                  (lagged lags (fun l => if rel then l * flat_steps edges else l) (flat_base edges fs name d)) =
              map (fun e => (bin_label e, flat_col edges d e))
                (flat_requested name (requested_lags lags rel (total_span edges)) (bin_pairs edges) fs)).
  { unfold flat_requested, flat_base. rewrite bin_pairs_seq.
    assert (B : forall (o : option Z) (l : Z) (lab : text -> text),
       (forall b, lab b = with_lag b o) ->
       flat_map (fun f => map (fun j => (lab (name ++ us ++ fn_name f ++ us ++ bin_text (nth j edges 0) ++ us ++ bin_text (nth (S j) edges 0)),
          realign (length d) (kept_rows (Z.to_nat (flat_steps edges)) d)
            (shift l (shift (nth 0 edges 0 - 1)
             (map (fun i => bin_statistic edges f (forward_window (Z.to_nat (flat_steps edges)) d i) j)
                  (kept_rows (Z.to_nat (flat_steps edges)) d)))))) (seq 0 (length edges - 1))) fs =
       map (fun e => (bin_label e, flat_col edges d e))
        (flat_map (fun f => map (fun b => Entry name f o l (fst b) (snd b))
            (map (fun i => (nth i edges 0, nth (S i) edges 0)) (seq 0 (length edges - 1)))) fs)).
    { intros o l lab Hl. rewrite map_flat_map. apply flat_map_ext. intros f.
      rewrite !map_map. apply map_ext. intros j. unfold bin_label, flat_col. cbn. rewrite Hl.
      reflexivity. }
    unfold lagged, requested_lags. destruct lags as [ls|].
    - replace (total_span edges) with (flat_steps edges) by (rewrite total_span_nth; reflexivity).
      rewrite map_flat_map. rewrite flat_map_map_in, map_flat_map. apply flat_map_ext. intros l.
      cbn [fst snd]. rewrite <- (B (Some l) (if rel then l * flat_steps edges else l) (fun b => lag_name b l)) by reflexivity.
      rewrite map_map, map_flat_map. apply flat_map_ext. intros f. rewrite map_map. cbn [fst snd].
      reflexivity.
    - cbn [flat_map fst snd]. rewrite app_nil_r. rewrite <- (B None 0 (fun b => b)) by reflexivity.
      rewrite map_flat_map. apply flat_map_ext. intros f. rewrite map_map. apply map_ext. intros j. cbn [fst snd].
      rewrite shift_zero. reflexivity. }
  destruct (kept_rows (Z.to_nat (flat_steps edges)) d); [reflexivity|]. rewrite H. reflexivity.
Qed.

Lemma kept_test m d i : (1 <= m)%nat ->
  Nat.leb m (observed (forward_window m d i)) = true <->
  (i + m <= length d)%nat /\ (forall k, (k < m)%nat -> nth (i + k) d None <> None).
Proof.
  intros M. rewrite Nat.leb_le. unfold forward_window.
  set (w := firstn m (skipn i d)).
  assert (L : length w = Nat.min m (length d - i)) by (unfold w; rewrite firstn_length, skipn_length; reflexivity).
  assert (W : forall k, (k < m)%nat -> nth k w None = nth (i + k) d None).
  { intros k K. unfold w. rewrite nth_firstn by exact K. apply nth_skipn. }
  split.
  - intros H. pose proof (observed_le w) as O.
    assert (F : observed w = length w) by lia.
    apply observed_full in F. split; [lia|]. intros k K. rewrite <- W by exact K.
    rewrite forallb_forall in F. intros N.
    assert (In (nth k w None) w) as I by (apply nth_In; lia).
    apply F in I. rewrite N in I. discriminate.
  - intros [H1 H2]. assert (F : forallb present w = true).
    { apply forallb_forall. intros o O. apply (In_nth _ _ None) in O as (k & K & E).
      rewrite W in E by lia. destruct o; [reflexivity|]. exfalso. apply (H2 k); [lia|exact E]. }
    apply observed_full in F. lia.
Qed.

Lemma kept_room m d i : (1 <= m)%nat -> In i (kept_rows m d) -> (i + m <= length d)%nat.
Proof. intros M I. apply filter_In in I as [_ I]. apply kept_test in I; [apply I|exact M]. Qed.

Lemma test_false m d i : (1 <= m)%nat ->
  ~ ((i + m <= length d)%nat /\ (forall k, (k < m)%nat -> nth (i + k) d None <> None)) ->
  Nat.leb m (observed (forward_window m d i)) = false.
Proof. intros M H. destruct (Nat.leb m _) eqn:E; [|reflexivity]. apply kept_test in E; [contradiction|exact M]. Qed.

Lemma kept_complete m d : (1 <= m <= length d)%nat -> no_gap d ->
  kept_rows m d = seq 0 (length d - m + 1).
Proof.
  intros M G. unfold kept_rows.
  replace (length d) with ((length d - m + 1) + (m - 1))%nat at 1 by lia.
  rewrite seq_app, filter_app. rewrite filter_all, filter_none, app_nil_r; [reflexivity| |].
  - intros i I. apply in_seq in I. apply test_false; [lia|]. intros [H _]. lia.
  - intros i I. apply in_seq in I. apply kept_test; [lia|]. split; [lia|]. intros k K. apply G. lia.
Qed.

Lemma kept_gap m d g : (1 <= m)%nat -> (m <= g)%nat -> (g + m < length d)%nat -> gap_at g d ->
  kept_rows m d = seq 0 (g - m + 1) ++ seq (g + 1) (length d - m - g).
Proof.
  intros M1 M2 M3 [_ G]. unfold kept_rows.
  replace (seq 0 (length d)) with (seq 0 (g - m + 1) ++ seq (g - m + 1) m ++ seq (g + 1) (length d - m - g) ++ seq (length d - m + 1) (m - 1)).
  2:{ replace (length d) with ((g - m + 1) + (m + ((length d - m - g) + (m - 1))))%nat at 3 by lia.
      rewrite !seq_app. do 3 f_equal; try (f_equal; lia). }
  rewrite !filter_app. rewrite filter_all, (filter_none _ (seq (g - m + 1) m)), filter_all, filter_none, app_nil_r; [reflexivity| | | |].
  - intros i I. apply in_seq in I. apply test_false; [lia|]. intros [H _]. lia.
  - intros i I. apply in_seq in I. apply kept_test; [lia|]. split; [lia|]. intros k K H. apply G in H; lia.
  - intros i I. apply in_seq in I. apply test_false; [lia|]. intros [_ H].
    apply (H (g - i)%nat); [lia|]. apply G; lia.
  - intros i I. apply in_seq in I. apply kept_test; [lia|]. split; [lia|]. intros k K H. apply G in H; lia.
Qed.

Lemma forward_samples m d i b len : (i + m <= length d)%nat -> (b + len <= m)%nat ->
  firstn len (skipn b (forward_window m d i)) = samples d (Z.of_nat (i + b)) (Z.of_nat len).
Proof.
  intros H1 H2. unfold forward_window. apply (list_eq_nth _ _ None).
  - rewrite samples_length, Nat2Z.id, firstn_length, skipn_length, firstn_length, skipn_length. lia.
  - intros k K. rewrite firstn_length, skipn_length, firstn_length, skipn_length in K.
    unfold samples. rewrite nth_map_seq by lia. unfold sample.
    rewrite (proj2 (Z.leb_le _ _)), (proj2 (Z.ltb_lt _ _)) by lia. cbn [andb].
    rewrite nth_firstn by lia. rewrite nth_skipn, nth_firstn by lia.
    rewrite nth_skipn. f_equal. lia.
Qed.

Lemma decreasing_lt edges : decreasing edges -> forall i j, (i < j < length edges)%nat -> nth j edges 0 < nth i edges 0.
Proof.
  unfold decreasing. induction 1 as [|a l S IH F]; intros i j H; cbn [length] in H; [lia|].
  destruct j as [|j]; [lia|]. destruct i as [|i]; cbn [nth].
  - rewrite Forall_forall in F. apply F, nth_In. lia.
  - apply IH. lia.
Qed.

Lemma flat_requested_in name lags bins (fs : list (aggfun V)) e : In e (flat_requested name lags bins fs) ->
  In (e_from e, e_to e) bins /\ In (e_fun e) fs /\ In (e_lag e, e_rows e) lags /\ e_src e = name.
Proof.
  unfold flat_requested. intros I. apply in_flat_map in I as (l & Il & I).
  apply in_flat_map in I as (f & If & I). apply in_map_iff in I as ([a b] & <- & Ib). destruct l. cbn. auto.
Qed.

Lemma bin_bounds edges a b : decreasing edges -> In (a, b) (bin_pairs edges) ->
  last edges 0 <= b /\ b < a /\ a <= hd 0 edges.
Proof.
  intros D I. rewrite bin_pairs_seq in I. apply in_map_iff in I as (i & E & Hi). injection E as <- <-.
  apply in_seq in Hi.
  assert (L : last edges 0 = nth (length edges - 1) edges 0).
  { pose proof (total_span_nth edges) as T. unfold total_span in T.
    assert (hd 0 edges = nth 0 edges 0) by (destruct edges; reflexivity). lia. }
  assert (hd 0 edges = nth 0 edges 0) as -> by (destruct edges; reflexivity).
  rewrite L. split; [|split].
  - destruct (Nat.eq_dec (S i) (length edges - 1)) as [-> | N]; [lia|].
    pose proof (decreasing_lt edges D (S i) (length edges - 1)). lia.
  - apply decreasing_lt; [exact D|lia].
  - destruct i; [lia|]. pose proof (decreasing_lt edges D 0 (S i)). lia.
Qed.

Lemma position_seq i r rows : NoDup rows -> (r < length rows)%nat -> nth r rows O = i -> position i rows = Some r.
Proof. intros N L E. apply (proj1 (position_spec i rows N)). auto. Qed.

(** Value of a cell whose source row is kept. *)
Lemma flat_source edges d (e : entry V) i : decreasing edges -> In (e_from e, e_to e) (bin_pairs edges) ->
  (i + Z.to_nat (flat_steps edges) <= length d)%nat ->
  firstn (Z.to_nat (nth 0 edges 0 - e_to e) - Z.to_nat (nth 0 edges 0 - e_from e))
    (skipn (Z.to_nat (nth 0 edges 0 - e_from e)) (forward_window (Z.to_nat (flat_steps edges)) d i)) =
  samples d (Z.of_nat i + hd 0 edges - e_from e) (e_from e - e_to e).
Proof.
  intros D B H. destruct (bin_bounds _ _ _ D B) as (B1 & B2 & B3).
  assert (HD : nth 0 edges 0 = hd 0 edges) by (destruct edges; reflexivity).
  pose proof (total_span_nth edges) as T. unfold total_span in T. fold (flat_steps edges) in T.
  rewrite HD. rewrite forward_samples by lia. f_equal; lia.
Qed.

Lemma sample_complete d j : no_gap d -> 0 <= j < Z.of_nat (length d) -> present (sample d j) = true.
Proof.
  intros G H. unfold sample. rewrite (proj2 (Z.leb_le _ _)), (proj2 (Z.ltb_lt _ _)) by lia. cbn [andb].
  destruct (nth (Z.to_nat j) d None) eqn:E; [reflexivity|]. exfalso. apply (G (Z.to_nat j)); [lia|exact E].
Qed.

Lemma samples_complete d lo len : no_gap d -> 0 <= lo -> lo + len <= Z.of_nat (length d) ->
  forallb present (samples d lo len) = true.
Proof.
  intros G H1 H2. apply forallb_forall. intros o O. unfold samples in O.
  apply in_map_iff in O as (k & <- & K). apply in_seq in K. apply sample_complete; [exact G|lia].
Qed.

End P.

Lemma flat_values (V : Type) : forall lags rel edges (fs : list (aggfun V)) name (d : series V),
  decreasing edges -> (2 <= length edges)%nat -> total_span edges <= Z.of_nat (length d) -> no_gap d ->
  let entries := flat_requested name (requested_lags lags rel (total_span edges)) (bin_pairs edges) fs in
  exists cols, flat_columns lags rel edges fs name d = Some cols /\
    map fst cols = map bin_label entries /\
    forall k e c, nth_error entries k = Some e -> nth_error cols k = Some c ->
      length (snd c) = length d /\
      forall i, (i < length d)%nat ->
        (computed (Z.of_nat (length d)) edges e (Z.of_nat i) ->
           nth i (snd c) None = nth i (entry_values (fun _ => d) e) None) /\
        (~ computed (Z.of_nat (length d)) edges e (Z.of_nat i) -> nth i (snd c) None = None).
Proof.
  intros lags rel edges fs name d D L Sp G entries.
  pose proof (total_span_nth edges) as T. fold (flat_steps edges) in T.
  assert (P : 1 <= flat_steps edges).
  { unfold flat_steps. pose proof (decreasing_lt edges D 0 (length edges - 1)). lia. }
  set (m := Z.to_nat (flat_steps edges)).
  assert (K : kept_rows m d = seq 0 (length d - m + 1)) by (apply kept_complete; [lia|exact G]).
  exists (map (fun e => (bin_label e, flat_col edges d e)) entries).
  split; [|split].
  - rewrite flat_closed. fold m. rewrite K. replace (length d - m + 1)%nat with (S (length d - m)) by lia. reflexivity.
  - rewrite map_map. reflexivity.
  - intros k e c He Hc. rewrite nth_error_map, He in Hc. injection Hc as <-. cbn [snd].
    split; [unfold flat_col, realign; rewrite map_length, seq_length; reflexivity|].
    apply nth_error_In in He. apply flat_requested_in in He as (B & _ & _ & _).
    destruct (bin_bounds _ _ _ D B) as (B1 & B2 & B3).
    intros i I. unfold flat_col. fold m.
    rewrite flat_cell by (try exact I; apply kept_nodup). rewrite K.
    assert (HD : nth 0 edges 0 = hd 0 edges) by (destruct edges; reflexivity).
    assert (LT : last edges 0 = hd 0 edges - flat_steps edges) by (unfold total_span in T; lia).
    unfold computed. rewrite T. rewrite seq_length. cbv zeta.
    destruct (Nat.leb_spec (i + m) (length d)) as [R|R].
    + rewrite (position_seq i i); [|apply seq_NoDup|rewrite seq_length; lia|rewrite seq_nth by lia; lia].
      destruct ((0 <=? Z.of_nat i - e_rows e) && (Z.of_nat i - e_rows e <? Z.of_nat (length d - m + 1))) eqn:E1.
      * apply andb_prop in E1 as [E1 E2]. apply Z.leb_le in E1. apply Z.ltb_lt in E2.
        destruct ((0 <=? Z.of_nat i - e_rows e - (nth 0 edges 0 - 1)) && (Z.of_nat i - e_rows e - (nth 0 edges 0 - 1) <? Z.of_nat (length d - m + 1))) eqn:E3.
        -- apply andb_prop in E3 as [E3 E4]. apply Z.leb_le in E3. apply Z.ltb_lt in E4.
           split; [intros _|intros N; exfalso; apply N; lia].
           rewrite seq_nth by lia. unfold m. rewrite flat_source by (try exact B; try exact D; fold m; lia).
           unfold entry_values, feature_column. rewrite nth_map_seq by exact I.
           unfold window_feature.
           replace (Z.of_nat (0 + Z.to_nat (Z.of_nat i - e_rows e - (nth 0 edges 0 - 1))) + hd 0 edges - e_from e)
             with (Z.of_nat i - (e_rows e + e_to e) - (e_from e - e_to e) + 1) by lia.
           rewrite samples_complete; [reflexivity|exact G|lia|lia].
        -- split; [|reflexivity]. intros C. exfalso.
           apply andb_false_iff in E3 as [E3|E3]; [apply Z.leb_gt in E3|apply Z.ltb_ge in E3]; lia.
      * split; [|reflexivity]. intros C. exfalso.
        apply andb_false_iff in E1 as [E3|E3]; [apply Z.leb_gt in E3|apply Z.ltb_ge in E3]; lia.
    + assert (N : position i (seq 0 (length d - m + 1)) = None).
      { apply (proj2 (position_spec i _ (seq_NoDup _ _))). intros H. apply in_seq in H. lia. }
      rewrite N. split; [|reflexivity]. intros C. exfalso. lia.
Qed.

Lemma flat_recent (V : Type) : forall lags rel edges (fs : list (aggfun V)) name (d : series V) cols,
  decreasing edges -> (2 <= length edges)%nat ->
  flat_columns lags rel edges fs name d = Some cols ->
  let entries := flat_requested name (requested_lags lags rel (total_span edges)) (bin_pairs edges) fs in
  forall k e c i, nth_error entries k = Some e -> nth_error cols k = Some c ->
    (i < length d)%nat -> Z.of_nat (length d) < Z.of_nat i + total_span edges ->
    nth i (snd c) None = None /\
    (no_gap d -> total_fun (fn (e_fun e)) -> 0 <= e_rows e + e_to e -> e_rows e + e_from e <= Z.of_nat i + 1 ->
     nth i (entry_values (fun _ => d) e) None <> None).
Proof.
  intros lags rel edges fs name d cols D L H entries k e c i He Hc I R.
  pose proof (total_span_nth edges) as T. fold (flat_steps edges) in T.
  assert (P : 1 <= flat_steps edges).
  { unfold flat_steps. pose proof (decreasing_lt edges D 0 (length edges - 1)). lia. }
  rewrite flat_closed in H. set (m := Z.to_nat (flat_steps edges)) in *.
  assert (C : cols = map (fun e => (bin_label e, flat_col edges d e)) entries).
  { destruct (kept_rows m d); [discriminate|]. injection H as <-. reflexivity. }
  subst cols. rewrite nth_error_map, He in Hc. injection Hc as <-. cbn [snd].
  apply nth_error_In in He. apply flat_requested_in in He as (B & _ & _ & _).
  destruct (bin_bounds _ _ _ D B) as (B1 & B2 & B3).
  split.
  - unfold flat_col. fold m. rewrite flat_cell by (try exact I; apply kept_nodup).
    assert (N : position i (kept_rows m d) = None).
    { apply (proj2 (position_spec i _ (kept_nodup m d))). intros J. apply kept_room in J; lia. }
    rewrite N. reflexivity.
  - intros G F E1 E2. unfold entry_values, feature_column. rewrite nth_map_seq by exact I.
    unfold window_feature. rewrite samples_complete by (try exact G; lia).
    apply F; [|apply samples_complete; [exact G|lia|lia]].
    intros E. apply (f_equal (@length _)) in E. rewrite samples_length in E. cbn [length] in E. lia.
Qed.

Lemma flat_gap (V : Type) : forall rel edges (fs : list (aggfun V)) name (d : series V) g cols,
  decreasing edges -> (2 <= length edges)%nat -> gap_at g d ->
  total_span edges <= Z.of_nat g -> Z.of_nat g + total_span edges < Z.of_nat (length d) ->
  flat_columns None rel edges fs name d = Some cols ->
  let entries := flat_requested name (requested_lags None rel (total_span edges)) (bin_pairs edges) fs in
  forall k e c i, nth_error entries k = Some e -> nth_error cols k = Some c ->
    Z.of_nat g < Z.of_nat i -> Z.of_nat i + total_span edges <= Z.of_nat (length d) ->
    Z.of_nat i < Z.of_nat g + hd 0 edges ->
    total_span edges + hd 0 edges <= Z.of_nat i + 1 ->
    nth i (snd c) None =
    nth i (feature_column (fn (e_fun e)) d (e_to e + total_span edges) (e_from e - e_to e)) None.
Proof.
  intros rel edges fs name d g cols D L G S1 S2 H entries k e c i He Hc I1 I2 I3 I4.
  pose proof (total_span_nth edges) as T. fold (flat_steps edges) in T.
  assert (P : 1 <= flat_steps edges).
  { unfold flat_steps. pose proof (decreasing_lt edges D 0 (length edges - 1)). lia. }
  rewrite flat_closed in H. set (m := Z.to_nat (flat_steps edges)) in *.
  assert (C : cols = map (fun e => (bin_label e, flat_col edges d e)) entries).
  { destruct (kept_rows m d); [discriminate|]. injection H as <-. reflexivity. }
  subst cols. rewrite nth_error_map, He in Hc. injection Hc as <-. cbn [snd].
  apply nth_error_In in He. apply flat_requested_in in He as (B & _ & R & _).
  destruct (bin_bounds _ _ _ D B) as (B1 & B2 & B3).
  cbn in R. destruct R as [R|[]]. injection R as _ R.
  assert (HD : nth 0 edges 0 = hd 0 edges) by (destruct edges; reflexivity).
  assert (LT : last edges 0 = hd 0 edges - flat_steps edges) by (unfold total_span in T; lia).
  assert (I : (i < length d)%nat) by lia.
  assert (K : kept_rows m d = seq 0 (g - m + 1) ++ seq (g + 1) (length d - m - g)) by (apply kept_gap; try exact G; lia).
  unfold flat_col. fold m. rewrite flat_cell by (try exact I; apply kept_nodup).
  rewrite K. rewrite app_length, !seq_length.
  rewrite (position_seq i (i - m)).
  2:{ rewrite <- K. apply kept_nodup. }
  2:{ rewrite app_length, !seq_length. lia. }
  2:{ rewrite app_nth2 by (rewrite seq_length; lia). rewrite seq_length, seq_nth by lia. lia. }
  cbv zeta. rewrite <- R, Z.sub_0_r, HD.
  rewrite !(proj2 (Z.leb_le _ _)), !(proj2 (Z.ltb_lt _ _)) by lia. cbn [andb].
  rewrite app_nth1 by (rewrite seq_length; lia). rewrite seq_nth by lia. rewrite <- HD.
  unfold m at 1. rewrite flat_source by (try exact B; try exact D; fold m; lia).
  unfold feature_column. rewrite nth_map_seq by exact I. unfold window_feature.
  replace (Z.of_nat (0 + Z.to_nat (Z.of_nat (i - m) - (nth 0 edges 0 - 1))) + hd 0 edges - e_from e)
    with (Z.of_nat i - (e_to e + total_span edges) - (e_from e - e_to e) + 1) by lia.
  assert (F : forallb present (samples d (Z.of_nat i - (e_to e + total_span edges) - (e_from e - e_to e) + 1) (e_from e - e_to e)) = true).
  { apply forallb_forall. intros o O. unfold samples in O. apply in_map_iff in O as (q & <- & Q). apply in_seq in Q.
    unfold sample. rewrite (proj2 (Z.leb_le _ _)), (proj2 (Z.ltb_lt _ _)) by lia. cbn [andb].
    destruct (nth _ d None) eqn:E; [reflexivity|]. exfalso. destruct G as [_ G]. apply G in E; lia. }
  rewrite F. reflexivity.
Qed.
