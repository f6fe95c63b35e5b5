(** Proofs about the generation of trees. *)
From Coq Require Import List Bool Arith Reals Lra Lia Permutation.
From Verif Require Import Model.Subsample Model.Stats Model.Metrics Model.Scenred Model.BigData Model.TreeBuild Model.TreeGen
  Spec.StatsSpec Spec.BigDataSpec Spec.TreeBuildSpec Spec.TreeGenSpec Proof.StatsProof Proof.BigDataProof Proof.SeriesProof Proof.TrainingProof Proof.SubsampleProof Proof.GaussianProof.
Import ListNotations.

Lemma geometric_steps_seq k : geometric_steps k = map (fun t => 2 ^ t) (seq 2 (k - 2)).
Proof.
  unfold geometric_steps. rewrite skipn_map. f_equal.
  destruct k as [|[|k]]; try reflexivity. cbn [seq skipn]. now rewrite <- seq_shift, Nat.sub_succ, Nat.sub_succ, Nat.sub_0_r, seq_shift.
Qed.

Lemma geometric_nth k i : i < k - 2 -> nth i (geometric_steps k) 0 = 2 ^ (2 + i).
Proof. intros H. rewrite geometric_steps_seq, (nth_map2 _ _ _ 0 0) by (rewrite seq_length; exact H). rewrite seq_nth by exact H. reflexivity. Qed.

Lemma geometric_nodes_eq k g : 3 <= k -> geometric_nodes k g =
  Some (map (fun x => 2 ^ (2 + Nat.min (maximum g - x) (k - 3))) (rev g)).
Proof.
  intros Hk. unfold geometric_nodes. assert (L : length (geometric_steps k) = k - 2) by (rewrite geometric_steps_seq, map_length, seq_length; reflexivity).
  destruct (geometric_steps k) eqn:E; [cbn in L; lia|]. rewrite <- E in *. f_equal. apply map_ext. intros x.
  rewrite geometric_nth by lia. f_equal. lia.
Qed.

Lemma maximum_le l m : (forall x, In x l -> x <= m) -> maximum l <= m.
Proof. induction l as [|a l IH]; intros H; [cbn; lia|]. rewrite maximum_cons. apply Nat.max_lub; [apply H; now left|apply IH; intros x Hx; apply H; now right]. Qed.

Lemma geometric_schedule k g n : 3 <= k -> 2 ^ k <= n -> g <> [] -> nondecreasing g ->
  exists ns, schedule_of k g None None = Some ns /\ length ns = length g /\ nondecreasing ns /\
    (forall x, In x ns -> power_of_two x /\ 4 <= x /\ 2 * x <= n) /\
    multiples (fst (prepare_counts n ns)) /\
    (length g <> n - 1 -> fst (prepare_counts n ns) = 1 :: tl ns) /\
    (nth 0 g 0 = 0 -> k - 3 <= nth (length g - 1) g 0 -> nth 0 ns 0 = 4 /\ nth (length g - 1) ns 0 = 2 ^ (k - 1)).
Proof.
  intros Hk Hn Hg Hm. unfold schedule_of. rewrite geometric_nodes_eq by exact Hk.
  set (e := fun i => 2 + Nat.min (maximum g - nth (length g - 1 - i) g 0) (k - 3)).
  set (ns := map _ (rev g)). exists ns.
  assert (Hl : 0 < length g) by (destruct g; [congruence|cbn; lia]).
  assert (Ln : length ns = length g) by (unfold ns; rewrite map_length, rev_length; reflexivity).
  assert (E : forall i, i < length g -> nth i ns 0 = 2 ^ e i).
  { intros i Hi. unfold ns, e. rewrite (nth_map2 _ _ _ 0 0) by (rewrite rev_length; exact Hi).
    rewrite rev_nth by exact Hi. do 5 f_equal. lia. }
  assert (Em : forall i j, i <= j -> j < length g -> e i <= e j).
  { intros i j Hij Hj. unfold e. assert (nth (length g - 1 - j) g 0 <= nth (length g - 1 - i) g 0) by (apply Hm; lia). lia. }
  assert (Pm : forall i j, i <= j -> j < length g -> 2 ^ e i <= 2 ^ e j).
  { intros i j Hij Hj. apply Nat.pow_le_mono_r; [lia|]. now apply Em. }
  assert (N8 : 8 <= n). { apply Nat.le_trans with (2 ^ k); [|exact Hn]. change 8 with (2 ^ 3). apply Nat.pow_le_mono_r; lia. }
  assert (In4 : forall x, In x ns -> power_of_two x /\ 4 <= x /\ 2 * x <= n).
  { intros x Hx. destruct (In_nth ns x 0 Hx) as (i & Hi & <-). rewrite Ln in Hi. rewrite E by exact Hi.
    split; [now exists (e i)|]. split.
    - change 4 with (2 ^ 2). apply Nat.pow_le_mono_r; [lia|]. unfold e. lia.
    - rewrite <- Nat.pow_succ_r'. apply Nat.le_trans with (2 ^ k); [|exact Hn]. apply Nat.pow_le_mono_r; [lia|]. unfold e. lia. }
  split; [reflexivity|]. split; [exact Ln|]. split.
  { intros i j Hij Hj. rewrite Ln in Hj. rewrite !E by lia. now apply Pm. }
  split; [exact In4|].
  assert (Hcons : exists a l, ns = a :: l) by (destruct ns as [|a l]; [cbn in Ln; lia|now exists a, l]).
  assert (Step : forall t, S t < length ns -> exists c, 0 < c /\ nth (S t) ns 0 = c * nth t ns 0).
  { intros t Ht. rewrite Ln in Ht. exists (2 ^ (e (S t) - e t)). split; [assert (2 ^ (e (S t) - e t) <> 0) by (apply Nat.pow_nonzero; lia); lia|].
    rewrite !E by lia. rewrite <- Nat.pow_add_r. f_equal. assert (e t <= e (S t)) by (apply Em; lia). lia. }
  assert (E0 : nth 0 ns 0 = 2 ^ e 0) by (apply E; lia).
  assert (E0' : 4 <= nth 0 ns 0) by (apply In4, nth_In; lia).
  clearbody ns. destruct Hcons as (a & l & ->). cbn [nth tl] in *. split; [|split].
  - unfold prepare_counts. destruct ((length (a :: l) =? n - 1) && (1 <=? n)) eqn:Ex.
    + cbn [Nat.eqb fst]. split; [reflexivity|]. intros [|t] Ht; cbn [nth].
      * exists a. lia.
      * cbn [length] in Ht. apply (Step t). cbn [length]. lia.
    + destruct (Nat.eqb_spec a 1) as [->|_]; [lia|]. cbn [fst]. split; [reflexivity|]. intros [|t] Ht; cbn [nth].
      * destruct (Step 0 Ht) as (c & Hc & Hc'). cbn [nth] in Hc'. exists (c * a). split; [|rewrite Hc'; lia]. apply Nat.mul_pos_pos; lia.
      * exact (Step (S t) Ht).
  - intros Hne. unfold prepare_counts. rewrite Ln. destruct (Nat.eqb_spec (length g) (n - 1)) as [|_]; [contradiction|]. cbn [andb].
    destruct (Nat.eqb_spec a 1) as [->|_]; [lia|]. reflexivity.
  - intros G0 GL. split.
    + rewrite E0. unfold e. replace (maximum g - nth (length g - 1 - 0) g 0) with 0; [reflexivity|].
      assert (M : maximum g <= nth (length g - 1 - 0) g 0); [|lia].
      apply maximum_le. intros x Hx. destruct (In_nth g x 0 Hx) as (i & Hi & <-). apply Hm; lia.
    + rewrite E by lia. unfold e. rewrite Nat.sub_diag, G0, Nat.sub_0_r.
      assert (nth (length g - 1) g 0 <= maximum g) by (apply maximum_ge, nth_In; lia). f_equal. lia.
Qed.

Lemma geometric_few k g own : k <= 2 -> schedule_of k g None own = None.
Proof. intros H. unfold schedule_of, geometric_nodes. rewrite geometric_steps_seq. now replace (k - 2) with 0 by lia. Qed.

Lemma schedule_priority k g arg own : 3 <= k ->
  (forall ns, arg = Some ns -> schedule_of k g arg own = Some ns) /\
  (forall ns, arg = None -> own = Some ns -> schedule_of k g arg own = Some ns).
Proof. intros H. split; intros ns; [now intros ->|]. intros -> ->. unfold schedule_of. now rewrite geometric_nodes_eq. Qed.

(** * Pre-computed trees *)
Lemma prefit_own {S T} (build : S -> T) refine scens h : h < 24 ->
  nth_error (prefit_trees KScenred build refine scens) h = Some (build (scens h)).
Proof.
  intros H. unfold prefit_trees. rewrite nth_error_map, (nth_error_nth' _ 0) by (rewrite seq_length; lia).
  rewrite seq_nth by lia. reflexivity.
Qed.

Lemma prefit_shared {S} kind (build : S -> graph R) refine scens h : kind <> KScenred ->
  (forall g s, same_shape (refine g s) g) -> h < 24 ->
  exists g, nth_error (prefit_trees kind build refine scens) h = Some g /\ same_shape g (build (scens 0)).
Proof.
  intros Hk Hr H. unfold prefit_trees. rewrite nth_error_map, (nth_error_nth' _ 0) by (rewrite seq_length; lia).
  rewrite seq_nth by lia. cbn [option_map]. eexists. split; [reflexivity|].
  assert (T : forall a b c : graph R, same_shape a b -> same_shape b c -> same_shape a c).
  { intros a b c [? ?] [? ?]. split; congruence. }
  destruct kind; [congruence| | |]; cbn [gen_tree]; destruct h as [|h]; cbn [Nat.eqb Nat.add];
    try apply Hr; (eapply T; [apply Hr|]; apply Hr).
Qed.

Lemma prefit_scratch {S} kind (build : S -> graph R) refine scens h : kind <> KScenred ->
  (forall g s, same_shape (refine g s) g) -> (forall g g' s, same_shape g g' -> refine g s = refine g' s) ->
  (forall s, same_shape (build s) (build (scens 0))) -> h < 24 ->
  nth_error (prefit_trees kind build refine scens) h = Some (gen_tree kind build refine None (scens h)).
Proof.
  intros Hk Hr Hd Hb H. unfold prefit_trees. rewrite nth_error_map, (nth_error_nth' _ 0) by (rewrite seq_length; lia).
  rewrite seq_nth by lia. cbn [option_map]. f_equal.
  assert (T : forall a b c : graph R, same_shape a b -> same_shape c b -> same_shape a c).
  { intros a b c [? ?] [? ?]. split; congruence. }
  destruct kind; [congruence| | |]; cbn [gen_tree]; destruct h as [|h]; cbn [Nat.eqb Nat.add]; try reflexivity;
    apply Hd; eapply T; [apply Hr|apply Hb| apply Hr|apply Hb| apply Hr|apply Hb].
Qed.

Lemma prefit_wrong {S} kind (build : S -> graph R) refine scens h : kind <> KScenred ->
  (forall g s, same_shape (refine g s) g) -> h < 24 -> ~ same_shape (build (scens 0)) (build (scens h)) ->
  exists g, nth_error (prefit_trees kind build refine scens) h = Some g /\ ~ same_shape g (build (scens h)).
Proof.
  intros Hk Hr H Hn. destruct (prefit_shared kind build refine scens h Hk Hr H) as (g & E & [A B]). exists g. split; [exact E|].
  intros [C D]. apply Hn. split; congruence.
Qed.

Lemma returned_single {T} (t : T) : returned [t] = OneTree t.
Proof. reflexivity. Qed.
Lemma returned_list {T} (l : list T) : length l <> 1 -> returned l = TreeList l.
Proof. destruct l as [|a [|b l]]; cbn; intros H; [reflexivity|congruence|reflexivity]. Qed.

(** * All rows *)
Lemma all_trees_correct {A T} parallel cpus n_cols order (one : A -> T) rows : 2 <= cpus ->
  schedule (length rows) order -> all_trees parallel cpus n_cols order one rows = Some (map one rows).
Proof.
  intros Hc Hs. unfold all_trees. destruct (parallel && (1 <? length rows)) eqn:E; [|reflexivity].
  apply andb_prop in E. destruct E as [_ E]. apply Nat.ltb_lt in E.
  destruct (Nat.eqb_spec (Nat.min (cpus - 1) (length rows)) 0); [lia|].
  apply parallel_slicewise; [lia|intros a b; apply map_app|].
  intros i Hi. apply Hs. eapply Nat.lt_le_trans; [exact Hi|]. unfold make_pieces.
  destruct (_ <? _); [|cbn; lia]. destruct (array_split_partition rows (Nat.min (cpus - 1) (length rows))) as (_ & -> & _); lia.
Qed.

Lemma all_trees_single_core {A T} n_cols order (one : A -> T) rows : 2 <= length rows ->
  all_trees true 1 n_cols order one rows = None.
Proof. intros H. unfold all_trees. destruct (Nat.ltb_spec 1 (length rows)); [|lia]. reflexivity. Qed.

Local Open Scope R_scope.
(** * Refinement *)
Lemma nearest_closest {V} (metric : V -> V -> R) s a l : closest metric s (a :: l) (nearest metric s a l).
Proof.
  revert a. induction l as [|b l IH]; intros a; cbn [nearest].
  - split; [exists a; split; [now left|reflexivity]|]. intros c [<-|[]]. lra.
  - destruct (IH b) as [(c & Hc & E) H]. split.
    + destruct (Rle_dec (metric s a) (nearest metric s b l)) as [L|L].
      * exists a. split; [now left|]. now rewrite Rmin_left.
      * exists c. split; [now right|]. rewrite Rmin_right by lra. exact E.
    + intros c' [<-|Hc']; [apply Rmin_l|]. eapply Rle_trans; [apply Rmin_r|]. now apply H.
Qed.

Lemma set_distance_correct {V} (metric : V -> V -> R) samples alphas d : alphas <> [] ->
  set_distance metric samples alphas = d <-> covering_distance metric samples alphas d.
Proof.
  intros Ha. destruct alphas as [|a l]; [congruence|]. cbn [set_distance]. split.
  - intros <-. exists (map (fun s => nearest metric s a l) samples). split; [|reflexivity].
    induction samples as [|s samples IH]; cbn; constructor; [apply nearest_closest|exact IH].
  - intros (ds & Hf & ->). unfold Rsum. f_equal. induction Hf as [|s x samples ds Hx Hf IH]; [reflexivity|].
    cbn [map]. f_equal; [|exact IH]. destruct (nearest_closest metric s a l) as [(b & Hb & Eb) H1]. destruct Hx as [(c & Hc & Ec) H2].
    apply Rle_antisym; [rewrite Ec; now apply H1|rewrite Eb; now apply H2].
Qed.

Section Refine.
  Context {V : Type} (dist : list V -> R).
  Lemma try_invariant i st c : (i < length (fst st))%nat -> snd st = dist (fst st) ->
    length (fst (try_candidate dist i st c)) = length (fst st) /\
    snd (try_candidate dist i st c) = dist (fst (try_candidate dist i st c)) /\
    snd (try_candidate dist i st c) <= snd st.
  Proof.
    intros Hi Hd. unfold try_candidate. destruct (Rltb_case (dist (replace_at (fst st) i c)) (snd st)) as [[-> H]|[-> H]]; cbn [fst snd].
    - split; [|split; [reflexivity|lra]]. unfold replace_at. rewrite app_length, firstn_length. cbn [length]. rewrite skipn_length. lia.
    - repeat split; [exact Hd|lra].
  Qed.
  Lemma tries_invariant i cs : forall st, (i < length (fst st))%nat -> snd st = dist (fst st) ->
    length (fst (fold_left (try_candidate dist i) cs st)) = length (fst st) /\
    snd (fold_left (try_candidate dist i) cs st) = dist (fst (fold_left (try_candidate dist i) cs st)) /\
    snd (fold_left (try_candidate dist i) cs st) <= snd st.
  Proof.
    induction cs as [|c cs IH]; intros st Hi Hd; cbn [fold_left]; [repeat split; [exact Hd|lra]|].
    destruct (try_invariant i st c Hi Hd) as (A & B & C).
    destruct (IH (try_candidate dist i st c) ltac:(lia) B) as (A' & B' & C'). repeat split; [lia|exact B'|lra].
  Qed.
  Lemma points_invariant cands d0 is_ : forall st, (forall i, In i is_ -> (i < length (fst st))%nat) -> snd st = dist (fst st) ->
    length (fst (fold_left (refine_point dist cands d0) is_ st)) = length (fst st) /\
    snd (fold_left (refine_point dist cands d0) is_ st) = dist (fst (fold_left (refine_point dist cands d0) is_ st)) /\
    snd (fold_left (refine_point dist cands d0) is_ st) <= snd st.
  Proof.
    induction is_ as [|i is_ IH]; intros st Hi Hd; cbn [fold_left]; [repeat split; [exact Hd|lra]|].
    destruct (tries_invariant i (cands i (nth i (fst st) d0)) st (Hi i (or_introl eq_refl)) Hd) as (A & B & C).
    change (fold_left (try_candidate dist i) _ st) with (refine_point dist cands d0 st i) in A, B, C.
    destruct (IH (refine_point dist cands d0 st i)) as (A' & B' & C'); [intros j Hj; rewrite A; apply Hi; now right|exact B|].
    repeat split; [lia|exact B'|lra].
  Qed.
End Refine.

Lemma refine_step_improves {V} (dist : list V -> R) cands d0 alphas :
  length (refine_step dist cands d0 alphas) = length alphas /\ dist (refine_step dist cands d0 alphas) <= dist alphas.
Proof.
  unfold refine_step. destruct (points_invariant dist cands d0 (seq 0 (length alphas)) (alphas, dist alphas)) as (A & B & C).
  - intros i Hi. apply in_seq in Hi. cbn. lia.
  - reflexivity.
  - cbn [fst snd] in *. split; [exact A|]. rewrite <- B. exact C.
Qed.

Lemma refine_never_worse {V} (metric : V -> V -> R) median cands d0 samples values t d d' : (0 < t)%nat -> values t <> [] ->
  covering_distance metric (samples t) (values t) d ->
  covering_distance metric (samples t) (refine_values metric median cands d0 samples values t) d' ->
  d' <= d /\ length (refine_values metric median cands d0 samples values t) = length (values t).
Proof.
  intros Ht Hv Hd Hd'. destruct t as [|t]; [lia|]. cbn [refine_values] in *.
  destruct (refine_step_improves (set_distance metric (samples (S t))) (cands (S t)) d0 (values (S t))) as [A B]. split; [|exact A].
  apply set_distance_correct in Hd; [|exact Hv]. apply set_distance_correct in Hd'.
  - lra.
  - intros E. rewrite E in A. destruct (values (S t)); [congruence|discriminate].
Qed.

Lemma sum_abs_shift_right m c l : m <= c ->
  Rsum (map (fun x => Rabs (x - m)) l) + (c - m) * (2 * INR (length (filter (fun x => Rleb x m) l)) - INR (length l))
  <= Rsum (map (fun x => Rabs (x - c)) l).
Proof.
  intros H. induction l as [|x l IH]; [cbn; lra|]. cbn [map filter length Rsum fold_right] in *. fold (Rsum (map (fun x => Rabs (x - m)) l)) (Rsum (map (fun x => Rabs (x - c)) l)).
  rewrite S_INR. unfold Rleb. destruct (Rle_dec x m) as [L|L]; cbn [length]; [rewrite S_INR|];
    unfold Rleb in IH; unfold Rabs at 1 3; destruct (Rcase_abs (x - m)), (Rcase_abs (x - c)); nra.
Qed.
Lemma sum_abs_shift_left m c l : c <= m ->
  Rsum (map (fun x => Rabs (x - m)) l) + (m - c) * (2 * INR (length (filter (fun x => Rleb m x) l)) - INR (length l))
  <= Rsum (map (fun x => Rabs (x - c)) l).
Proof.
  intros H. induction l as [|x l IH]; [cbn; lra|]. cbn [map filter length Rsum fold_right] in *. fold (Rsum (map (fun x => Rabs (x - m)) l)) (Rsum (map (fun x => Rabs (x - c)) l)).
  rewrite S_INR. unfold Rleb. destruct (Rle_dec m x) as [L|L]; cbn [length]; [rewrite S_INR|];
    unfold Rleb in IH; unfold Rabs at 1 3; destruct (Rcase_abs (x - m)), (Rcase_abs (x - c)); nra.
Qed.

Lemma half_count n k : (1 / 2) * INR (n - 1) < INR k -> (0 < n)%nat -> INR n <= 2 * INR k.
Proof.
  intros H Hn. assert (L : (n - 1 < 2 * k)%nat). { apply INR_lt. rewrite mult_INR. cbn [INR]. lra. }
  replace (2 * INR k) with (INR (2 * k)) by (rewrite mult_INR; reflexivity). apply le_INR. lia.
Qed.

Lemma median_best l c : l <> [] ->
  Rsum (map (fun x => Rabs (x - quantile l (1 / 2))) l) <= Rsum (map (fun x => Rabs (x - c)) l).
Proof.
  intros Hl. set (m := quantile l (1 / 2)).
  assert (Hn : (0 < length l)%nat) by (destruct l; [congruence|cbn; lia]).
  destruct (quantile_coverage l (1 / 2) _ _ Hl ltac:(lra)
    (how_many_filter _ (fun x => Rleb x m) l (fun x => Rleb_spec x m)) (how_many_filter _ (fun x => Rleb m x) l (fun x => Rleb_spec m x))) as [A B].
  replace (1 - 1 / 2) with (1 / 2) in B by lra.
  apply half_count in A; [|exact Hn]. apply half_count in B; [|exact Hn].
  destruct (Rle_dec m c) as [L|L].
  - eapply Rle_trans; [|apply (sum_abs_shift_right m c l L)]. assert (0 <= (c - m) * (2 * INR (length (filter (fun x => Rleb x m) l)) - INR (length l))) by (apply Rmult_le_pos; lra). lra.
  - assert (L' : c <= m) by lra. eapply Rle_trans; [|apply (sum_abs_shift_left m c l L')].
    assert (0 <= (m - c) * (2 * INR (length (filter (fun x => Rleb m x) l)) - INR (length l))) by (apply Rmult_le_pos; lra). lra.
Qed.

(** The first step: one node, numbers, absolute differences. *)
Lemma root_best cands d0 samples values a d d' : samples 0%nat <> [] ->
  covering_distance (fun s b => Rabs (s - b)) (samples 0%nat) [a] d ->
  covering_distance (fun s b => Rabs (s - b)) (samples 0%nat)
    (refine_values (fun s b => Rabs (s - b)) (fun l => quantile l (1 / 2)) cands d0 samples values 0%nat) d' ->
  d' <= d.
Proof.
  intros Hs Hd Hd'. cbn [refine_values] in Hd'.
  apply set_distance_correct in Hd; [|discriminate]. apply set_distance_correct in Hd'; [|discriminate].
  subst d d'. cbn [set_distance nearest]. now apply median_best.
Qed.
