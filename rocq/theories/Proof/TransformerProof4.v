From Coq Require Import List ZArith Bool Lia Ascii Sorted Permutation.
From Coq Require Import ZifyBool ZifyNat.
From Verif Require Import Model.Names Model.Series Model.Transformer Spec.TransformerSpec Spec.TransformerInput
  Proof.SeriesProof Proof.TransformerProof Proof.TransformerProof2 Proof.TransformerProof3.
Import ListNotations.
Local Open Scope Z_scope.
Ltac Zify.zify_post_hook ::= Z.div_mod_to_equations.

Lemma insert_perm x l : Permutation (insert x l) (x :: l).
Proof.
  induction l as [|y l IH]; cbn; [reflexivity|]. destruct (x <=? y); [reflexivity|].
  rewrite IH. apply perm_swap.
Qed.
Lemma isort_perm l : Permutation (isort l) l.
Proof. induction l as [|x l IH]; cbn; [reflexivity|]. rewrite insert_perm. now constructor. Qed.
Lemma ascending_unique l1 l2 : ascending l1 -> ascending l2 -> Permutation l1 l2 -> l1 = l2.
Proof.
  revert l2. induction l1 as [|x l1 IH]; intros l2 H1 H2 HP.
  - apply Permutation_nil in HP. now rewrite HP.
  - destruct l2 as [|y l2]; [symmetry in HP; apply Permutation_nil in HP; discriminate|].
    destruct H1 as [Hx H1], H2 as [Hy H2].
    assert (x = y).
    { assert (In x (y :: l2)) as Hin by (apply (Permutation_in _ HP); now left).
      assert (In y (x :: l1)) as Hin' by (apply (Permutation_in _ (Permutation_sym HP)); now left).
      destruct Hin as [->|Hin]; [reflexivity|]. destruct Hin' as [->|Hin']; [reflexivity|].
      specialize (Hx y Hin'). specialize (Hy x Hin). lia. }
    subst y. f_equal. apply IH; auto. eapply Permutation_cons_inv. exact HP.
Qed.
Lemma ascending_app l x : ascending l -> (forall y, In y l -> y <= x) -> ascending (l ++ [x]).
Proof.
  induction l as [|y l IH]; intros H Hx; cbn; [intuition|].
  destruct H as [Hy H]. split.
  - intros z Hz. apply in_app_or in Hz. destruct Hz as [Hz|[<-|[]]]; [auto|]. apply Hx. now left.
  - apply IH; [exact H|]. intros z Hz. apply Hx. now right.
Qed.
Lemma decreasing_rev edges : decreasing edges -> ascending (rev edges).
Proof.
  induction 1 as [|x l H IH HF]; cbn; [exact I|]. apply ascending_app; [exact IH|].
  intros y Hy. apply in_rev in Hy. rewrite Forall_forall in HF. specialize (HF y Hy). lia.
Qed.
Lemma edges_orig edges bins : Permutation edges bins -> decreasing edges -> rev (isort bins) = edges.
Proof.
  intros HP Hd. assert (E : isort bins = rev edges).
  { apply ascending_unique; [apply isort_ascending|now apply decreasing_rev|].
    rewrite isort_perm, <- HP. apply Permutation_rev. }
  rewrite E. apply rev_involutive.
Qed.
Lemma decreasing_nodup edges : decreasing edges -> NoDup edges.
Proof.
  induction 1 as [|x l H IH HF]; constructor; auto. intros Hin. rewrite Forall_forall in HF.
  specialize (HF x Hin). lia.
Qed.
Lemma bin_pairs_seq edges :
  bin_pairs edges = map (fun i => (nth i edges 0, nth (S i) edges 0)) (seq 0 (length edges - 1)).
Proof.
  unfold bin_pairs. destruct edges as [|e edges]; [reflexivity|]. cbn [tl length].
  replace (S (length edges) - 1)%nat with (length edges) by lia.
  revert e. induction edges as [|b edges IH]; intros e; [reflexivity|].
  change (combine (e :: b :: edges) (b :: edges)) with ((e, b) :: combine (b :: edges) edges).
  rewrite IH. cbn [length seq map]. f_equal. rewrite <- seq_shift, map_map. reflexivity.
Qed.
Lemma total_span_nth edges : total_span edges = nth 0 edges 0 - nth (length edges - 1) edges 0.
Proof.
  unfold total_span. f_equal; [destruct edges; reflexivity|].
  destruct edges as [|e edges]; [reflexivity|]. cbn [length]. replace (S (length edges) - 1)%nat with (length edges) by lia.
  revert e. induction edges as [|b edges IH]; intros e; [reflexivity|].
  change (last (e :: b :: edges) 0) with (last (b :: edges) 0). rewrite IH. reflexivity.
Qed.

Section T.
Context {V : Type}.

Definition entry_key (label : entry V -> text) (klag : entry V -> option Z) (e : entry V) : key (V := V) :=
  Key (label e) (e_fun e) (klag e) (e_src e) (1 - e_rows e - e_from e) (e_from e - e_to e).

Lemma canon_entry label klag n sig e :
  length (sig (e_src e)) = n ->
  canon_col n sig (entry_key label klag e) = (label e, entry_values sig e).
Proof.
  intros Hn. unfold canon_col, entry_values, feature_column. cbn [k_name k_fun k_src k_lo k_len entry_key].
  f_equal. rewrite Hn. apply map_ext. intros i. f_equal. lia.
Qed.

Lemma canon_meta_entry label klag dt e :
  canon_meta dt (entry_key label klag e) =
  Meta (label e) (fn_name (e_fun e)) (klag e) (entry_start dt e) (entry_end dt e) (e_src e).
Proof.
  unfold canon_meta, entry_start, entry_end. cbn [k_name k_fun k_lag k_src k_lo k_len entry_key]. f_equal; ring.
Qed.

Lemma simple_keys_entries names (fs : list (aggfun V)) lags rel agg a :
  simple_keys names fs lags rel agg a =
  map (entry_key (entry_label (agg_text agg)) e_lag) (requested names (requested_lags lags rel a) [(a, 0)] fs).
Proof.
  unfold simple_keys, requested. rewrite map_flat_map. apply flat_map_ext. intros nm.
  set (c := Config names fs lags rel None None).
  rewrite map_flat_map.
  transitivity (flat_map (fun l => map (fun f => Key (simple_name c agg nm (l, f)) f l nm (- lag_rows c a l - a + 1) a) fs)
     (match lags with None => [None] | Some ls => map Some ls end)).
  - rewrite (flat_map_list_prod (fun l f => Key (simple_name c agg nm (l, f)) f l nm (- lag_rows c a l - a + 1) a)).
    apply map_ext. intros [l f]. reflexivity.
  - unfold requested_lags. destruct lags as [ls|].
    + rewrite !flat_map_map_in. apply flat_map_ext. intros l. cbn [flat_map fst snd].
      rewrite app_nil_r, map_map. apply map_ext. intros f. unfold entry_key. cbn [e_fun e_src e_rows e_from e_to e_lag].
      f_equal; [unfold lag_rows, c; cbn [c_rel lag_num]; destruct rel; lia|lia].
    + cbn [flat_map fst snd]. rewrite !app_nil_r, map_map. apply map_ext. intros f. unfold entry_key.
      cbn [e_fun e_src e_rows e_from e_to e_lag].
      f_equal; [unfold lag_rows, c; cbn [c_rel lag_num]; destruct rel; lia|lia].
Qed.

Lemma bins_keys_entries names (fs : list (aggfun V)) lags rel edges :
  bins_keys names fs lags rel edges =
  map (entry_key bin_label (fun e => Some (e_rows e)))
      (requested names (requested_lags lags rel (total_span edges)) (bin_pairs edges) fs).
Proof.
  unfold bins_keys, requested. rewrite map_flat_map. apply flat_map_ext. intros nm.
  set (c := Config names fs lags rel (Some edges) None).
  rewrite map_flat_map. unfold bin_keys.
  set (K := fun l i (f : aggfun V) => Key (binlag_name edges nm (l, (i, f))) f (Some (bin_lag_rows c edges l)) nm
              (- bin_lag_rows c edges l - nth i edges 0 + 1) (nth i edges 0 - nth (S i) edges 0)).
  transitivity (flat_map (fun l => flat_map (fun i => map (K l i) fs) (seq 0 (length edges - 1))) (lag_keys c)).
  - transitivity (flat_map (fun l => map (fun p => K l (fst p) (snd p)) (list_prod (seq 0 (length edges - 1)) fs)) (lag_keys c)).
    + rewrite (flat_map_list_prod (fun l p => K l (fst p) (snd p))). apply map_ext. intros [l [i f]]. reflexivity.
    + apply flat_map_ext. intros l. now rewrite <- (flat_map_list_prod (K l)).
  - unfold requested_lags, lag_keys. cbn [c_lags c].
    assert (Hx : forall lo z, bin_lag_rows c edges lo = z ->
       flat_map (fun i => map (K lo i) fs) (seq 0 (length edges - 1)) =
       map (entry_key bin_label (fun e => Some (e_rows e)))
         (flat_map (fun b => map (fun f => Entry nm f lo z (fst b) (snd b)) fs) (bin_pairs edges))).
    { intros lo z <-. rewrite bin_pairs_seq, flat_map_map_in, map_flat_map.
      apply flat_map_ext. intros i. rewrite map_map. apply map_ext. intros f. unfold K, entry_key.
      cbn [e_fun e_src e_rows e_from e_to e_lag fst snd]. f_equal. lia. }
    destruct lags as [ls|].
    + rewrite !flat_map_map_in. apply flat_map_ext. intros l. apply Hx.
      unfold bin_lag_rows. cbn. rewrite total_span_nth. reflexivity.
    + cbn [flat_map]. rewrite !app_nil_r. apply Hx. unfold bin_lag_rows. cbn. destruct rel; reflexivity.
Qed.

Lemma requested_in names lags bins (fs : list (aggfun V)) e :
  In e (requested names lags bins fs) ->
  In (e_src e) names /\ In (e_fun e) fs /\ In (e_lag e, e_rows e) lags /\ In (e_from e, e_to e) bins.
Proof.
  unfold requested. rewrite in_flat_map. intros (nm & Hnm & H). rewrite in_flat_map in H.
  destruct H as ([l r] & Hl & H). rewrite in_flat_map in H. destruct H as ([b1 b2] & Hb & H).
  apply in_map_iff in H. destruct H as (f & <- & Hf). cbn. tauto.
Qed.

Lemma lag_keys_length c lags rel k : c_lags c = lags ->
  length (lag_keys (V := V) c) = length (requested_lags lags rel k).
Proof. unfold lag_keys, requested_lags. intros ->. destruct lags; [now rewrite !map_length|reflexivity]. Qed.

Lemma map_canon_entries label klag n sig L names lags bins fs :
  L = requested names lags bins fs ->
  (forall nm, In nm names -> length (sig nm) = n) ->
  map (canon_col n sig) (map (entry_key label klag) L) = map (fun e => (label e, entry_values sig e)) L.
Proof.
  intros -> Hs. rewrite map_map. apply map_ext_in. intros e He. apply canon_entry, Hs.
  now apply requested_in in He.
Qed.

Lemma map_canon_meta_entries label klag dt L :
  map (canon_meta dt) (map (entry_key label klag) L) =
  map (fun e => Meta (label e) (fn_name (e_fun e)) (klag e) (entry_start dt e) (entry_end dt e) (e_src e)) L.
Proof. rewrite map_map. apply map_ext. intros e. apply canon_meta_entry. Qed.
End T.

(** C01/C03, without bins. *)
Lemma simple_features (V : Type) :
  forall names (fs : list (aggfun V)) agg_freq lags rel dt0 c s (x : frame V) sig t0 dt a augment,
  init_transformer names fs agg_freq lags rel None dt0 = Some (c, s) ->
  fs <> [] -> regular t0 dt (f_idx x) -> knows_dt dt0 dt (length (f_idx x)) ->
  has_signals x names sig -> denotes_steps agg_freq dt a -> 1 <= a ->
  let entries := requested names (requested_lags lags rel a) [(a, 0)] fs in
  let label := entry_label (agg_text (resolve_agg agg_freq dt)) in
  exists s',
    transform c s augment x =
    Some (s',
      Frame (f_idx x) ((if augment then f_cols x else []) ++ map (fun e => (label e, entry_values sig e)) entries),
      map (fun e => Meta (label e) (fn_name (e_fun e)) (e_lag e) (entry_start dt e) (entry_end dt e) (e_src e)) entries).
Proof.
  intros names fs agg_freq lags rel dt0 c s x sig t0 dt a augment Hi Hfs Hreg Hdt Hsig Hden Ha entries label.
  destruct (transform_simple names fs agg_freq lags rel dt0 c s x sig t0 dt a augment Hi Hfs Hreg Hdt Hsig Hden Ha) as [s' E].
  exists s'. rewrite E, simple_keys_entries. fold label entries.
  rewrite (map_canon_entries label e_lag (length (f_idx x)) sig entries names _ _ fs eq_refl), map_canon_meta_entries; [reflexivity|].
  intros nm Hnm. now apply Hsig.
Qed.

(** C01, with bins. *)
Lemma bins_features (V : Type) :
  forall names (fs : list (aggfun V)) agg_freq lags rel bins edges dt0 c s (x : frame V) sig t0 dt augment,
  init_transformer names fs agg_freq lags rel (Some bins) dt0 = Some (c, s) ->
  Permutation edges bins -> decreasing edges -> (forall b, In b bins -> 0 <= b) ->
  (forall ls l, lags = Some ls -> In l ls -> 0 <= l) ->
  fs <> [] -> regular t0 dt (f_idx x) -> knows_dt dt0 dt (length (f_idx x)) -> (2 <= length (f_idx x))%nat ->
  has_signals x names sig ->
  let entries := requested names (requested_lags lags rel (total_span edges)) (bin_pairs edges) fs in
  exists s' metas,
    transform c s augment x =
    Some (s',
      Frame (f_idx x) ((if augment then f_cols x else []) ++ map (fun e => (bin_label e, entry_values sig e)) entries),
      metas) /\
    map m_index metas = map bin_label entries /\ map m_name metas = map e_src entries.
Proof.
  intros names fs agg_freq lags rel bins edges dt0 c s x sig t0 dt augment Hi HP Hdec Hb0 Hlags Hfs Hreg Hdt Hn Hsig entries.
  assert (Hnd : NoDup bins) by (apply (Permutation_NoDup HP), decreasing_nodup, Hdec).
  pose proof (edges_orig edges bins HP Hdec) as Ho.
  destruct (transform_bins names fs agg_freq lags rel bins dt0 c s x sig t0 dt augment Hi Hfs Hreg Hdt Hn Hsig Hnd Hb0 Hlags) as [Hc [s' E]].
  rewrite Ho in E, Hc. eexists s', _. split; [rewrite E, bins_keys_entries; fold entries|].
  - rewrite (map_canon_entries bin_label (fun e => Some (e_rows e)) (length (f_idx x)) sig entries names _ _ fs eq_refl); [reflexivity|].
    intros nm Hnm. now apply Hsig.
  - assert (Hk : map (fun q => (k_name q, k_src q)) (bins_keys names fs lags rel edges) = map (fun e => (bin_label e, e_src e)) entries).
    { rewrite bins_keys_entries, map_map. reflexivity. }
    assert (Hidx : map m_index (flat_map (raw_metas c edges dt) names) = map k_name (bins_keys names fs lags rel edges) /\
                   map m_name (flat_map (raw_metas c edges dt) names) = map k_src (bins_keys names fs lags rel edges)).
    { unfold bins_keys. rewrite !map_flat_map. subst c. split; apply flat_map_ext; intros nm;
      match goal with |- map _ (raw_metas ?c ?o ?d ?n) = _ => destruct (raw_metas_shape c o d n) as (_ & E1 & E2) end.
      - rewrite E1, map_map. reflexivity.
      - rewrite E2, map_map. reflexivity. }
    destruct Hidx as [-> ->]. split.
    + apply (f_equal (map fst)) in Hk. rewrite !map_map in Hk. exact Hk.
    + apply (f_equal (map snd)) in Hk. rewrite !map_map in Hk. exact Hk.
Qed.

(** C03, with bins: the metadata rows describe the columns next to them when at
    most one of lags, functions and bins is not a singleton. *)
Lemma bins_metadata (V : Type) :
  forall names (fs : list (aggfun V)) agg_freq lags rel bins edges dt0 c s (x : frame V) sig t0 dt augment,
  init_transformer names fs agg_freq lags rel (Some bins) dt0 = Some (c, s) ->
  Permutation edges bins -> decreasing edges -> (forall b, In b bins -> 0 <= b) ->
  (forall ls l, lags = Some ls -> In l ls -> 0 <= l) ->
  fs <> [] -> regular t0 dt (f_idx x) -> knows_dt dt0 dt (length (f_idx x)) -> (2 <= length (f_idx x))%nat ->
  has_signals x names sig ->
  two_singletons (length (requested_lags lags rel (total_span edges))) (length fs) (length (bin_pairs edges)) ->
  let entries := requested names (requested_lags lags rel (total_span edges)) (bin_pairs edges) fs in
  exists s',
    transform c s augment x =
    Some (s',
      Frame (f_idx x) ((if augment then f_cols x else []) ++ map (fun e => (bin_label e, entry_values sig e)) entries),
      map (fun e => Meta (bin_label e) (fn_name (e_fun e)) (Some (e_rows e)) (entry_start dt e) (entry_end dt e) (e_src e)) entries).
Proof.
  intros names fs agg_freq lags rel bins edges dt0 c s x sig t0 dt augment Hi HP Hdec Hb0 Hlags Hfs Hreg Hdt Hn Hsig H2 entries.
  assert (Hnd : NoDup bins) by (apply (Permutation_NoDup HP), decreasing_nodup, Hdec).
  pose proof (edges_orig edges bins HP Hdec) as Ho.
  destruct (transform_bins names fs agg_freq lags rel bins dt0 c s x sig t0 dt augment Hi Hfs Hreg Hdt Hn Hsig Hnd Hb0 Hlags) as [Hc [s' E]].
  rewrite Ho in E, Hc. exists s'. rewrite E. subst c. rewrite bins_metas_keys.
  - rewrite bins_keys_entries. fold entries.
    rewrite (map_canon_entries bin_label (fun e => Some (e_rows e)) (length (f_idx x)) sig entries names _ _ fs eq_refl), map_canon_meta_entries; [reflexivity|].
    intros nm Hnm. now apply Hsig.
  - rewrite (lag_keys_length (Config names fs lags rel (Some edges) dt0) lags rel (total_span edges) eq_refl).
    rewrite bin_pairs_seq, map_length, seq_length in H2. exact H2.
Qed.

(** C02. *)
Definition window_ok {V} (x : frame V) (t0 dt : Z) (sig1 sig2 : text -> series V) (m : meta) (c1 c2 : text * series V) : Prop :=
  m_index m = fst c1 /\ m_index m = fst c2 /\
  reads_only (f_idx x) (m_start m) (m_end m) (sig1 (m_name m)) (sig2 (m_name m)) (snd c1) (snd c2) /\
  needs_all t0 dt (m_start m) (m_end m) (sig1 (m_name m)) (snd c1).

Section W.
Context {V : Type}.
Lemma windows_of_entries (x : frame V) t0 dt sig1 sig2 names label (L : list (entry V)) metas :
  regular t0 dt (f_idx x) ->
  (forall nm, In nm names -> length (sig1 nm) = length (f_idx x) /\ length (sig2 nm) = length (f_idx x)) ->
  (forall e, In e L -> In (e_src e) names /\ 1 <= e_from e - e_to e) ->
  map (fun m => (m_index m, m_name m, (m_start m, m_end m))) metas =
  map (fun e => (label e, e_src e, (entry_start dt e, entry_end dt e))) L ->
  forall k m c1 c2, nth_error metas k = Some m ->
    nth_error (map (fun e => (label e, entry_values sig1 e)) L) k = Some c1 ->
    nth_error (map (fun e => (label e, entry_values sig2 e)) L) k = Some c2 ->
    window_ok x t0 dt sig1 sig2 m c1 c2.
Proof.
  intros Hreg Hlen HL Heq k m c1 c2 Hm Hc1 Hc2.
  apply nth_error_map_inv in Hc1. destruct Hc1 as (e & He & ->).
  rewrite nth_error_map, He in Hc2. cbn in Hc2. injection Hc2 as <-.
  assert (Hk : nth_error (map (fun m => (m_index m, m_name m, (m_start m, m_end m))) metas) k
             = Some (m_index m, m_name m, (m_start m, m_end m))) by (rewrite nth_error_map, Hm; reflexivity).
  rewrite Heq, nth_error_map, He in Hk. cbn in Hk. injection Hk as E1 E2 E3 E4.
  destruct (HL e (nth_error_In _ _ He)) as [Hsrc Hpos].
  destruct (Hlen _ Hsrc) as [L1 L2].
  assert (Hdes : forall sig, length (sig (e_src e)) = length (f_idx x) ->
     describes (fn (e_fun e)) dt (sig (e_src e)) (entry_start dt e) (entry_end dt e) (entry_values sig e)).
  { intros sig Hl. exists (1 - e_rows e - e_from e), (e_from e - e_to e). unfold entry_start, entry_end, entry_values, feature_column.
    repeat split; try lia.
    - now rewrite map_length, seq_length.
    - intros i Hi. rewrite nth_map_seq by lia. f_equal. lia. }
  unfold window_ok. cbn [fst snd]. rewrite <- E1, <- E2, <- E3, <- E4. repeat split.
  - eapply describes_reads_only; eauto.
  - eapply describes_needs_all; [apply Hreg|]. apply (Hdes sig1 L1).
Qed.
End W.

Lemma simple_windows (V : Type) :
  forall names (fs : list (aggfun V)) agg_freq lags rel dt0 c s (x1 x2 : frame V) sig1 sig2 t0 dt a,
  init_transformer names fs agg_freq lags rel None dt0 = Some (c, s) ->
  fs <> [] -> regular t0 dt (f_idx x1) -> f_idx x2 = f_idx x1 -> knows_dt dt0 dt (length (f_idx x1)) ->
  has_signals x1 names sig1 -> has_signals x2 names sig2 -> denotes_steps agg_freq dt a -> 1 <= a ->
  exists s1 s2 cols1 cols2 metas,
    transform c s false x1 = Some (s1, Frame (f_idx x1) cols1, metas) /\
    transform c s false x2 = Some (s2, Frame (f_idx x1) cols2, metas) /\
    length metas = length cols1 /\ length metas = length cols2 /\
    forall k m c1 c2, nth_error metas k = Some m -> nth_error cols1 k = Some c1 -> nth_error cols2 k = Some c2 ->
      m_index m = fst c1 /\ m_index m = fst c2 /\
      reads_only (f_idx x1) (m_start m) (m_end m) (sig1 (m_name m)) (sig2 (m_name m)) (snd c1) (snd c2) /\
      needs_all t0 dt (m_start m) (m_end m) (sig1 (m_name m)) (snd c1).
Proof.
  intros names fs agg_freq lags rel dt0 c s x1 x2 sig1 sig2 t0 dt a Hi Hfs Hreg Hidx Hdt Hs1 Hs2 Hden Ha.
  destruct (simple_features V names fs agg_freq lags rel dt0 c s x1 sig1 t0 dt a false Hi Hfs Hreg Hdt Hs1 Hden Ha) as [s1 E1].
  assert (Hreg2 : regular t0 dt (f_idx x2)) by (rewrite Hidx; exact Hreg).
  assert (Hdt2 : knows_dt dt0 dt (length (f_idx x2))) by (rewrite Hidx; exact Hdt).
  destruct (simple_features V names fs agg_freq lags rel dt0 c s x2 sig2 t0 dt a false Hi Hfs Hreg2 Hdt2 Hs2 Hden Ha) as [s2 E2].
  rewrite Hidx in E2. cbn [app] in E1, E2.
  eexists s1, s2, _, _, _. split; [exact E1|]. split; [exact E2|].
  split; [now rewrite !map_length|]. split; [now rewrite !map_length|].
  intros k m c1 c2 Hm Hc1 Hc2.
  eapply (windows_of_entries x1 t0 dt sig1 sig2 names); [exact Hreg| | | |exact Hm|exact Hc1|exact Hc2].
  - intros nm Hnm. split; [apply Hs1, Hnm|]. rewrite <- Hidx. apply Hs2, Hnm.
  - intros e He. apply requested_in in He. destruct He as (H1 & _ & _ & [E|[]]). injection E as <- <-. split; [exact H1|lia].
  - rewrite map_map. reflexivity.
Qed.

Lemma bins_windows (V : Type) :
  forall names (fs : list (aggfun V)) agg_freq lags rel bins edges dt0 c s (x1 x2 : frame V) sig1 sig2 t0 dt,
  init_transformer names fs agg_freq lags rel (Some bins) dt0 = Some (c, s) ->
  Permutation edges bins -> decreasing edges -> (forall b, In b bins -> 0 <= b) ->
  (forall ls l, lags = Some ls -> In l ls -> 0 <= l) ->
  fs <> [] -> regular t0 dt (f_idx x1) -> f_idx x2 = f_idx x1 -> knows_dt dt0 dt (length (f_idx x1)) ->
  (2 <= length (f_idx x1))%nat ->
  has_signals x1 names sig1 -> has_signals x2 names sig2 ->
  length (requested_lags lags rel (total_span edges)) = 1%nat ->
  exists s1 s2 cols1 cols2 metas,
    transform c s false x1 = Some (s1, Frame (f_idx x1) cols1, metas) /\
    transform c s false x2 = Some (s2, Frame (f_idx x1) cols2, metas) /\
    length metas = length cols1 /\ length metas = length cols2 /\
    forall k m c1 c2, nth_error metas k = Some m -> nth_error cols1 k = Some c1 -> nth_error cols2 k = Some c2 ->
      m_index m = fst c1 /\ m_index m = fst c2 /\
      reads_only (f_idx x1) (m_start m) (m_end m) (sig1 (m_name m)) (sig2 (m_name m)) (snd c1) (snd c2) /\
      needs_all t0 dt (m_start m) (m_end m) (sig1 (m_name m)) (snd c1).
Proof.
  intros names fs agg_freq lags rel bins edges dt0 c s x1 x2 sig1 sig2 t0 dt Hi HP Hdec Hb0 Hlags Hfs Hreg Hidx Hdt Hn Hs1 Hs2 H1.
  assert (Hnd : NoDup bins) by (apply (Permutation_NoDup HP), decreasing_nodup, Hdec).
  pose proof (edges_orig edges bins HP Hdec) as Ho.
  assert (Hreg2 : regular t0 dt (f_idx x2)) by (rewrite Hidx; exact Hreg).
  assert (Hdt2 : knows_dt dt0 dt (length (f_idx x2))) by (rewrite Hidx; exact Hdt).
  assert (Hn2 : (2 <= length (f_idx x2))%nat) by (rewrite Hidx; exact Hn).
  destruct (transform_bins names fs agg_freq lags rel bins dt0 c s x1 sig1 t0 dt false Hi Hfs Hreg Hdt Hn Hs1 Hnd Hb0 Hlags) as [Hc [s1 E1]].
  destruct (transform_bins names fs agg_freq lags rel bins dt0 c s x2 sig2 t0 dt false Hi Hfs Hreg2 Hdt2 Hn2 Hs2 Hnd Hb0 Hlags) as [_ [s2 E2]].
  rewrite Ho in E1, E2, Hc. rewrite Hidx in E2. cbn [app] in E1, E2.
  rewrite bins_keys_entries in E1, E2.
  rewrite (map_canon_entries bin_label (fun e => Some (e_rows e)) (length (f_idx x1)) sig1 _ names _ _ fs eq_refl) in E1 by (intros nm Hnm; now apply Hs1).
  rewrite (map_canon_entries bin_label (fun e => Some (e_rows e)) (length (f_idx x1)) sig2 _ names _ _ fs eq_refl) in E2
    by (intros nm Hnm; rewrite <- Hidx; now apply Hs2).
  eexists s1, s2, _, _, _. split; [exact E1|]. split; [exact E2|].
  assert (Hlk : exists l, lag_keys c = [l]).
  { rewrite <- (lag_keys_length c lags rel (total_span edges)) in H1 by (subst c; reflexivity). now apply length_one. }
  destruct Hlk as [l Hlk].
  assert (Hw : map (fun m => (m_index m, m_name m, (m_start m, m_end m))) (flat_map (raw_metas c edges dt) names) =
     map (fun e => (bin_label e, e_src e, (entry_start dt e, entry_end dt e)))
       (requested names (requested_lags lags rel (total_span edges)) (bin_pairs edges) fs)).
  { subst c. rewrite (bins_windows_keys names fs lags rel edges dt0 dt l Hlk), bins_keys_entries, map_map.
    apply map_ext. intros e. rewrite canon_meta_entry. reflexivity. }
  pose proof (f_equal (@length _) Hw) as Hwl. rewrite !map_length in Hwl.
  split; [now rewrite map_length|]. split; [now rewrite map_length|].
  intros k m c1 c2 Hm Hc1 Hc2.
  eapply (windows_of_entries x1 t0 dt sig1 sig2 names); [exact Hreg| | |exact Hw|exact Hm|exact Hc1|exact Hc2].
  - intros nm Hnm. split; [apply Hs1, Hnm|]. rewrite <- Hidx. apply Hs2, Hnm.
  - intros e He. apply requested_in in He. destruct He as (Ha & _ & _ & Hb). split; [exact Ha|].
    rewrite bin_pairs_seq in Hb. apply in_map_iff in Hb. destruct Hb as (i & Eb & Hi'). injection Eb as <- <-.
    apply in_seq in Hi'. pose proof (orig_descending bins i Hnd) as Hd. rewrite Ho in Hd. specialize (Hd ltac:(lia)). lia.
Qed.

(** C01, causality on any index. *)
Lemma causality (V : Type) :
  forall (c : config V) s idx cols1 cols2 m q dt,
  sampling_time (c_dt c) idx = Some dt ->
  (c_lags c = None -> q = O) ->
  (forall ls l, c_lags c = Some ls -> In l ls ->
     Z.of_nat q <= match c_rel c, c_bins c with
                   | false, _ => l
                   | true, None => l * (agg_ns (resolve_agg (st_agg s) dt) ÷ dt)
                   | true, Some edges => l * total_span edges
                   end) ->
  (forall edges b, c_bins c = Some edges -> In b edges -> 0 <= b) ->
  same_past m cols1 cols2 ->
  match transform c s false (Frame idx cols1), transform c s false (Frame idx cols2) with
  | Some (s1, y1, ms1), Some (s2, y2, ms2) =>
      s1 = s2 /\ ms1 = ms2 /\ same_past (m + q) (f_cols y1) (f_cols y2)
  | None, None => True
  | _, _ => False
  end.
Proof.
  intros c s idx cols1 cols2 m q dt Hdt Hq0 Hq Hb Hp.
  assert (Heq : forall m (l1 l2 : list (text * series V)), same_past m l1 l2 <-> Forall2 (past_agree m) l1 l2).
  { intros k l1 l2. unfold same_past, past_agree, agree. reflexivity. }
  rewrite Heq in Hp. unfold transform. cbn [f_idx f_cols app].
  pose proof (transform_names_past c s idx cols1 cols2 (c_names c) m q dt Hdt) as H.
  destruct (transform_names c s idx cols1 (c_names c)) as [[[s1 c1] m1]|], (transform_names c s idx cols2 (c_names c)) as [[[s2 c2] m2]|];
    cbn [f_cols]; try rewrite Heq; apply H; try exact Hp;
    try (intros orig i Eb Hi; apply (Hb orig); [exact Eb|apply nth_In; exact Hi]);
    (split; [exact Hq0|]; intros ls l Els Hl; specialize (Hq ls l Els Hl);
     destruct (c_rel c), (c_bins c) as [orig|]; rewrite ?total_span_nth in Hq; exact Hq).
Qed.

(** C04: histories with one sampling time. *)
Section H.
Context {V : Type}.
Implicit Types (c : config V) (s : state).
Definition same_res (dt dt' : Z) s1 s2 : Prop :=
  resolve_agg (st_agg s1) dt = resolve_agg (st_agg s2) dt /\
  map (fun a => resolve_agg a dt') (st_subs s1) = map (fun a => resolve_agg a dt') (st_subs s2).

Lemma transform_name_same c s1 s2 idx name d dt :
  sampling_time (c_dt c) idx = Some dt ->
  (c_bins c = None \/ exists dt', median (diffs idx) = Some dt' /\ same_res dt dt' s1 s2) ->
  resolve_agg (st_agg s1) dt = resolve_agg (st_agg s2) dt ->
  match transform_name c s1 idx name d, transform_name c s2 idx name d with
  | Some (t1, c1, m1), Some (t2, c2, m2) => c1 = c2 /\ m1 = m2
  | None, None => True
  | _, _ => False
  end.
Proof.
  intros Hdt Hb Ha. unfold transform_name. rewrite Hdt, Ha.
  destruct (c_bins c) as [orig|] eqn:Eb.
  - destruct Hb as [Hb|(dt' & Hmed & _ & Hs)]; [discriminate|]. rewrite Hmed.
    assert (Hbc : forall fs, bin_columns idx dt' (st_subs s1) orig fs name d = bin_columns idx dt' (st_subs s2) orig fs name d).
    { intros fs. unfold bin_columns. f_equal. apply flat_map_ext. intros i.
      assert (Hi : resolve_agg (nth i (st_subs s1) AggNone) dt' = resolve_agg (nth i (st_subs s2) AggNone) dt').
      { rewrite <- !(map_nth (fun a => resolve_agg a dt')). now rewrite Hs. }
      now rewrite Hi. }
    assert (Hbase : match c_functions c with [] => [(name, d)] | a :: l => bin_columns idx dt' (st_subs s1) orig (a :: l) name d end
                  = match c_functions c with [] => [(name, d)] | a :: l => bin_columns idx dt' (st_subs s2) orig (a :: l) name d end)
      by (destruct (c_functions c); [reflexivity|apply Hbc]).
    rewrite Hbase.
    match goal with |- context [Nat.eqb ?a ?b] => destruct (Nat.eqb a b) end; [|exact I]. split; reflexivity.
  - split; reflexivity.
Qed.

Lemma transform_name_state c s idx name d t cs ms dt dt' :
  sampling_time (c_dt c) idx = Some dt -> median (diffs idx) = Some dt' ->
  transform_name c s idx name d = Some (t, cs, ms) -> same_res dt dt' t s.
Proof.
  intros Hdt Hmed. unfold transform_name. rewrite Hdt, Hmed.
  destruct (c_bins c) as [orig|].
  - match goal with |- context [Nat.eqb ?a ?b] => destruct (Nat.eqb a b) end; [|discriminate].
    intros [= <- _ _]. split; cbn [st_agg st_subs]; [apply resolve_idem|].
    destruct (c_functions c); [reflexivity|]. rewrite map_map. apply map_ext. intros b. apply resolve_idem.
  - intros [= <- _ _]. split; cbn [st_agg st_subs]; [apply resolve_idem|reflexivity].
Qed.

Lemma transform_names_state c s idx x names t cs ms dt dt' :
  sampling_time (c_dt c) idx = Some dt -> median (diffs idx) = Some dt' ->
  transform_names c s idx x names = Some (t, cs, ms) -> same_res dt dt' t s.
Proof.
  intros Hdt Hmed. revert s cs ms. induction names as [|nm names IH]; intros s cs ms; cbn [transform_names].
  - intros [= <- _ _]. split; reflexivity.
  - destruct (get_col x nm) as [d|]; [|discriminate].
    destruct (transform_name c s idx nm d) as [[[s1 c1] m1]|] eqn:E1; [|discriminate].
    destruct (transform_names c s1 idx x names) as [[[s2 c2] m2]|] eqn:E2; [|discriminate].
    intros [= <- _ _]. apply (transform_name_state c s idx nm d s1 c1 m1 dt dt' Hdt Hmed) in E1.
    apply IH in E2. destruct E1 as [A B], E2 as [C D]. split; congruence.
Qed.

Lemma transform_names_same c s1 s2 idx x names dt dt' :
  sampling_time (c_dt c) idx = Some dt -> median (diffs idx) = Some dt' -> same_res dt dt' s1 s2 ->
  match transform_names c s1 idx x names, transform_names c s2 idx x names with
  | Some (t1, c1, m1), Some (t2, c2, m2) => c1 = c2 /\ m1 = m2
  | None, None => True
  | _, _ => False
  end.
Proof.
  intros Hdt Hmed. revert s1 s2. induction names as [|nm names IH]; intros s1 s2 Hs; cbn [transform_names].
  - split; reflexivity.
  - destruct (get_col x nm) as [d|]; [|exact I].
    pose proof (transform_name_same c s1 s2 idx nm d dt Hdt) as H1.
    assert (H1' := H1 (or_intror (ex_intro _ dt' (conj Hmed Hs))) (proj1 Hs)). clear H1.
    destruct (transform_name c s1 idx nm d) as [[[t1 c1] m1]|] eqn:E1, (transform_name c s2 idx nm d) as [[[t2 c2] m2]|] eqn:E2;
      try contradiction; [|exact I].
    destruct H1' as [-> ->].
    apply (transform_name_state c _ idx nm d _ _ _ dt dt' Hdt Hmed) in E1.
    apply (transform_name_state c _ idx nm d _ _ _ dt dt' Hdt Hmed) in E2.
    assert (Hs' : same_res dt dt' t1 t2) by (destruct Hs, E1, E2; split; congruence).
    specialize (IH t1 t2 Hs').
    destruct (transform_names c t1 idx x names) as [[[t3 c3] m3]|], (transform_names c t2 idx x names) as [[[t4 c4] m4]|];
      try contradiction; [|exact I].
    destruct IH as [-> ->]. split; reflexivity.
Qed.
End H.

Lemma same_sampling_history (V : Type) :
  forall (c : config V) s history s' x dt dt' augment,
  reached c s history s' ->
  (forall y, In y (x :: history) -> sampling_time (c_dt c) (f_idx y) = Some dt /\ median (diffs (f_idx y)) = Some dt') ->
  match transform c s augment x, transform c s' augment x with
  | Some (_, y1, ms1), Some (_, y2, ms2) => y1 = y2 /\ ms1 = ms2
  | None, None => True
  | _, _ => False
  end.
Proof.
  intros c s history s' x dt dt' augment Hr Hall.
  assert (Hs : same_res dt dt' s' s).
  { induction Hr as [s|s y ys aug s1 s2 fr ms E Hr IH]; [split; reflexivity|].
    destruct (Hall y (or_intror (or_introl eq_refl))) as [H1 H2].
    unfold transform in E. destruct (transform_names c s (f_idx y) (f_cols y) (c_names c)) as [[[t cs] m]|] eqn:E1; [|discriminate].
    injection E as -> _ _. apply (transform_names_state c s _ _ _ _ _ _ dt dt' H1 H2) in E1.
    assert (IH' : same_res dt dt' s2 s1).
    { apply IH. intros z [->|Hz]; apply Hall; [now left|right; now right]. }
    destruct E1, IH'. split; congruence. }
  destruct (Hall x (or_introl eq_refl)) as [H1 H2]. unfold transform.
  pose proof (transform_names_same c s s' (f_idx x) (f_cols x) (c_names c) dt dt' H1 H2) as H.
  assert (Hs' : same_res dt dt' s s') by (destruct Hs; split; congruence). specialize (H Hs').
  destruct (transform_names c s (f_idx x) (f_cols x) (c_names c)) as [[[t1 c1] m1]|],
    (transform_names c s' (f_idx x) (f_cols x) (c_names c)) as [[[t2 c2] m2]|]; try contradiction; [|exact I].
  destruct H as [-> ->]. split; reflexivity.
Qed.

(** Refutations. *)
Lemma windows_refuted :
  exists names fs agg_freq lags rel c s (x1 x2 : frame Z) t0 dt s1 s2 cols1 cols2 metas m c1 c2,
    init_transformer names fs agg_freq lags rel None None = Some (c, s) /\
    regular t0 dt (f_idx x1) /\ f_idx x2 = f_idx x1 /\
    transform c s false x1 = Some (s1, Frame (f_idx x1) cols1, metas) /\
    transform c s false x2 = Some (s2, Frame (f_idx x1) cols2, metas) /\
    nth_error metas 0 = Some m /\ nth_error cols1 0 = Some c1 /\ nth_error cols2 0 = Some c2 /\
    exists d1 d2, get_col (f_cols x1) (m_name m) = Some d1 /\ get_col (f_cols x2) (m_name m) = Some d2 /\
      ~ reads_only (f_idx x1) (m_start m) (m_end m) d1 d2 (snd c1) (snd c2).
Proof.
  set (x1 := Frame [0; 2; 4] [(tx, [Some 10; Some 11; Some 12])]).
  set (x2 := Frame [0; 2; 4] [(tx, [Some 10; Some 99; Some 12])]).
  exists [tx], [f_first], (AggTime 3), None, false. do 2 eexists. exists x1, x2, 0, 2. do 8 eexists.
  split; [reflexivity|]. split.
  { split; [lia|]. intros i Hi. cbn in Hi. destruct i as [|[|[|i]]]; try reflexivity; lia. }
  split; [reflexivity|]. split; [reflexivity|]. split; [reflexivity|].
  split; [reflexivity|]. split; [reflexivity|]. split; [reflexivity|].
  do 2 eexists. split; [reflexivity|]. split; [reflexivity|].
  intros H. specialize (H 2%nat ltac:(cbn; lia)).
  assert (E : nth 2 [Some 10; Some 10; Some 11] (None : option Z) = nth 2 [Some 10; Some 10; Some 99] None).
  { apply H. intros j Hj. cbn in Hj. destruct j as [|[|[|j]]]; cbn; intros; try reflexivity; lia. }
  discriminate.
Qed.

Lemma x4_regular : regular 0 1 (f_idx x4).
Proof. split; [lia|]. intros i Hi. cbn in Hi. do 5 (destruct i as [|i]; [reflexivity|]). lia. Qed.
Lemma x4_signals : has_signals x4 [tx] sig4.
Proof. intros nm [<-|[]]. split; reflexivity. Qed.

Ltac mislabel k :=
  do 2 eexists; exists x4, sig4, 0, 1; do 2 eexists; exists k; do 2 eexists;
  split; [reflexivity|]; split; [apply x4_regular|]; split; [apply x4_signals|];
  split; [cbn; lia|]; split; [vm_compute; reflexivity|]; split; [reflexivity|]; split; [reflexivity|];
  intros (H1 & H2 & H3 & H4); vm_compute in H1, H2, H3, H4; congruence.

Lemma bins_metadata_refuted :
  mislabelled [f_last; f_first] None [2; 1; 0] /\
  mislabelled [f_last] (Some [1; 2]) [2; 1; 0] /\
  mislabelled [f_last; f_first] (Some [1; 2]) [2; 0].
Proof.
  split; [mislabel 1%nat|]. split; [mislabel 1%nat|mislabel 1%nat].
Qed.

(** C04: a transformer remembers the sampling time of the first frame. *)
Lemma history_refuted :
  exists (c : config Z) s (x y : frame Z) s1 fry msy s2 fr1 ms1 s3 fr2 ms2,
    init_transformer [tx] [f_first] (AggInt 2) None false None None = Some (c, s) /\
    regular 0 1 (f_idx y) /\ regular 0 2 (f_idx x) /\
    transform c s false y = Some (s1, fry, msy) /\
    transform c s false x = Some (s2, fr1, ms1) /\
    transform c s1 false x = Some (s3, fr2, ms2) /\
    map snd (f_cols fr1) <> map snd (f_cols fr2) /\
    map m_start ms1 <> map m_start ms2.
Proof.
  do 2 eexists.
  exists (Frame [0; 2; 4] [(tx, [Some 10; Some 11; Some 12])]), (Frame [0; 1; 2] [(tx, [Some 10; Some 11; Some 12])]).
  do 9 eexists. split; [reflexivity|].
  split. { split; [lia|]. intros i Hi. cbn in Hi. do 3 (destruct i as [|i]; [reflexivity|]). lia. }
  split. { split; [lia|]. intros i Hi. cbn in Hi. do 3 (destruct i as [|i]; [reflexivity|]). lia. }
  split; [vm_compute; reflexivity|]. split; [vm_compute; reflexivity|]. split; [vm_compute; reflexivity|].
  split; intros H; vm_compute in H; discriminate.
Qed.
