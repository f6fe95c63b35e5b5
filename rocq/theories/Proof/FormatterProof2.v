From Coq Require Import List ZArith Bool Lia Ascii Sorted.
From Coq Require Import ZifyBool ZifyNat.
From Verif Require Import Model.Names Model.Series Model.Transformer Model.Formatter
  Spec.TransformerSpec Spec.FormatterSpec Spec.FormatterInput Proof.SeriesProof Proof.FormatterProof.
Import ListNotations.
Local Open Scope Z_scope.

Lemma some_inj {A} (a b : A) : Some a = Some b -> a = b.
Proof. now intros [= ->]. Qed.

Lemma fold_max_spec l x : (In (fold_left Z.max l x) (x :: l)) /\ (forall y, In y (x :: l) -> y <= fold_left Z.max l x).
Proof.
  revert x. induction l as [|a l IH]; intros x; cbn [fold_left].
  - split; [now left|]. intros y [<-|[]]. lia.
  - destruct (IH (Z.max x a)) as [H1 H2]. split.
    + destruct H1 as [H1|H1].
      * rewrite <- H1. destruct (Z.max_spec x a) as [[_ ->]|[_ ->]]; [right; now left|now left].
      * right. now right.
    + intros y [<-|[<-|Hy]].
      * specialize (H2 (Z.max x a) (or_introl eq_refl)). lia.
      * specialize (H2 (Z.max x a) (or_introl eq_refl)). lia.
      * apply H2. now right.
Qed.

Lemma deadband_widest metas d : deadband metas = Some d -> widest (map m_start (concat metas)) d.
Proof.
  unfold deadband, zmax_list, widest. intros H.
  replace (map (fun m => Z.abs (m_start m)) (concat metas)) with (map Z.abs (map m_start (concat metas))) in H
    by (now rewrite map_map).
  destruct (map Z.abs (map m_start (concat metas))) as [|a l] eqn:E; [discriminate|].
  injection H as <-. destruct (fold_max_spec l a) as [H1 H2]. split; [exact H1|].
  intros s Hs. apply H2. rewrite <- E. now apply in_map.
Qed.

Lemma nth_map_bool (f : Z -> bool) l i : (i < length l)%nat -> nth i (map f l) false = f (nth i l 0).
Proof.
  intros Hi. rewrite (nth_indep _ false (f 0)) by (rewrite map_length; exact Hi). apply map_nth.
Qed.

Lemma cv_separation :
  forall idx n_k mult metas folds train test,
  time_kfcv idx n_k mult metas = Some folds -> In (train, test) folds ->
  length train = length idx /\ length test = length idx /\
  exists d a w,
    widest (map m_start (concat metas)) d /\ d <= w /\
    (forall i, (i < length idx)%nat ->
       (nth i test false = true <-> a <= nth i idx 0 <= a + w) /\
       (nth i train false = true <-> nth i idx 0 < a - d \/ a + w + d < nth i idx 0)) /\
    (forall i, ~ (nth i train false = true /\ nth i test false = true)) /\
    (forall t1 t2, selected idx train t1 -> selected idx test t2 -> d < Z.abs (t1 - t2)) /\
    (forall t1 t2 m u, selected idx train t1 -> selected idx test t2 -> In m (concat metas) ->
       m_start m <= u <= 0 -> t1 + u <> t2 /\ t2 + u <> t1).
Proof.
  intros idx n_k mult metas folds train test H Hin. unfold time_kfcv in H.
  destruct idx as [|t0 rest]; [discriminate|]. set (idx := t0 :: rest) in *.
  destruct (n_k <? 2)%nat; [discriminate|]. cbv zeta in H.
  set (w := nth 1 (date_range t0 (last idx 0) n_k) 0 - nth 0 (date_range t0 (last idx 0) n_k) 0) in *.
  destruct (deadband metas) as [db|] eqn:Edb; [|discriminate].
  destruct (w <? db) eqn:Ew; [discriminate|]. apply some_inj in H. subst folds.
  apply in_map_iff in Hin. destruct Hin as (a & Epair & _). apply pair_equal_spec in Epair. destruct Epair as [<- <-].
  apply deadband_widest in Edb.
  split; [now rewrite map_length|]. split; [now rewrite map_length|].
  exists db, a, w.
  assert (Hi : forall i, (i < length idx)%nat ->
       (nth i (map (fun t => (a <=? t) && (t <=? w + a)) idx) false = true <-> a <= nth i idx 0 <= a + w) /\
       (nth i (map (fun t => (t <? a - db) || (w + a + db <? t)) idx) false = true <->
          nth i idx 0 < a - db \/ a + w + db < nth i idx 0)).
  { intros i Hi. rewrite !nth_map_bool by exact Hi. lia. }
  assert (Hdb : 0 <= db). { destruct Edb as [Edb _]. apply in_map_iff in Edb. destruct Edb as (s & <- & _). lia. }
  assert (Hsep : forall t1 t2, selected idx (map (fun t => (t <? a - db) || (w + a + db <? t)) idx) t1 ->
       selected idx (map (fun t => (a <=? t) && (t <=? w + a)) idx) t2 -> db < Z.abs (t1 - t2)).
  { intros t1 t2 (i & Hi1 & <- & Hi2) (j & Hj1 & <- & Hj2).
    apply (Hi i Hi1) in Hi2. apply (Hi j Hj1) in Hj2. lia. }
  split; [exact Edb|]. split; [lia|]. split; [exact Hi|]. split; [|split].
  - intros i [H1 H2]. destruct (Nat.lt_ge_cases i (length idx)) as [Hl|Hl].
    + apply (Hi i Hl) in H1. apply (Hi i Hl) in H2. lia.
    + rewrite nth_overflow in H1 by (now rewrite map_length). discriminate.
  - exact Hsep.
  - intros t1 t2 m u H1 H2 Hm Hu. specialize (Hsep t1 t2 H1 H2).
    destruct Edb as [_ Edb]. specialize (Edb (m_start m) (in_map m_start _ _ Hm)). lia.
Qed.

Lemma date_range_nth a b n k : (k < n)%nat -> nth k (date_range a b n) 0 = a + (Z.of_nat k * (b - a)) / (Z.of_nat n - 1).
Proof. intros Hk. unfold date_range. now rewrite nth_map_seq by exact Hk. Qed.

Lemma find_step (s : nat -> Z) u N : s 0%nat <= u ->
  exists k, (k <= N)%nat /\ s k <= u /\ (k = N \/ u < s (S k)).
Proof.
  intros H0. induction N as [|N (k & Hk & Hs & Hc)]; [exists 0%nat; auto|].
  destruct Hc as [->|Hc].
  - destruct (Z.lt_ge_cases u (s (S N))) as [H|H]; [exists N|exists (S N)]; repeat split; auto; lia.
  - exists k. repeat split; auto.
Qed.

Lemma sorted_bounds : forall l x, StronglySorted Z.le (x :: l) -> forall i, (i < length (x :: l))%nat -> x <= nth i (x :: l) 0 <= last (x :: l) 0.
Proof.
  induction l as [|b l IH]; intros x Hs i Hi.
  - cbn in *. assert (i = 0)%nat by lia. subst. lia.
  - inversion Hs as [|? ? Hs' Hf]; subst. inversion Hf as [|? ? Hxb _]; subst.
    change (last (x :: b :: l) 0) with (last (b :: l) 0).
    destruct i as [|i].
    + specialize (IH b Hs' 0%nat ltac:(cbn; lia)). change (nth 0 (x :: b :: l) 0) with x. lia.
    + change (nth (S i) (x :: b :: l) 0) with (nth i (b :: l) 0). cbn in Hi.
      specialize (IH b Hs' i ltac:(cbn; lia)). lia.
Qed.

Lemma cv_cover :
  forall idx n_k mult metas folds,
  (1 <= mult)%nat -> StronglySorted Z.le idx ->
  time_kfcv idx n_k mult metas = Some folds ->
  length folds = (n_k * mult)%nat /\
  forall i, (i < length idx)%nat -> exists fold, In fold folds /\ nth i (snd fold) false = true.
Proof.
  intros idx n_k mult metas folds Hm Hsort H. unfold time_kfcv in H.
  destruct idx as [|t0 rest]; [discriminate|]. set (idx := t0 :: rest) in *.
  destruct (n_k <? 2)%nat eqn:En; [discriminate|]. cbv zeta in H.
  set (te := last idx 0) in *.
  set (w := nth 1 (date_range t0 te n_k) 0 - nth 0 (date_range t0 te n_k) 0) in *.
  destruct (deadband metas) as [db|]; [|discriminate].
  destruct (w <? db) eqn:Ew; [discriminate|]. apply some_inj in H. subst folds.
  split. { unfold date_range. now rewrite !map_length, seq_length. }
  intros i Hi.
  assert (Hb : t0 <= nth i idx 0 <= te).
  { exact (sorted_bounds rest t0 Hsort i Hi). }
  set (u := nth i idx 0) in *.
  set (N := (n_k * mult)%nat). assert (HN : (2 <= n_k)%nat /\ (n_k <= N)%nat) by (unfold N; split; [lia|nia]).
  assert (Hw : w = (te - t0) / (Z.of_nat n_k - 1)).
  { unfold w. rewrite !date_range_nth by lia. change (Z.of_nat 1) with 1. change (Z.of_nat 0) with 0.
    rewrite Z.mul_0_l, Z.mul_1_l, Z.div_0_l by lia. lia. }
  set (s := fun k : nat => t0 + (Z.of_nat k * (te - w - t0)) / (Z.of_nat N - 1)).
  assert (Hs0 : s 0%nat = t0). { unfold s. change (Z.of_nat 0) with 0. rewrite Z.mul_0_l, Z.div_0_l by lia. lia. }
  assert (HsN : s (N - 1)%nat = te - w).
  { unfold s. replace (Z.of_nat (N - 1)) with (Z.of_nat N - 1) by lia. rewrite Z.mul_comm, Z.div_mul by lia. lia. }
  assert (Hstep : forall k, s (S k) <= s k + w + 1).
  { intros k. unfold s. set (M := Z.of_nat N - 1). set (D := te - w - t0).
    set (K := Z.of_nat n_k - 1). fold K in Hw.
    assert (HK : 1 <= K) by (unfold K; lia). assert (HM : K <= M) by (unfold K, M; lia).
    assert (HT : te - t0 < (w + 1) * K).
    { rewrite Hw. pose proof (Z.mul_succ_div_gt (te - t0) K ltac:(lia)). lia. }
    assert (Hw0 : 0 <= w). { rewrite Hw. apply Z.div_pos; lia. }
    assert (HD : D <= (w + 1) * M) by (unfold D; nia).
    pose proof (Z.mul_succ_div_gt (Z.of_nat k * D) M ltac:(lia)) as Hk.
    assert (Hlt : (Z.of_nat (S k) * D) / M < (Z.of_nat k * D) / M + 1 + (w + 1)).
    { apply Z.div_lt_upper_bound; [lia|]. nia. }
    lia. }
  destruct (find_step s u (N - 1) ltac:(rewrite Hs0; lia)) as (k & Hk & Hsk & Hc).
  eexists. split.
  { apply in_map_iff. exists (s k). split; [reflexivity|]. unfold date_range. apply in_map_iff.
    exists k. split; [reflexivity|]. apply in_seq. fold N. lia. }
  cbn [snd]. rewrite nth_map_bool by exact Hi. fold u.
  assert (u <= w + s k). { destruct Hc as [->|Hc]; [rewrite HsN; lia|]. specialize (Hstep k). lia. }
  lia.
Qed.

(** With two folds nothing is left to train on. *)
Lemma cv_two_folds_untrainable :
  forall idx mult metas folds train test,
  (1 <= mult)%nat -> StronglySorted Z.le idx ->
  time_kfcv idx 2 mult metas = Some folds -> In (train, test) folds ->
  forall i, nth i train false = false.
Proof.
  intros idx mult metas folds train test Hm Hsort H Hin i. unfold time_kfcv in H.
  destruct idx as [|t0 rest]; [discriminate|]. set (idx := t0 :: rest) in *.
  cbn [Nat.ltb Nat.leb] in H. cbv zeta in H. set (te := last idx 0) in *.
  set (w := nth 1 (date_range t0 te 2) 0 - nth 0 (date_range t0 te 2) 0) in *.
  destruct (deadband metas) as [db|] eqn:Edb; [|discriminate].
  destruct (w <? db) eqn:Ew; [discriminate|]. apply some_inj in H. subst folds.
  apply deadband_widest in Edb.
  assert (Hdb : 0 <= db). { destruct Edb as [Edb _]. apply in_map_iff in Edb. destruct Edb as (s & <- & _). lia. }
  assert (Hw : w = te - t0).
  { unfold w. rewrite !date_range_nth by lia. change (Z.of_nat 1) with 1. change (Z.of_nat 0) with 0.
    change (Z.of_nat 2 - 1) with 1. rewrite !Z.div_1_r. lia. }
  destruct (Nat.lt_ge_cases i (length idx)) as [Hi|Hi].
  2:{ apply in_map_iff in Hin. destruct Hin as (a & Epair & _). apply pair_equal_spec in Epair. destruct Epair as [<- <-]. apply nth_overflow. now rewrite map_length. }
  assert (Hb : t0 <= nth i idx 0 <= te).
  { exact (sorted_bounds rest t0 Hsort i Hi). }
  apply in_map_iff in Hin. destruct Hin as (a & Epair & Ha). apply pair_equal_spec in Epair. destruct Epair as [<- <-].
  rewrite nth_map_bool by exact Hi.
  unfold date_range in Ha. apply in_map_iff in Ha. destruct Ha as (k & Ha & Hk).
  rewrite Hw in Ha. replace (te - (te - t0) - t0) with 0 in Ha by lia. rewrite Z.mul_0_r, Z.div_0_l in Ha by lia. lia.
Qed.

(** Targets are not taken into account: a training row may have its target inside
    the test window. *)
Lemma cv_target_leak :
  exists idx n_k mult (fmeta tmeta : meta) folds train test t1 t2,
    StronglySorted Z.lt idx /\
    time_kfcv idx n_k mult [[fmeta]] = Some folds /\ In (train, test) folds /\
    selected idx train t1 /\ selected idx test t2 /\
    t1 + m_start tmeta <= t2 < t1 + m_end tmeta.
Proof.
  set (nm := @nil ascii).
  exists [0;1;2;3;4;5;6;7;8;9;10;11;12], 5%nat, 1%nat, (Meta nm nm (Some 1) (-1) 0 nm), (Meta nm nm (Some (-3)) 3 4 nm).
  eexists. eexists. eexists. exists 0, 3.
  split. { repeat (constructor; [|repeat (constructor; [lia|]); constructor]). constructor. }
  split; [vm_compute; reflexivity|].
  split; [right; left; reflexivity|].
  split; [exists 0%nat; cbn; repeat split; lia|].
  split; [exists 3%nat; cbn; repeat split; lia|]. cbn. lia.
Qed.

(** ** C08 *)
Lemma mod_late p tol a b : 0 < p -> ((a - b) mod p <=? tol) = true <-> late_by_at_most p tol a b.
Proof.
  intros Hp. unfold late_by_at_most. split.
  - intros H. exists ((a - b) / p), ((a - b) mod p).
    pose proof (Z.div_mod (a - b) p ltac:(lia)). pose proof (Z.mod_pos_bound (a - b) p Hp). lia.
  - intros (k & r & E & Hr & Ht). rewrite E. rewrite Z.add_comm, Z.mod_add by lia. rewrite Z.mod_small; lia.
Qed.

Lemma prune_keep_spec method n ns ts te m :
  match method with Periodic p _ => 0 < p | _ => True end ->
  prune_keep method n ns ts te m = true <-> kept_by_code method n ns ts te m.
Proof.
  intros Hp. unfold prune_keep, kept_by_code, recent_lag. cbv zeta.
  assert (H0 : (match method with
            | Periodic p tol => ((ts - m_start m) mod p <=? tol) || ((te - m_end m) mod p <=? tol)
            | UpTo => m_end m <=? te | KeepAll => true end) = true <-> aligned method ts te m).
  { destruct method as [p tol| |]; cbn [aligned]; [|lia|tauto].
    rewrite orb_true_iff, !mod_late by exact Hp. reflexivity. }
  clear Hp. set (k0 := match method with Periodic _ _ => _ | _ => _ end) in *.
  assert (H1 : (if 0 <? n then k0 || match m_lag m with Some l => (0 <=? l) && (l <? n) | None => false end else k0) = true
     <-> aligned method ts te m \/ (exists l, m_lag m = Some l /\ 0 <= l < n)).
  { rewrite <- H0. destruct (0 <? n) eqn:En.
    - rewrite orb_true_iff. apply or_iff_compat_l. destruct (m_lag m) as [l|].
      + split; [intros H; exists l; split; [reflexivity|lia]|intros (l' & [= <-] & H); lia].
      + split; [discriminate|intros (l' & [=] & _)].
    - split; [auto|]. intros [H|(l & _ & H)]; [exact H|lia]. }
  destruct (0 <? ns) eqn:Ens.
  - rewrite orb_true_iff, H1, or_assoc. apply or_iff_compat_l, or_iff_compat_l. lia.
  - rewrite H1, <- or_assoc. split; [auto|]. intros [H|H]; [exact H|lia].
Qed.

Lemma prune_kept :
  forall tmetas fmetas col extra method n ns cols,
  match method with Periodic p _ => 0 < p | _ => True end ->
  prune_columns tmetas fmetas col extra method n ns = Some cols ->
  exists first others t kept,
    tmetas = first :: others /\ nth_error first col = Some t /\
    cols = map m_index kept ++ extra /\
    (exists mask, length mask = length (concat fmetas) /\
       kept = map snd (filter fst (combine mask (concat fmetas))) /\
       forall k m, nth_error (concat fmetas) k = Some m ->
         (nth k mask false = true <-> kept_by_code method n ns (m_start t) (m_end t) m)).
Proof.
  intros tmetas fmetas col extra method n ns cols Hp H. unfold prune_columns in H.
  destruct (forallb _ tmetas); [|discriminate].
  destruct tmetas as [|first others]; [discriminate|].
  destruct (nth_error first col) as [t|] eqn:Et; [|discriminate]. injection H as <-.
  set (p := prune_keep method n ns (m_start t) (m_end t)).
  exists first, others, t, (filter p (concat fmetas)). split; [reflexivity|]. split; [exact Et|]. split; [reflexivity|].
  exists (map p (concat fmetas)). split; [apply map_length|]. split.
  - induction (concat fmetas) as [|m l IH]; [reflexivity|]. cbn. destruct (p m); cbn; now rewrite IH.
  - intros k m Hk. rewrite <- prune_keep_spec by exact Hp. fold (p m).
    apply nth_error_split in Hk. destruct Hk as (l1 & l2 & -> & <-).
    rewrite map_app. rewrite app_nth2 by (rewrite map_length; lia). rewrite map_length, Nat.sub_diag. reflexivity.
Qed.

Lemma prune_frame_rows (V : Type) :
  forall (df : frame V) features df',
  prune_frame df features = Some df' ->
  f_idx df' = f_idx df /\ (forall c, In c (f_cols df') -> In c (f_cols df) /\ In (fst c) features) /\
  (NoDup (map fst (f_cols df)) -> map fst (f_cols df') = features).
Proof.
  intros df features df' H. unfold prune_frame in H.
  destruct (forallb _ features) eqn:E; [|discriminate]. injection H as <-. cbn [f_idx f_cols].
  split; [reflexivity|]. split.
  - intros c Hc. unfold select_columns in Hc. apply in_flat_map in Hc. destruct Hc as (nm & Hnm & Hc).
    apply filter_In in Hc. destruct Hc as [Hc Heq]. destruct (text_eqb_spec (fst c) nm) as [<-|]; [auto|discriminate].
  - intros Hnd. unfold select_columns. rewrite forallb_forall in E.
    induction features as [|nm fs IH]; [reflexivity|]. cbn [flat_map]. rewrite map_app, IH.
    + specialize (E nm (or_introl eq_refl)). apply existsb_exists in E. destruct E as (c & Hc & Heq).
      destruct (text_eqb_spec (fst c) nm) as [<-|]; [|discriminate]. now rewrite filter_name_unique.
    + intros y Hy. apply E. now right.
Qed.

Lemma prune_promise_refuted_seconds :
  exists method n ns t m, kept_by_code method n ns (m_start t) (m_end t) m /\
    ~ kept_as_promised method n ns (m_start t) (m_end t) m /\
    prune_columns [[t]] [[m]] 0 [] method n ns = Some [m_index m].
Proof.
  set (nm := @nil ascii).
  exists (Periodic 24 1), 0, 1, (Meta nm nm (Some (-1)) 1 2 nm), (Meta nm nm (Some 90) (-90) (-89) nm).
  split; [|split; [|reflexivity]].
  - right. right. cbn [m_start m_end m_lag]. lia.
  - unfold kept_as_promised, aligned_promised, within, recent_lag. cbn [m_start m_end m_lag].
    intros [[(k & Hk)|(k & Hk)]|[(l & _ & Hl)|H]]; lia.
Qed.

Lemma prune_promise_refuted_tolerance :
  exists method n ns t m, kept_as_promised method n ns (m_start t) (m_end t) m /\
    ~ kept_by_code method n ns (m_start t) (m_end t) m /\
    prune_columns [[t]] [[m]] 0 [] method n ns = Some [].
Proof.
  set (nm := @nil ascii).
  exists (Periodic 24 2), 0, 0, (Meta nm nm (Some (-1)) 1 2 nm), (Meta nm nm (Some 22) (-22) (-21) nm).
  split; [|split; [|reflexivity]].
  - left. left. exists 1. cbn [m_start m_end m_lag]. lia.
  - unfold kept_by_code, aligned, late_by_at_most, recent_lag. cbn [m_start m_end m_lag].
    intros [[(k & r & E & Hr & Ht)|(k & r & E & Hr & Ht)]|[(l & _ & Hl)|H]]; lia.
Qed.

(** Every fold can be trained on if the features look back less than half of what is outside of a test window. *)
Lemma cv_trainable :
  forall idx n_k mult metas folds train test first len,
  (1 <= mult)%nat -> (2 <= n_k)%nat -> nth_error idx 0 = Some first -> len = last idx 0 - first ->
  (forall m, In m (concat metas) -> 2 * Z.abs (m_start m) * (Z.of_nat n_k - 1) < (Z.of_nat n_k - 2) * len) ->
  time_kfcv idx n_k mult metas = Some folds -> In (train, test) folds ->
  exists i, nth i train false = true.
Proof.
  intros idx n_k mult metas folds train test first len Hm Hk Hf Hl Hd H Hin. unfold time_kfcv in H.
  destruct idx as [|t0 rest]; [discriminate|]. cbn in Hf. injection Hf as ->. set (idx := first :: rest) in *.
  destruct (n_k <? 2)%nat eqn:E2; [discriminate|]. cbv zeta in H. set (te := last idx 0) in *.
  set (w := nth 1 (date_range first te n_k) 0 - nth 0 (date_range first te n_k) 0) in *.
  destruct (deadband metas) as [db|] eqn:Edb; [|discriminate].
  destruct (w <? db) eqn:Ew; [discriminate|]. apply some_inj in H. subst folds.
  apply deadband_widest in Edb. destruct Edb as [Idb _]. apply in_map_iff in Idb as (s & Es & Is). apply in_map_iff in Is as (m & <- & Im).
  specialize (Hd m Im). rewrite Es in Hd.
  assert (Hw : w = len / (Z.of_nat n_k - 1)).
  { unfold w. rewrite !date_range_nth by lia. change (Z.of_nat 0) with 0. change (Z.of_nat 1) with 1. rewrite Z.mul_0_l, Z.div_0_l, Z.mul_1_l by lia. subst len. lia. }
  pose proof (Z.mul_div_le len (Z.of_nat n_k - 1) ltac:(lia)) as Hw2. rewrite <- Hw in Hw2.
  assert (Key : 2 * db + w < len) by nia.
  apply in_map_iff in Hin. destruct Hin as (a & Epair & Ha). apply pair_equal_spec in Epair. destruct Epair as [<- <-].
  destruct (Z_lt_dec first (a - db)) as [L|L].
  - exists 0%nat. rewrite nth_map_bool by (cbn; lia). unfold idx. cbn [nth]. lia.
  - exists (length idx - 1)%nat. rewrite nth_map_bool by (unfold idx; cbn [length]; lia).
    assert (nth (length idx - 1) idx 0 = te) as ->.
    { unfold te. clear. assert (G : forall (l : list Z) d, l <> [] -> nth (length l - 1) l d = last l d).
      { induction l as [|x l IH]; intros d N; [congruence|]. destruct l as [|y l]; [reflexivity|]. specialize (IH d ltac:(discriminate)). cbn [length last] in *.
        replace (S (S (length l)) - 1)%nat with (S (S (length l) - 1))%nat by lia. exact IH. }
      apply G. discriminate. }
    lia.
Qed.
(** With five folds or more this is always so. *)
Lemma cv_trainable_five :
  forall idx n_k mult metas folds train test first,
  (1 <= mult)%nat -> (5 <= n_k)%nat -> nth_error idx 0 = Some first -> first < last idx 0 ->
  time_kfcv idx n_k mult metas = Some folds -> In (train, test) folds ->
  exists i, nth i train false = true.
Proof.
  intros idx n_k mult metas folds train test first Hm Hk Hf Hl H Hin.
  eapply (cv_trainable idx n_k mult metas folds train test first (last idx 0 - first)); eauto; [lia|].
  intros m Im. unfold time_kfcv in H. destruct idx as [|t0 rest]; [discriminate|]. cbn in Hf. injection Hf as ->. set (idx := first :: rest) in *.
  destruct (n_k <? 2)%nat eqn:E2; [discriminate|]. cbv zeta in H. set (te := last idx 0) in *.
  destruct (deadband metas) as [db|] eqn:Edb; [|discriminate].
  match type of H with (if ?c then _ else _) = _ => destruct c eqn:Ew; [discriminate|] end.
  apply deadband_widest in Edb. destruct Edb as [_ Hdb]. specialize (Hdb (m_start m) ltac:(now apply in_map)).
  rewrite !date_range_nth in Ew by lia. change (Z.of_nat 0) with 0 in Ew. change (Z.of_nat 1) with 1 in Ew. rewrite Z.mul_0_l, Z.div_0_l, Z.mul_1_l in Ew by lia.
  pose proof (Z.mul_div_le (te - first) (Z.of_nat n_k - 1) ltac:(lia)) as Hw2.
  assert (Z.abs (m_start m) <= (te - first) / (Z.of_nat n_k - 1)) by lia.
  set (q := (te - first) / (Z.of_nat n_k - 1)) in *. nia.
Qed.
