From Coq Require Import Ascii NArith ZArith List FinFun Lia.
From Verif Require Import Model.Names Spec.NamesSpec Model.Labels Spec.LabelsSpec Proof.NamesProof.
Import ListNotations.

Lemma from_product_length : forall {Q} (ls : list label) (qs : list Q),
  length (from_product ls qs) = length ls * length qs.
Proof.
  induction ls as [|l ls IH]; intro qs; cbn [from_product flat_map]; [reflexivity|].
  rewrite app_length, map_length. unfold from_product in IH. rewrite IH. cbn. lia.
Qed.

Lemma from_product_belongs : forall {Q} (ls : list label) (qs : list Q),
  belongs_to (from_product ls qs) ls qs.
Proof.
  intros Q ls qs. split; [apply from_product_length|].
  induction ls as [|l ls IH]; intros i j p q P K.
  - destruct i; discriminate.
  - assert (j < length qs) by (apply nth_error_Some; congruence).
    unfold from_product. cbn [flat_map]. destruct i as [|i].
    + cbn in P. injection P as <-. cbn [Nat.mul Nat.add].
      rewrite nth_error_app1 by (rewrite map_length; lia).
      rewrite nth_error_map, K. reflexivity.
    + cbn in P. rewrite nth_error_app2 by (rewrite map_length; cbn; lia).
      rewrite map_length.
      replace (S i * length qs + j - length qs) with (i * length qs + j) by (cbn; lia).
      exact (IH _ _ _ _ P K).
Qed.

Lemma positions_length : forall n, length (positions n) = n.
Proof. intro n. unfold positions. rewrite map_length, seq_length. reflexivity. Qed.
Lemma counted_length : forall t n, length (counted_all t n) = n.
Proof. intros. unfold counted_all. rewrite map_length, seq_length. reflexivity. Qed.
Lemma ahead_length : forall t n, length (ahead_all t n) = n.
Proof. intros. unfold ahead_all. rewrite map_length, seq_length. reflexivity. Qed.

Lemma same_labels : forall {Q} (m : fitted) (levels : list Q),
  (exists y, m = Tabular y) \/ (exists n, m = Benchmark n) \/
  (exists t n, m = Smoothing t n) \/ (exists t n, m = Adaptive t n) ->
  exists columns, predict_quantiles m true levels = Frame columns /\
    belongs_to columns (predict_columns m) levels.
Proof.
  intros Q m levels H. exists (from_product (predict_columns m) levels).
  split; [|apply from_product_belongs].
  assert (T : target_cols m = Some (predict_columns m)).
  { destruct H as [[y ->]|[[n ->]|[[t [n ->]]|[t [n ->]]]]]; reflexivity. }
  assert (E : predict_quantiles m true levels = quantiles_to_df m levels).
  { destruct H as [[y ->]|[[n ->]|[[t [n ->]]|[t [n ->]]]]]; reflexivity. }
  rewrite E. unfold quantiles_to_df. rewrite T, Nat.eqb_refl. reflexivity.
Qed.

Lemma multi_smoothing_raises : forall {Q} name n_sa (levels : list Q),
  predict_quantiles (SmoothingMulti name n_sa) true levels = Raises.
Proof. reflexivity. Qed.

Lemma dec_reads : forall n, read_int (dec n) = Some (Z.of_N n).
Proof.
  intro n. pose proof (fmt_read_int 0 (Z.of_N n)) as H. unfold fmt_int in H.
  replace (Z.of_N n <? 0)%Z with false in H by (symmetry; apply Z.ltb_ge; lia).
  unfold pad in H. cbn [Nat.sub repeat app] in H.
  rewrite Zabs2N.id in H. exact H.
Qed.

Lemma dec_not_t : forall n r, dec n <> "t"%char :: r.
Proof. intros n r H. pose proof (dec_reads n) as E. rewrite H in E. discriminate E. Qed.

Lemma dec_inj : forall n m, dec n = dec m -> n = m.
Proof.
  intros n m H. pose proof (dec_reads n) as A. rewrite H, dec_reads in A.
  injection A as A. lia.
Qed.

Lemma counted_not_ahead : forall name t i, counted name t <> ahead name i.
Proof.
  intros name t i H. unfold counted, ahead in H. injection H as H.
  apply app_inv_head in H. injection H as H. exact (dec_not_t _ _ H).
Qed.

Lemma from_product_in : forall {Q} (ls : list label) (qs : list Q) l q,
  In (l, q) (from_product ls qs) -> In l ls.
Proof.
  intros Q ls qs l q H. unfold from_product in H. apply in_flat_map in H.
  destruct H as (x & A & B). apply in_map_iff in B. destruct B as (y & E & _).
  injection E as -> _. exact A.
Qed.

Lemma multi_adaptive_labels : forall {Q} name n_sa (levels : list Q),
  exists columns, predict_quantiles (AdaptiveMulti name n_sa) true levels = Frame columns /\
    length columns = n_sa * length levels /\
    no_common_label columns (predict_columns (AdaptiveMulti name n_sa)).
Proof.
  intros Q name n levels. exists (from_product (counted_all name n) levels).
  split; [|split].
  - cbn [predict_quantiles]. unfold quantiles_to_df.
    cbn [target_cols predict_columns]. rewrite counted_length, ahead_length, Nat.eqb_refl. reflexivity.
  - rewrite from_product_length, counted_length. reflexivity.
  - intros l q I J. apply from_product_in in I. cbn [predict_columns] in J.
    unfold counted_all in I. unfold ahead_all in J. apply in_map_iff in I. apply in_map_iff in J.
    destruct I as (t & <- & _). destruct J as (i & E & _). exact (counted_not_ahead _ _ _ (eq_sym E)).
Qed.

Lemma wrapped_labels : forall {Q} name n_sa (levels : list Q),
  exists columns, predict_quantiles (Wrapped name n_sa) true levels = Frame columns /\
    length columns = n_sa * length levels /\
    no_common_label columns (predict_columns (Wrapped name n_sa)).
Proof.
  intros Q name n levels. exists (from_product (ahead_all name n) levels).
  split; [|split].
  - cbn [predict_quantiles]. unfold quantiles_to_df.
    cbn [target_cols predict_columns]. rewrite positions_length, ahead_length, Nat.eqb_refl. reflexivity.
  - rewrite from_product_length, ahead_length. reflexivity.
  - intros l q I J. apply from_product_in in I. cbn [predict_columns] in J.
    unfold ahead_all in I. unfold positions in J. apply in_map_iff in I. apply in_map_iff in J.
    destruct I as (t & <- & _). destruct J as (i & E & _). discriminate E.
Qed.

Lemma no_quantile_frame : forall {Q} (m : fitted) dataframe (levels : list Q),
  (exists y, m = Network y) \/ (exists names, m = Distribution names) ->
  forall columns, predict_quantiles m dataframe levels <> Frame columns.
Proof. intros Q m d levels [[y ->]|[names ->]] columns; discriminate. Qed.

Lemma labels_distinct : forall name n_sa,
  NoDup (counted_all name n_sa) /\ NoDup (ahead_all name n_sa).
Proof.
  intros name n. split.
  - unfold counted_all. apply FinFun.Injective_map_NoDup; [|apply seq_NoDup].
    intros a b H. unfold counted in H. injection H as H. apply app_inv_head in H.
    injection H as H. apply dec_inj in H. lia.
  - unfold ahead_all. apply FinFun.Injective_map_NoDup; [|apply seq_NoDup].
    intros a b H. unfold ahead in H. injection H as H. apply app_inv_head in H.
    injection H as H. apply dec_inj in H. lia.
Qed.
