From Coq Require Import List ZArith Bool Arith Reals Lra Lia Sorted.
From Verif Require Import Model.Subsample Model.Stats Model.Metrics Spec.StatsSpec Spec.MetricsSpec Proof.SubsampleProof Proof.MetricsProof Proof.MetricsProof2.
Import ListNotations.
Local Open Scope R_scope.

(** ** Scores without labels *)
Lemma ones_cells n k : group_cells over_rows (repeat 1%Z n) 1%Z k = map (fun i => (i, k)) (seq 0 n).
Proof.
  unfold group_cells. rewrite repeat_length. assert (forall l, (forall i, In i l -> (i < n)%nat) ->
    flat_map (fun i => if Z.eq_dec (nth i (repeat 1%Z n) 0%Z) 1 then [cell_of over_rows i k] else []) l = map (fun i => (i, k)) l) as K.
  { induction l as [|i l IH]; intro H; [reflexivity|]. cbn [flat_map map]. rewrite IH by (intros; apply H; now right).
    rewrite nth_indep with (d' := 1%Z) by (rewrite repeat_length; apply H; now left). rewrite nth_repeat. destruct (Z.eq_dec 1 1); [reflexivity | easy]. }
  apply K. intros i I. apply in_seq in I. lia.
Qed.
Lemma ones_single n (l : list Z) : (0 < n)%nat -> listed (repeat 1%Z n) l -> l = [1%Z].
Proof.
  intros N [S L]. assert (forall g, In g l -> g = 1%Z) as A by (intros g G; apply L in G; now apply repeat_spec in G).
  assert (In 1%Z l) as B by (apply L; destruct n; [lia | now left]).
  destruct l as [|a [|b l]]; [easy | now rewrite (A a) by now left|]. exfalso. inversion S; subst. inversion H2; subst.
  rewrite (A a), (A b) in H3 by (cbn; auto). lia.
Qed.
Lemma single_entry (row : list (option R)) k : entry [(1%Z, row)] 1%Z k = nth k row None.
Proof. reflexivity. Qed.
Lemma ones_grouped x : grouped over_rows (repeat 1%Z (f_rows x)) x.
Proof. split; [apply repeat_length | discriminate]. Qed.
Lemma ones_in x : (0 < f_rows x)%nat -> In 1%Z (repeat 1%Z (f_rows x)).
Proof. destruct (f_rows x); [lia | now left]. Qed.
Lemma table_single (tbl : table) : map fst tbl = [1%Z] -> exists row, tbl = [(1%Z, row)].
Proof. destruct tbl as [|[g row] [|]]; try discriminate. intros [= ->]. now exists row. Qed.
Lemma aggregate_width n res tbl row : n = f_rows res -> (0 < n)%nat -> aggregate n (repeat 1%Z n) res = Some tbl -> tbl = [(1%Z, row)] -> length row = f_cols res.
Proof.
  intros -> N E ->. unfold aggregate, chose_axis in E. rewrite repeat_length, Nat.eqb_refl in E. cbn [Nat.eqb] in E. injection E as E.
  unfold group_mean in E. destruct (unique_hours _) as [|g l]; [discriminate|]. injection E as _ <- _. now rewrite map_length, seq_length.
Qed.
Lemma rmse_overall x t : (0 < f_rows x)%nat -> one_row x (rmse x t None) (fun k v => root_mean_square (pairs x t (column_cells x k)) v).
Proof.
  intro N. destruct (rmse_correct over_rows x t _ (ones_grouped x)) as (tbl & E & L & V). change (rmse x t (Some (repeat 1%Z (f_rows x)))) with (rmse x t None) in E.
  destruct (table_single tbl (ones_single _ _ N L)) as [row ->]. exists row. split; [exact E|]. split.
  - unfold rmse in E. destruct (aggregate _ _ _) as [tb|] eqn:A; [|discriminate]. injection E as E.
    destruct tb as [|[g r] [|]]; try discriminate. injection E as -> <-. rewrite map_length. exact (aggregate_width (f_rows x) (squerr x t) _ r eq_refl N A eq_refl).
  - intros k K. destruct (V 1%Z k (ones_in x N) K) as [W _]. rewrite single_entry, ones_cells in W. exact W.
Qed.
Lemma mape_overall x t : (0 < f_rows x)%nat -> one_row x (mape x t None) (fun k v => mean_of percentage_error (pairs x t (column_cells x k)) v).
Proof.
  intro N. destruct (mape_correct over_rows x t _ (ones_grouped x)) as (tbl & E & L & V). change (mape x t (Some (repeat 1%Z (f_rows x)))) with (mape x t None) in E.
  destruct (table_single tbl (ones_single _ _ N L)) as [row ->]. exists row. split; [exact E|]. split.
  - unfold mape in E. match type of E with aggregate _ _ ?res = _ => exact (aggregate_width (f_rows x) res _ row eq_refl N E eq_refl) end.
  - intros k K. destruct (V 1%Z k (ones_in x N) K) as [W _]. rewrite single_entry, ones_cells in W. exact W.
Qed.
Lemma nmae_overall x t inter : (0 < f_rows x)%nat -> same_size x t -> row_averages t <> [] ->
  exists off, nmae_offset_spec t inter off /\
    one_row x (nmae x t None inter) (fun k v => mean_of relative_error (weighted_pairs (fun i => average (row_observations t i) + off) x t (column_cells x k)) v).
Proof.
  intros N Z Q. destruct (nmae_correct over_rows x t _ inter Z (ones_grouped x) Q) as (tbl & off & E & L & O & _ & V).
  change (nmae x t (Some (repeat 1%Z (f_rows x))) inter) with (nmae x t None inter) in E. exists off. split; [exact O|].
  destruct (table_single tbl (ones_single _ _ N L)) as [row ->]. exists row. split; [exact E|]. split.
  - unfold nmae in E. match type of E with aggregate _ _ ?res = _ => exact (aggregate_width (f_rows x) res _ row eq_refl N E eq_refl) end.
  - intros k K. destruct (V 1%Z k (ones_in x N) K) as [W _]. rewrite single_entry, ones_cells in W. exact W.
Qed.
