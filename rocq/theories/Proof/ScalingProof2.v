From Coq Require Import List ZArith Bool Arith Reals Lia Lra.
From Verif Require Import Model.Series Model.Subsample Model.Scaling Spec.ScalingSpec Proof.SeriesProof Proof.QuantilesProof Proof.SubsampleProof Proof.ScalingProof.
Import ListNotations.
Local Open Scope R_scope.

Lemma column_transformed (with_mean : bool) (cols j : nat) (rows : list (list R)) :
  (j < cols)%nat -> (forall r, In r rows -> length r = cols) ->
  column j (map (transform_row (fit_table with_mean cols rows)) rows) = map (transform (fit_column with_mean (column j rows))) (column j rows).
Proof.
  intros Hj Hl. unfold column at 1 3. rewrite !map_map. apply map_ext_in. intros r Hr. unfold transform_row.
  assert (Ls : length (fit_table with_mean cols rows) = cols) by (unfold fit_table; now rewrite map_length, seq_length).
  rewrite (map2_nth transform _ _ j (0, 1) 0 0) by (rewrite ?Ls, ?(Hl r Hr); lia). unfold fit_table. rewrite nth_map_seq by lia. reflexivity.
Qed.

Lemma network_standardised (centre : bool) (cols outs : nat) (x y xs ys : list (list R)) :
  x <> [] -> length x = length y -> (forall r, In r x -> length r = cols) -> (forall r, In r y -> length r = outs) ->
  fit_network centre pair None cols outs x y = (xs, ys) ->
  length xs = length x /\ length ys = length y /\
  (forall j, (j < outs)%nat -> total (column j ys) = 0 /\
     ((exists a b, In a (column j y) /\ In b (column j y) /\ a <> b) -> total (squares (column j ys)) = INR (length y))) /\
  (forall j, (j < cols)%nat -> exists s, 0 < s /\
     if centre then total (column j xs) = 0 /\ (exists m, column j xs = map (fun v => (v - m) / s) (column j x))
     else column j xs = map (fun v => v / s) (column j x)).
Proof.
  intros Hx Hl Hrx Hry H. unfold fit_network in H. cbn [train_val_split] in H. injection H as <- <-. rewrite !map_length. split; [reflexivity|]. split; [reflexivity|].
  assert (Hy : y <> []) by (destruct x, y; cbn in Hl; congruence).
  assert (Hc : forall j (rows : list (list R)), rows <> [] -> column j rows <> []) by (intros j rows; destruct rows; [congruence|discriminate]).
  split.
  - intros j Hj. rewrite (column_transformed true outs j y Hj Hry). destruct (standardised (column j y) (Hc j y Hy)) as (A & B & _). cbv zeta in *.
    split; [exact A|]. intros Hd. rewrite (B Hd). unfold column. rewrite map_length. reflexivity.
  - intros j Hj. exists (col_scale (column j x)). split; [apply scale_pos, Hc, Hx|]. rewrite (column_transformed centre cols j x Hj Hrx). destruct centre.
    + split; [apply (standardised (column j x) (Hc j x Hx))|]. exists (col_mean (column j x)). reflexivity.
    + apply map_ext. intros v. unfold transform, fit_column. cbn [fst snd]. f_equal. lra.
Qed.
