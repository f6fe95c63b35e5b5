From Coq Require Import List ZArith Bool Arith Reals Lia Lra.
From Verif Require Import Model.Stats Model.Subsample Model.HoltWinters Model.Rolling Spec.RollingSpec
  Proof.StatsProof Proof.SeriesProof Proof.QuantilesProof.
Import ListNotations.

Lemma forecasts_length {M V} (lib : library M V) n : forall rows m, length (get_forecasts lib m n rows) = length rows.
Proof. induction rows; intros; cbn; auto. Qed.

Lemma forecasts_app {M V} (lib : library M V) n : forall rows rest m,
  get_forecasts lib m n (rows ++ rest) = get_forecasts lib m n rows ++ get_forecasts lib (fold_left (Rolling.update lib) rows m) n rest.
Proof. induction rows as [|o rows IH]; intros; [reflexivity|]. cbn. now rewrite IH. Qed.

Lemma forecasts_nth {M V} (lib : library M V) n rows m i : (i < length rows)%nat ->
  nth i (get_forecasts lib m n rows) [] = lib_forecast lib (fold_left (Rolling.update lib) (firstn i rows) m) n.
Proof.
  revert m i. induction rows as [|o rows IH]; intros m i Hi; [cbn in Hi; lia|].
  destruct i as [|i]; [reflexivity|]. cbn. apply IH. cbn in Hi. lia.
Qed.

Lemma forecasts_causal {M V} (lib : library M V) (m : M) (n i : nat) (rows rows' : list (Z * V)) :
  (i < length rows)%nat -> (i < length rows')%nat -> firstn i rows = firstn i rows' ->
  nth i (get_forecasts lib m n rows) [] = nth i (get_forecasts lib m n rows') [].
Proof. intros H H' E. now rewrite !forecasts_nth, E. Qed.

Lemma forecasts_split {M V} (lib : library M V) (m : M) (n : nat) (rows : list (Z * V)) :
  exists m', forall rest, get_forecasts lib m n (rows ++ rest) = get_forecasts lib m n rows ++ get_forecasts lib m' n rest.
Proof. eexists. intros. apply forecasts_app. Qed.

Lemma observed_firstn {V} (truth : Z -> V) start len i : (i <= len)%nat -> firstn i (observed truth start len) = observed truth start i.
Proof.
  intros H. unfold observed. rewrite firstn_map. f_equal.
  replace len with (i + (len - i))%nat by lia. rewrite seq_app, firstn_app, seq_length, Nat.sub_diag.
  rewrite firstn_all2 by (rewrite seq_length; lia). cbn. now rewrite app_nil_r.
Qed.

Lemma update_clock {M V} (lib : library M V) truth clock m o : clairvoyant lib truth clock -> clock (Rolling.update lib m o) = (fst o + 1)%Z.
Proof.
  intros C. unfold Rolling.update. destruct (lib_append lib m (fst o) (snd o)) eqn:E.
  - exact (after_append _ _ _ C _ _ _ _ E).
  - exact (after_apply _ _ _ C _ _ _).
Qed.

Lemma observed_clock {M V} (lib : library M V) truth clock m start i : clairvoyant lib truth clock ->
  clock (fold_left (Rolling.update lib) (observed truth start (S i)) m) = (start + Z.of_nat i + 1)%Z.
Proof.
  intros C. unfold observed. rewrite seq_S, map_app, fold_left_app. cbn. now rewrite (update_clock _ _ _ _ _ C).
Qed.

Lemma clairvoyant_rows {M V} (lib : library M V) truth clock m start len n i : clairvoyant lib truth clock -> (0 < i < len)%nat ->
  nth i (get_forecasts lib m n (observed truth start len)) [] = map (fun k => truth (start + Z.of_nat i + Z.of_nat k)%Z) (seq 0 n).
Proof.
  intros C Hi. rewrite forecasts_nth by (unfold observed; rewrite map_length, seq_length; lia).
  rewrite observed_firstn by lia. rewrite (sees _ _ _ C). destruct i as [|i]; [lia|].
  rewrite (observed_clock _ _ _ _ _ _ C). apply map_ext. intros k. f_equal. lia.
Qed.

(** Row i forecasts the times i, i+1, .. *)
Lemma shifted_rows {M V} (lib : library M V) (truth : Z -> V) (clock : M -> Z) (m : M) (start : Z) (len n i k : nat) (d : V) :
  clairvoyant lib truth clock -> (0 < i < len)%nat -> (k < n)%nat ->
  nth k (nth i (get_forecasts lib m n (observed truth start len)) []) d = truth (start + Z.of_nat (i + k))%Z.
Proof.
  intros C Hi Hk. rewrite (clairvoyant_rows _ _ _ _ _ _ _ _ C Hi). rewrite nth_map_seq by exact Hk. f_equal. lia.
Qed.

(** The value in column t+(k+1) of a row is the value at that time exactly if the series does not change in
    the step before it. *)
Lemma right_exactly_if {M V} (lib : library M V) (truth : Z -> V) (clock : M -> Z) (m : M) (start : Z) (len n i k : nat) (d : V) :
  clairvoyant lib truth clock -> (0 < i < len)%nat -> (k < n)%nat ->
  let row := (start + Z.of_nat i)%Z in
  nth k (nth i (get_forecasts lib m n (observed truth start len)) []) d = truth (row + Z.of_nat (k + 1))%Z <->
  truth (row + Z.of_nat k)%Z = truth (row + Z.of_nat k + 1)%Z.
Proof.
  intros C Hi Hk row. rewrite (shifted_rows lib truth clock) by assumption. subst row.
  replace (start + Z.of_nat (i + k))%Z with (start + Z.of_nat i + Z.of_nat k)%Z by lia.
  replace (start + Z.of_nat i + Z.of_nat (k + 1))%Z with (start + Z.of_nat i + Z.of_nat k + 1)%Z by lia. reflexivity.
Qed.

(** Read one row lower, the table is right. *)
Lemma right_one_row_lower {M V} (lib : library M V) (truth : Z -> V) (clock : M -> Z) (m : M) (start : Z) (len n i k : nat) (d : V) :
  clairvoyant lib truth clock -> (S i < len)%nat -> (k < n)%nat ->
  nth k (nth (S i) (get_forecasts lib m n (observed truth start len)) []) d
  = truth (start + Z.of_nat i + Z.of_nat (k + 1))%Z.
Proof. intros C Hi Hk. rewrite (shifted_rows lib truth clock) by (assumption || lia). f_equal. lia. Qed.

Lemma first_row {M V} (lib : library M V) (truth : Z -> V) (clock : M -> Z) (m : M) (start : Z) (len n k : nat) (d : V) :
  clairvoyant lib truth clock -> (0 < len)%nat -> (k < n)%nat ->
  nth k (nth 0 (get_forecasts lib m n (observed truth start len)) []) d = truth (clock m + Z.of_nat k)%Z.
Proof.
  intros C Hi Hk. rewrite forecasts_nth by (unfold observed; rewrite map_length, seq_length; lia). cbn.
  rewrite (sees _ _ _ C). now rewrite nth_map_seq by exact Hk.
Qed.

Local Open Scope R_scope.
Lemma residuals_length {M} (lib : library M R) m n rows : (0 < n)%nat -> length (residuals lib m n rows) = (length rows - n)%nat.
Proof.
  intros Hn. unfold residuals, map2. rewrite map_length, combine_length. unfold hankel. rewrite map_length, seq_length.
  rewrite firstn_length, forecasts_length.
  assert (length (tl (map snd rows)) = length rows - 1)%nat as -> by (destruct rows; cbn; rewrite ?map_length; lia). lia.
Qed.

Lemma tl_nth {V} (l : list V) i d : nth i (tl l) d = nth (S i) l d.
Proof. destruct l; [now destruct i|reflexivity]. Qed.

Lemma residual_cell {M} (lib : library M R) (truth : Z -> R) (clock : M -> Z) (m : M) (start : Z) (len n i k : nat) :
  clairvoyant lib truth clock -> (0 < i < len - n)%nat -> (k < n)%nat ->
  nth k (nth i (residuals lib m n (observed truth start len)) []) 0
  = truth (start + Z.of_nat (i + k) + 1)%Z - truth (start + Z.of_nat (i + k))%Z.
Proof.
  intros C Hi Hk.
  assert (El : length (observed truth start len) = len) by (unfold observed; now rewrite map_length, seq_length).
  unfold residuals. rewrite El.
  assert (Eh : length (hankel (tl (map snd (observed truth start len))) n) = (len - n)%nat).
  { unfold hankel. rewrite map_length, seq_length.
    assert (length (tl (map snd (observed truth start len))) = len - 1)%nat as ->; [|lia].
    destruct (observed truth start len); cbn in *; rewrite ?map_length; lia. }
  rewrite (map2_nth (map2 Rminus) _ _ i [] [] []) by (rewrite ?Eh, ?firstn_length, ?forecasts_length, ?El; lia).
  rewrite nth_firstn by lia. rewrite (clairvoyant_rows _ _ _ _ _ _ _ _ C) by lia.
  assert (Er : nth i (hankel (tl (map snd (observed truth start len))) n) [] = map (fun j => truth (start + Z.of_nat (i + j) + 1)%Z) (seq 0 n)).
  { unfold hankel in *. rewrite map_length, seq_length in Eh. rewrite nth_map_seq by lia.
    apply (list_eq_nth _ _ 0).
    - rewrite firstn_length, skipn_length, map_length, seq_length.
      assert (length (tl (map snd (observed truth start len))) = len - 1)%nat as ->; [|lia].
      destruct (observed truth start len); cbn in *; rewrite ?map_length; lia.
    - intros j Hj. rewrite firstn_length in Hj. rewrite nth_firstn by lia. rewrite nth_skipn, tl_nth.
      unfold observed. rewrite map_map. cbn [snd]. rewrite !nth_map_seq by lia. f_equal. lia. }
  rewrite Er. rewrite (map2_nth Rminus _ _ k 0 0 0) by (rewrite map_length, seq_length; lia).
  rewrite !nth_map_seq by exact Hk. f_equal; f_equal; lia.
Qed.
