From Coq Require Import Reals List Arith Bool Lia Lra.
From Verif Require Import Model.Stats Model.HoltWinters Model.Boost Proof.SeriesProof Proof.StatsProof Proof.FourierProof2.
Import ListNotations.
Local Open Scope R_scope.

Lemma minus_all_length a b : length a = length b -> length (minus_all a b) = length a.
Proof. intros H. unfold minus_all. rewrite map_length, combine_length. lia. Qed.
Lemma plus_all_length a b : length a = length b -> length (plus_all a b) = length a.
Proof. intros H. unfold plus_all. rewrite map_length, combine_length. lia. Qed.
Lemma minus_all_nth a b i : length a = length b -> (i < length a)%nat -> nth i (minus_all a b) None = minus (nth i a None) (nth i b None).
Proof. intros L H. unfold minus_all. etransitivity; [apply (nth_map_in' _ _ _ _ (None, None)); rewrite combine_length; lia|]. cbv beta. now rewrite combine_nth. Qed.
Lemma plus_all_nth a b i : length a = length b -> (i < length a)%nat -> nth i (plus_all a b) None = plus (nth i a None) (nth i b None).
Proof. intros L H. unfold plus_all. etransitivity; [apply (nth_map_in' _ _ _ _ (None, None)); rewrite combine_length; lia|]. cbv beta. now rewrite combine_nth. Qed.

Lemma minus_minus e a b : minus (minus e a) b = minus e (plus a b).
Proof. destruct e, a, b; cbn; try reflexivity. f_equal. lra. Qed.
Lemma plus_assoc a b c : plus (plus a b) c = plus a (plus b c).
Proof. destruct a, b, c; cbn; try reflexivity. f_equal. lra. Qed.
Lemma plus_zero_l a : plus (Some 0) a = a.
Proof. destruct a; cbn; [f_equal; lra|reflexivity]. Qed.
Lemma minus_zero a : minus a (Some 0) = a.
Proof. destruct a; cbn; [f_equal; lra|reflexivity]. Qed.

Lemma fold_plus_start {M} (f : M -> num) ms : forall a, fold_left (fun acc m => plus acc (f m)) ms a = plus a (fold_left (fun acc m => plus acc (f m)) ms (Some 0)).
Proof.
  induction ms as [|m ms IH]; intros a; cbn [fold_left]; [destruct a; cbn; [f_equal; lra|reflexivity]|].
  rewrite IH, (IH (plus (Some 0) (f m))), plus_zero_l. apply plus_assoc.
Qed.
Lemma boost_predict_cell {M X} (pred : M -> X -> list num) ms x rows i : (forall m, length (pred m x) = rows) -> (i < rows)%nat ->
  nth i (boost_predict pred ms x rows) None = fold_left (fun acc m => plus acc (nth i (pred m x) None)) ms (Some 0).
Proof.
  intros Hp Hi. unfold boost_predict.
  assert (G : forall ms acc, length acc = rows -> nth i (fold_left (fun acc m => plus_all acc (pred m x)) ms acc) None = fold_left (fun acc m => plus acc (nth i (pred m x) None)) ms (nth i acc None)).
  { clear ms. induction ms as [|m ms IH]; intros acc Ha; [reflexivity|]. cbn [fold_left]. rewrite IH by (rewrite plus_all_length; [exact Ha|now rewrite Hp]).
    now rewrite plus_all_nth by (rewrite ?Hp; lia). }
  rewrite G by apply repeat_length. f_equal. rewrite (nth_indep _ None (Some 0)) by now rewrite repeat_length. apply nth_repeat.
Qed.
Lemma boost_predict_length {M X} (pred : M -> X -> list num) ms x rows : (forall m, length (pred m x) = rows) -> length (boost_predict pred ms x rows) = rows.
Proof.
  intros Hp. unfold boost_predict. assert (G : forall ms acc, length acc = rows -> length (fold_left (fun acc m => plus_all acc (pred m x)) ms acc) = rows).
  { clear ms. induction ms as [|m ms IH]; intros acc Ha; [exact Ha|]. cbn [fold_left]. apply IH. now rewrite plus_all_length by now rewrite Hp. }
  apply G, repeat_length.
Qed.

(** The residuals after all stages are the target minus the model's own prediction. *)
Lemma boosting_residuals {M X} (fit : M -> X -> list num -> M) (pred : M -> X -> list num) ms x y :
  (forall m, length (pred m x) = length y) ->
  snd (boost_fit fit pred ms x y) = minus_all y (boost_predict pred (fst (boost_fit fit pred ms x y)) x (length y)).
Proof.
  intros Hp. assert (G : forall ms err, length err = length y -> length (snd (boost_fit fit pred ms x err)) = length y /\
    forall i, (i < length y)%nat -> nth i (snd (boost_fit fit pred ms x err)) None =
      minus (nth i err None) (fold_left (fun acc m => plus acc (nth i (pred m x) None)) (fst (boost_fit fit pred ms x err)) (Some 0))).
  { clear ms. induction ms as [|m ms IH]; intros err He; cbn [boost_fit].
    - split; [exact He|]. intros i _. cbn. now rewrite minus_zero.
    - set (m' := fit m x err). destruct (IH (minus_all err (pred m' x))) as [I1 I2]; [rewrite minus_all_length; [exact He|now rewrite Hp]|].
      destruct (boost_fit fit pred ms x (minus_all err (pred m' x))) as [r e]. cbn [fst snd fold_left] in *. split; [exact I1|]. intros i Hi. rewrite I2 by exact Hi.
      rewrite minus_all_nth by (rewrite ?Hp; lia). rewrite (fold_plus_start _ r (plus (Some 0) _)), plus_zero_l. apply minus_minus. }
  destruct (G ms y eq_refl) as [G1 G2]. apply (list_eq_nth _ _ None).
  - rewrite minus_all_length; [exact G1|]. symmetry. now apply boost_predict_length.
  - intros i Hi0. assert (Hi : (i < length y)%nat) by (rewrite <- G1; exact Hi0). rewrite minus_all_nth by (rewrite ?boost_predict_length; auto). rewrite G2 by exact Hi. now rewrite boost_predict_cell.
Qed.

(** ** BrutalRegressor *)
Lemma bin_valid cuts v : (bin cuts v <= length cuts)%nat.
Proof. unfold bin. induction cuts as [|c cuts IH]; cbn; [lia|]. destruct (Rleb c v); cbn; lia. Qed.
Lemma fit_feature_bins n_bins x err f v : (bin (inner_cuts (fit_feature n_bins x err f)) v < length (bin_means (fit_feature n_bins x err f)))%nat.
Proof.
  cbn [fit_feature inner_cuts bin_means]. pose proof (bin_valid (cuts_of n_bins (map (fun r => nth f r 0) x)) v) as H.
  unfold cuts_of in H at 2. rewrite map_length, seq_length in *. lia.
Qed.
(** The bin of a row of the sample has a mean. *)
Lemma total_number l : (forall e, In e l -> e <> None) -> exists v, total l = Some v.
Proof.
  induction l as [|e l IH]; intros H; [now exists 0|]. destruct IH as [v Hv]; [intros e' He'; apply H; right; exact He'|]. unfold total in *. cbn. rewrite Hv.
  destruct e as [a|]; [eexists; reflexivity|]. exfalso. apply (H None); [left; reflexivity|reflexivity].
Qed.
Lemma sample_bin_number n_bins x err f i : length err = length x -> (forall e, In e err -> e <> None) -> (i < length x)%nat ->
  response (fit_feature n_bins x err f) (nth i x []) <> None.
Proof.
  intros L Hn Hi. unfold response. cbn [fit_feature feature inner_cuts bin_means].
  set (xs := map (fun r => nth f r 0) x). set (cuts := cuts_of n_bins xs). set (j := bin cuts (nth f (nth i x []) 0)).
  assert (Hj : (j < S n_bins)%nat). { pose proof (bin_valid cuts (nth f (nth i x []) 0)) as H. unfold cuts in H at 2. unfold cuts_of in H. rewrite map_length, seq_length in H. unfold j. lia. }
  rewrite (nth_map_seq (mean_of_bin cuts xs err)) by exact Hj. cbn [Nat.add]. unfold mean_of_bin.
  assert (In (nth f (nth i x []) 0, nth i err None) (filter (fun ve => (bin cuts (fst ve) =? j)%nat) (combine xs err))).
  { apply filter_In. split; [|apply Nat.eqb_refl].
    replace (nth f (nth i x []) 0) with (nth i xs 0) by (unfold xs; now rewrite (nth_map_in' _ _ _ _ [])).
    rewrite <- combine_nth by (unfold xs; now rewrite map_length). apply nth_In. rewrite combine_length. unfold xs. rewrite map_length. lia. }
  destruct (filter _ _) as [|s sel] eqn:E; [destruct H|].
  assert (T : exists v, total (map snd (s :: sel)) = Some v).
  { apply total_number. intros e He. apply in_map_iff in He. destruct He as [[a b] [<- Hb]]. rewrite <- E in Hb. apply filter_In in Hb. destruct Hb as [Hb _]. apply in_combine_r in Hb. now apply Hn. }
  destruct T as [v Hv]. intros Z. assert (Z' : scale (/ INR (length (s :: sel))) (total (map snd (s :: sel))) = None) by exact Z. rewrite Hv in Z'. discriminate.
Qed.

Lemma brutal_residuals lr n_bins n_features best x draws : forall err, length err = length x ->
  length (snd (brutal_fit lr n_bins n_features best x draws err)) = length x /\
  forall i, (i < length x)%nat -> nth i (snd (brutal_fit lr n_bins n_features best x draws err)) None =
    minus (nth i err None) (brutal_predict lr (length draws) (fst (brutal_fit lr n_bins n_features best x draws err)) (nth i x [])).
Proof.
  induction draws as [|idx draws IH]; intros err He; cbn [brutal_fit].
  - split; [exact He|]. intros i _. cbn. now rewrite minus_zero.
  - set (s := nth _ _ _). destruct (IH (minus_all err (map (fun r => scale lr (response s r)) x))) as [I1 I2].
    { rewrite minus_all_length; [exact He|now rewrite map_length]. }
    destruct (brutal_fit lr n_bins n_features best x draws _) as [ss e]. cbn [fst snd] in *. split; [exact I1|]. intros i Hi. rewrite I2 by exact Hi.
    rewrite minus_all_nth by (rewrite ?map_length; lia). rewrite (nth_map_in' _ _ _ _ []) by exact Hi.
    unfold brutal_predict. cbn [length firstn fold_left]. rewrite (fold_plus_start _ _ (plus (Some 0) _)), plus_zero_l. apply minus_minus.
Qed.
Lemma brutal_fit_length lr n_bins n_features best x draws : forall err, length (fst (brutal_fit lr n_bins n_features best x draws err)) = length draws.
Proof. induction draws as [|idx draws IH]; intros err; [reflexivity|]. cbn [brutal_fit]. specialize (IH (minus_all err (map (fun r => scale lr (response (nth (best (map (fit_feature n_bins (map (fun i => nth i x []) idx) (map (fun i => nth i err None) idx)) (seq 0 n_features))) (map (fit_feature n_bins (map (fun i => nth i x []) idx) (map (fun i => nth i err None) idx)) (seq 0 n_features)) (Stage [] [] 0)) r)) x))).
  destruct (brutal_fit lr n_bins n_features best x draws _) as [ss e]. cbn [fst] in *. cbn. now rewrite IH. Qed.
(** A second fit does not change the predictions. *)
Lemma brutal_refit_stale lr n_bins n_features best x draws y x' draws' y' row :
  let first := brutal_refit lr n_bins n_features best [] x draws y in
  brutal_predict lr (length draws) (brutal_refit lr n_bins n_features best first x' draws' y') row = brutal_predict lr (length draws) first row.
Proof.
  cbn zeta. unfold brutal_refit, brutal_predict. cbn [app]. rewrite firstn_app, brutal_fit_length, Nat.sub_diag. cbn [firstn]. now rewrite app_nil_r.
Qed.

(** Two sampled values, three bins: a value between them has no prediction. *)
Lemma quantile_two q : 0 <= q < 1 -> quantile [0; 1] q = q.
Proof.
  intros Hq. unfold quantile. cbn [length Nat.sub INR rsort fold_right rinsert].
  assert (E : Int_part (q * 1) = 0%Z). { unfold Int_part. rewrite Rmult_1_r. enough (up q = 1%Z) as -> by reflexivity. symmetry. apply tech_up; cbn; lra. }
  rewrite E. cbn [Z.to_nat]. unfold Rltb. repeat match goal with |- context[if ?b then _ else _] => destruct b; try lra end; cbn; lra.
Qed.

Lemma brutal_gap lr y :
  brutal_predict lr 1 (fst (brutal_fit lr 2 1 (fun _ => 0%nat) [[0]; [1]; [1/2]] [[0; 1]%nat] y)) [1/2] = None.
Proof.
  cbn [brutal_fit fst seq map nth]. unfold brutal_predict. cbn [firstn fold_left]. rewrite plus_zero_l.
  unfold response, fit_feature. cbn [feature inner_cuts bin_means map nth].
  assert (E : cuts_of 2 [0; 1] = [1/3; 2/3]).
  { unfold cuts_of. cbn [seq map]. rewrite !quantile_two by (cbn; lra). cbn. repeat f_equal; lra. }
  rewrite E. unfold bin. cbn [filter]. rewrite (proj2 (Rleb_spec (1/3) (1/2))) by lra.
  destruct (Rleb (2/3) (1/2)) eqn:E2; [apply Rleb_spec in E2; lra|]. cbn [length seq map nth]. unfold mean_of_bin, bin. cbn [combine filter fst].
  repeat match goal with |- context[Rleb ?a ?b] => let H := fresh in destruct (Rleb a b) eqn:H; [apply Rleb_spec in H; try lra|try (assert (~ a <= b) by (intros K; apply Rleb_spec in K; congruence); lra)] end.
  cbn. reflexivity.
Qed.

Lemma ok_minus lr (a b : num) : a <> None -> b <> None -> minus a (scale lr b) <> None.
Proof. destruct a, b; cbn; congruence. Qed.
Lemma ok_plus lr (a b : num) : a <> None -> b <> None -> plus (scale lr a) b <> None.
Proof. destruct a, b; cbn; congruence. Qed.
(** With every row in every draw, every row has a number. *)
Lemma brutal_numbers lr n_bins n_features best x draws y i :
  length y = length x -> (forall e, In e y -> e <> None) -> (0 < n_features)%nat -> (forall c, (best c < n_features)%nat) ->
  (forall idx, In idx draws -> (forall j, In j idx -> (j < length x)%nat) /\ forall j, (j < length x)%nat -> In j idx) -> (i < length x)%nat ->
  brutal_predict lr (length draws) (fst (brutal_fit lr n_bins n_features best x draws y)) (nth i x []) <> None.
Proof.
  intros L Hy _ Hb Hd Hi.
  assert (G : forall draws err, length err = length x -> (forall e, In e err -> e <> None) ->
    (forall idx, In idx draws -> (forall j, In j idx -> (j < length x)%nat) /\ forall j, (j < length x)%nat -> In j idx) ->
    brutal_predict lr (length draws) (fst (brutal_fit lr n_bins n_features best x draws err)) (nth i x []) <> None).
  2: now apply G.
  clear - Hb Hi. induction draws as [|idx draws IH]; intros err L Hn Hd; [discriminate|]. cbn [brutal_fit].
  set (cands := map (fit_feature _ _ _) _). set (s := nth (best cands) cands _).
  assert (R : forall k, (k < length x)%nat -> response s (nth k x []) <> None).
  { intros k Hk. destruct (Hd idx (or_introl eq_refl)) as [D1 D2]. destruct (In_nth idx k 0%nat (D2 k Hk)) as [m [Hm Em]].
    unfold s. unfold cands at 2. rewrite (nth_map_in' _ _ _ _ 0%nat) by (rewrite seq_length; apply Hb).
    set (sx := map (fun i => nth i x []) idx). assert (Ex : nth m sx [] = nth k x []). { unfold sx. rewrite (nth_map_in' _ _ _ _ 0%nat) by exact Hm. now rewrite Em. }
    rewrite <- Ex. apply sample_bin_number; unfold sx; rewrite ?map_length; [reflexivity| |exact Hm].
    intros e He. apply in_map_iff in He. destruct He as [j [<- Hj]]. apply Hn. apply nth_In. apply D1 in Hj. unfold num in *. lia. }
  assert (N : forall e, In e (minus_all err (map (fun r => scale lr (response s r)) x)) -> e <> None).
  { intros e He. apply (In_nth _ _ None) in He. destruct He as [k [Hk <-]]. rewrite minus_all_length in Hk by (rewrite map_length; exact L).
    rewrite minus_all_nth by (rewrite ?map_length; auto). assert (Hk2 : (k < length x)%nat) by (unfold num in *; lia). clear Hk; rename Hk2 into Hk. rewrite (nth_map_in' _ _ _ _ []) by exact Hk. specialize (R k Hk).
    apply (ok_minus lr); [apply Hn, nth_In; unfold num in *; lia|exact R]. }
  specialize (IH (minus_all err (map (fun r => scale lr (response s r)) x))).
  destruct (brutal_fit lr n_bins n_features best x draws _) as [ss e]. cbn [fst] in *. unfold brutal_predict in *. cbn [length firstn fold_left].
  rewrite fold_plus_start, plus_zero_l. specialize (R i Hi).
  specialize (IH ltac:(rewrite minus_all_length; [exact L|now rewrite map_length]) N (fun k hk => Hd k (or_intror hk))).
  apply (ok_plus lr); assumption.
Qed.
