(** Quantile forecasts and benchmarks under changes of units. *)
From Coq Require Import List ZArith Reals Arith Lia Lra Bool Permutation Sorting.Sorted.
From Verif Require Import Model.Stats Model.Series Model.Subsample Model.Quantiles Model.HoltWinters Model.Benchmarks Model.BenchFit
  Spec.BenchFitSpec Spec.UnitsSpec Proof.StatsProof Proof.UnitsProof.
Import ListNotations.
Local Open Scope R_scope.

Lemma rinsert_mono f x l : (forall a b, a <= b <-> f a <= f b) -> rinsert (f x) (map f l) = map f (rinsert x l).
Proof.
  intros H. induction l as [|a l IH]; [reflexivity|]. cbn [map rinsert].
  destruct (Rle_dec x a) as [L|L], (Rle_dec (f x) (f a)) as [L'|L']; rewrite H in L; try contradiction; [reflexivity|].
  cbn [map]. now rewrite IH.
Qed.
Lemma rsort_mono f l : (forall a b, a <= b <-> f a <= f b) -> rsort (map f l) = map f (rsort l).
Proof. intros H. unfold rsort. induction l as [|a l IH]; [reflexivity|]. cbn [map fold_right]. now rewrite IH, rinsert_mono. Qed.
Lemma nth_scaled c s i : nth i (map (Rmult c) s) 0 = c * nth i s 0.
Proof. rewrite <- (Rmult_0_r c) at 1. apply map_nth. Qed.
Lemma quantile_scaled c l q : 0 < c -> quantile (map (Rmult c) l) q = c * quantile l q.
Proof.
  intros H. unfold quantile. rewrite rsort_mono, map_length, !nth_scaled; [ring|].
  intros a b. split; intros; [nra|]. apply Rmult_le_reg_l with c; assumption.
Qed.
Lemma rsort_opp l : rsort (map Ropp l) = rev (map Ropp (rsort l)).
Proof.
  apply sorted_unique; [apply rsort_sorted| |].
  - pose proof (rsort_sorted l) as S. remember (rsort l) as s. clear Heqs. induction S as [|a s S IH F]; [constructor|]. cbn [map rev].
    assert (G : Forall (fun x => x <= - a) (rev (map Ropp s))).
    { rewrite Forall_forall in *. intros x Hx. apply in_rev, in_map_iff in Hx. destruct Hx as (y & <- & Hy). specialize (F y Hy). lra. }
    clear S F. revert IH G. generalize (rev (map Ropp s)). intros r S G. induction S as [|b r S IH F]; cbn; [repeat constructor|].
    inversion G; subst. constructor; [now apply IH|]. apply Forall_app. split; [assumption|]. now constructor.
  - rewrite <- Permutation_rev. transitivity (map Ropp l); [apply rsort_perm|]. apply Permutation_map. symmetry. apply rsort_perm.
Qed.
Lemma quantile_opp l q : 0 <= q <= 1 -> quantile (map Ropp l) q = - quantile l (1 - q).
Proof.
  intros Hq. destruct l as [|a0 l0]; [unfold quantile; cbn; rewrite !Tauto.if_same || idtac; destruct (Z.to_nat _); destruct (Z.to_nat _); cbn; ring|].
  set (l := a0 :: l0). rewrite !quantile_at_index, rsort_opp, map_length.
  pose proof (rsort_length l) as L. set (s := rsort l) in *. assert (N : (0 < length s)%nat) by (rewrite L; cbn; lia).
  rewrite <- L. clear L. clearbody s. clear l a0 l0.
  assert (R : forall i, (i < length s)%nat -> nth i (rev (map Ropp s)) 0 = - nth (length s - 1 - i) s 0).
  { intros i Hi. rewrite rev_nth by (rewrite map_length; lia). rewrite map_length. replace (length s - S i)%nat with (length s - 1 - i)%nat by lia.
    rewrite <- Ropp_0 at 1. apply map_nth. }
  assert (RL : length (rev (map Ropp s)) = length s) by (rewrite rev_length, map_length; reflexivity).
  destruct (index_cell (q * INR (length s - 1)) (length s - 1)) as (i & t & E & Ht & C).
  { pose proof (pos_INR (length s - 1)). nra. }
  replace ((1 - q) * INR (length s - 1)) with (INR (length s - 1) - (INR i + t)) by (rewrite <- E; ring). rewrite E. clear E.
  destruct C as [[Hi Ht1]|[-> ->]].
  - rewrite at_index_cell by (rewrite ?RL; lia || lra).
    replace (INR (length s - 1) - (INR i + t)) with (INR (length s - 2 - i) + (1 - t)).
    + rewrite at_index_cell by (lia || lra). rewrite !R by lia.
      replace (length s - 1 - S i)%nat with (length s - 2 - i)%nat by lia. replace (S (length s - 2 - i)) with (length s - 1 - i)%nat by lia. ring.
    + replace (length s - 1)%nat with (S (length s - 2 - i + i)) by lia. rewrite S_INR, plus_INR. ring.
  - rewrite Rplus_0_r, at_index_int by (rewrite RL; lia). replace (INR (length s - 1) - INR (length s - 1)) with (INR 0) by (cbn; ring).
    rewrite at_index_int by lia. rewrite R by lia. repeat f_equal. lia.
Qed.

(** A table of error quantiles. *)
Lemma column_scaled c errs j : column (map (map (Rmult c)) errs) j = map (Rmult c) (column errs j).
Proof. unfold column. rewrite !map_map. apply map_ext. intros r. apply nth_scaled. Qed.
Lemma quantile_table_scaled c steps errs qs : 0 < c ->
  quantile_table steps (map (map (Rmult c)) errs) qs = map (map (Rmult c)) (quantile_table steps errs qs).
Proof.
  intros H. unfold quantile_table. rewrite map_map. apply map_ext. intros j. rewrite column_scaled, map_map. apply map_ext. intros q. now apply quantile_scaled.
Qed.
Lemma column_opp errs j : column (map (map Ropp) errs) j = map Ropp (column errs j).
Proof. unfold column. rewrite !map_map. apply map_ext. intros r. rewrite <- Ropp_0 at 1. apply map_nth. Qed.
Lemma quantile_table_opp steps errs qs : Forall (fun q => 0 <= q <= 1) qs ->
  quantile_table steps (map (map Ropp) errs) qs = map (map Ropp) (quantile_table steps errs (map (fun q => 1 - q) qs)).
Proof.
  intros H. unfold quantile_table. rewrite map_map. apply map_ext. intros j. rewrite column_opp, !map_map. apply map_ext_Forall.
  revert H. apply Forall_impl. intros q Hq. now apply quantile_opp.
Qed.
Lemma rows_at_map {A B} (f : A -> B) hours h rows : Quantiles.rows_at hours h (map f rows) = map f (Quantiles.rows_at hours h rows).
Proof.
  unfold Quantiles.rows_at. revert rows. induction hours as [|a hours IH]; intros [|r rows]; try reflexivity. cbn [map combine filter fst].
  destruct (Z.eqb a h); cbn; now rewrite IH.
Qed.
Definition map_distr (f : list (list R) -> list (list R)) (d : distr) : distr :=
  match d with PerHour t => PerHour (map f t) | Single t => Single (f t) end.
Lemma map2_map {A B C D E F} (h : C -> F) (k : D -> E -> F) (f : A -> B -> C) (g1 : A -> D) (g2 : B -> E) :
  (forall a b, k (g1 a) (g2 b) = h (f a b)) -> forall la lb, map2 k (map g1 la) (map g2 lb) = map h (map2 f la lb).
Proof. intros H. unfold map2. induction la as [|a la IH]; intros [|b lb]; try reflexivity. cbn. now rewrite H, IH. Qed.
Lemma map2_right {A B C E F} (h : C -> F) (k : A -> E -> F) (f : A -> B -> C) (g2 : B -> E) :
  (forall a b, k a (g2 b) = h (f a b)) -> forall la lb, map2 k la (map g2 lb) = map h (map2 f la lb).
Proof. intros H. unfold map2. induction la as [|a la IH]; intros [|b lb]; try reflexivity. cbn. now rewrite H, IH. Qed.
Lemma add_table_scaled c a b : add_table (map (map (Rmult c)) a) (map (map (Rmult c)) b) = map (map (Rmult c)) (add_table a b).
Proof. unfold add_table. apply map2_map. intros x y. apply map2_map. intros u v. ring. Qed.
Lemma add_table_opp a b : add_table (map (map Ropp) a) (map (map Ropp) b) = map (map Ropp) (add_table a b).
Proof. unfold add_table. apply map2_map. intros x y. apply map2_map. intros u v. ring. Qed.
Lemma map2_left {A B C D F} (h : C -> F) (k : D -> B -> F) (f : A -> B -> C) (g1 : A -> D) :
  (forall a b, k (g1 a) b = h (f a b)) -> forall la lb, map2 k (map g1 la) lb = map h (map2 f la lb).
Proof. intros H. unfold map2. induction la as [|a la IH]; intros [|b lb]; try reflexivity. cbn. now rewrite H, IH. Qed.
Lemma add_table_moved d a b : add_table (map (map (fun x => x + d)) a) b = map (map (fun x => x + d)) (add_table a b).
Proof. unfold add_table. apply map2_left. intros x y. apply map2_left. intros u v. ring. Qed.

Lemma distr_at_map (f : R -> R) d steps h :
  distr_at (map_distr (map (map f)) d) steps h = option_map (map (map f)) (distr_at d steps h).
Proof.
  destruct d as [t|t]; cbn.
  - apply nth_error_map.
  - rewrite nth_error_map. destruct (nth_error t (Z.to_nat h)) as [r|]; [|reflexivity]. cbn. f_equal. induction steps; cbn; congruence.
Qed.
Lemma add_hours_map (f : R -> R) d steps hours : (forall a b, add_table (map (map f) a) (map (map f) b) = map (map f) (add_table a b)) ->
  forall us q, add_hours (map_distr (map (map f)) d) steps hours us (map (map (map f)) q) = option_map (map (map (map f))) (add_hours d steps hours us q).
Proof.
  intros H. induction us as [|u us IH]; intros q; [reflexivity|]. cbn [add_hours]. rewrite distr_at_map.
  destruct (distr_at d steps u) as [t|]; [|reflexivity]. cbn [option_map]. rewrite <- IH. f_equal.
  apply map2_right. intros hr row. destruct (Z.eqb hr u); [apply H|reflexivity].
Qed.
Lemma repeat_map {A B} (f : A -> B) x n : map f (repeat x n) = repeat (f x) n.
Proof. induction n; cbn; congruence. Qed.
Lemma copies_map (f : R -> R) n preds : map (map (fun v => repeat v n)) (map (map f) preds) = map (map (map f)) (map (map (fun v => repeat v n)) preds).
Proof. rewrite !map_map. apply map_ext. intros r. rewrite !map_map. apply map_ext. intros x. symmetry. apply repeat_map. Qed.
Lemma add_hours_moved d dist steps hours : forall us q,
  add_hours dist steps hours us (map (map (map (fun x => x + d))) q) = option_map (map (map (map (fun x => x + d)))) (add_hours dist steps hours us q).
Proof.
  induction us as [|u us IH]; intros q; [reflexivity|]. cbn [add_hours].
  destruct (distr_at dist steps u) as [t|]; [|reflexivity]. rewrite <- IH. f_equal.
  apply map2_right. intros hr row. destruct (Z.eqb hr u); [apply add_table_moved|reflexivity].
Qed.
Lemma estimate_scaled c cond steps qs hours errs : 0 < c ->
  estimate_err_distr cond steps qs hours (map (map (Rmult c)) errs) = map_distr (map (map (Rmult c))) (estimate_err_distr cond steps qs hours errs).
Proof.
  intros H. unfold estimate_err_distr. destruct cond; [|cbn; now rewrite quantile_table_scaled].
  destruct (_ =? 24)%nat; cbn [map_distr]; f_equal; rewrite map_map; apply map_ext; intros h; rewrite ?rows_at_map; now rewrite quantile_table_scaled.
Qed.
Lemma estimate_opp cond steps qs hours errs : Forall (fun q => 0 <= q <= 1) qs ->
  estimate_err_distr cond steps qs hours (map (map Ropp) errs) = map_distr (map (map Ropp)) (estimate_err_distr cond steps (map (fun q => 1 - q) qs) hours errs).
Proof.
  intros H. unfold estimate_err_distr. destruct cond; [|cbn; now rewrite quantile_table_opp].
  destruct (_ =? 24)%nat; cbn [map_distr]; f_equal; rewrite map_map; apply map_ext; intros h; rewrite ?rows_at_map; now rewrite quantile_table_opp.
Qed.
Lemma errors_scaled c y p : errors (map (map (Rmult c)) y) (map (map (Rmult c)) p) = map (map (Rmult c)) (errors y p).
Proof. unfold errors. apply map2_map. intros a b. apply map2_map. intros u v. ring. Qed.
Lemma errors_opp y p : errors (map (map Ropp) y) (map (map Ropp) p) = map (map Ropp) (errors y p).
Proof. unfold errors. apply map2_map. intros a b. apply map2_map. intros u v. ring. Qed.
Lemma errors_moved d y p : errors (map (map (fun v => v + d)) y) (map (map (fun v => v + d)) p) = errors y p.
Proof.
  unfold errors. rewrite <- (map_id (map2 (map2 Rminus) y p)). apply map2_map. intros a b. rewrite <- (map_id (map2 Rminus a b)).
  apply map2_map. intros u v. ring.
Qed.

(** Validation targets [y] and forecasts [fitted] in the hours [fit_hours], new forecasts [new] in [hours]. *)
Lemma quantiles_scaled :
  forall c cond steps qs fit_hours y fitted hours new, 0 < c ->
  predict_quantiles (estimate_err_distr cond steps qs fit_hours (errors (map (map (Rmult c)) y) (map (map (Rmult c)) fitted)))
    steps (length qs) hours (map (map (Rmult c)) new)
  = option_map (map (map (map (Rmult c)))) (predict_quantiles (estimate_err_distr cond steps qs fit_hours (errors y fitted)) steps (length qs) hours new).
Proof.
  intros c cond steps qs fh y fitted hours new H. unfold predict_quantiles.
  rewrite errors_scaled, estimate_scaled, copies_map by exact H. apply add_hours_map. intros a b. apply add_table_scaled.
Qed.
Lemma quantiles_moved :
  forall d cond steps qs fit_hours y fitted hours new,
  predict_quantiles (estimate_err_distr cond steps qs fit_hours (errors (map (map (fun v => v + d)) y) (map (map (fun v => v + d)) fitted)))
    steps (length qs) hours (map (map (fun v => v + d)) new)
  = option_map (map (map (map (fun v => v + d)))) (predict_quantiles (estimate_err_distr cond steps qs fit_hours (errors y fitted)) steps (length qs) hours new).
Proof.
  intros. unfold predict_quantiles. rewrite errors_moved, copies_map. apply add_hours_moved.
Qed.
Lemma quantiles_opposite :
  forall cond steps qs fit_hours y fitted hours new, Forall (fun q => 0 <= q <= 1) qs ->
  predict_quantiles (estimate_err_distr cond steps qs fit_hours (errors (map (map Ropp) y) (map (map Ropp) fitted)))
    steps (length qs) hours (map (map Ropp) new)
  = option_map (map (map (map Ropp)))
      (predict_quantiles (estimate_err_distr cond steps (map (fun q => 1 - q) qs) fit_hours (errors y fitted)) steps (length qs) hours new).
Proof.
  intros cond steps qs fh y fitted hours new H. unfold predict_quantiles.
  rewrite errors_opp, estimate_opp, copies_map by exact H. apply add_hours_map. intros a b. apply add_table_opp.
Qed.

(** The benchmarks. *)
Lemma split_map (f : R -> R) ratio y :
  training_part ratio (map f y) = map f (training_part ratio y) /\ validation_part ratio (map f y) = map f (validation_part ratio y).
Proof.
  unfold training_part, validation_part, train_val_split. destruct ratio as [r|]; cbn; [|tauto]. rewrite map_length.
  now rewrite firstn_map, skipn_map_f.
Qed.
Lemma without_last_map {A B} (f : A -> B) n l : without_last n (map f l) = map f (without_last n l).
Proof. unfold without_last. now rewrite map_length, firstn_map. Qed.
Lemma persistent_map (f : R -> R) n x : persistent_predict n (map f x) = map (map f) (persistent_predict n x).
Proof. unfold persistent_predict. rewrite !map_map. apply map_ext. intros v. symmetry. apply repeat_map. Qed.
Lemma rows_at_in {A B} (f : A -> B) (d : A) (d' : B) ps l : (forall i, In i ps -> (i < length l)%nat) ->
  BenchFit.rows_at d' ps (map f l) = map f (BenchFit.rows_at d ps l).
Proof.
  intros H. unfold BenchFit.rows_at. rewrite map_map. apply map_ext_in. intros i Hi.
  rewrite (nth_indep _ d' (f d)) by (rewrite map_length; auto). apply map_nth.
Qed.
Lemma tl_map {A B} (f : A -> B) l : tl (map f l) = map f (tl l).
Proof. now destruct l. Qed.
Lemma hankel_rows {V} (l : list V) n : length (hankel l n) = (length l + 1 - n)%nat.
Proof. unfold hankel. now rewrite map_length, seq_length. Qed.
Lemma target_rows {V} (l : list V) n : (1 <= n)%nat -> (length (without_last n l) <= length (hankel (tl l) n))%nat.
Proof. intros H. rewrite hankel_rows. unfold without_last. rewrite firstn_length. destruct l; cbn [length tl]; lia. Qed.
Lemma persistent_errors_map (f g : R -> R) : (forall a b, f a - f b = g (a - b)) ->
  forall ratio n_sa positions y, (1 <= n_sa)%nat -> chooses positions ->
  persistent_errors ratio n_sa positions (map f y) = map (map g) (persistent_errors ratio n_sa positions y).
Proof.
  intros H ratio n ps y Hn C. unfold persistent_errors. destruct (split_map f ratio y) as [_ ->].
  rewrite without_last_map, tl_map, hankel_map, map_length.
  set (v := validation_part ratio y). set (x := without_last n v).
  rewrite (rows_at_in (map f) [] []), (rows_at_in f 0 0), persistent_map.
  - unfold differences. apply map2_map. intros a b. apply map2_map. intros u w. apply H.
  - intros i Hi. apply C in Hi. exact Hi.
  - intros i Hi. apply C in Hi. pose proof (target_rows v n Hn). fold x in H0. lia.
Qed.
Lemma seasonal_state_map (f : R -> R) s l : seasonal_state s (map f l) = map f (seasonal_state s l).
Proof. unfold seasonal_state. destruct (s =? 0)%nat; [reflexivity|]. now rewrite map_length, skipn_map_f. Qed.
Lemma seasonal_predict_map (f : R -> R) n st x : seasonal_predict n (map f st) (map f x) = option_map (map (map f)) (seasonal_predict n st x).
Proof.
  unfold seasonal_predict. rewrite <- map_app, hankel_map, map_length, firstn_map, map_length. now destruct (_ =? _)%nat.
Qed.
Lemma seasonal_forecast_map (f : R -> R) : forall ratio s n_sa y x,
  seasonal_forecast ratio s n_sa (map f y) (map f x) = option_map (map (map f)) (seasonal_forecast ratio s n_sa y x).
Proof. intros. unfold seasonal_forecast, fitted_state. destruct (split_map f ratio y) as [-> _]. now rewrite seasonal_state_map, seasonal_predict_map. Qed.
Lemma seasonal_errors_map (f g : R -> R) : (forall a b, f a - f b = g (a - b)) ->
  forall ratio s n_sa positions y, (1 <= n_sa)%nat -> chooses positions ->
  seasonal_errors ratio s n_sa positions (map f y) = option_map (map (map g)) (seasonal_errors ratio s n_sa positions y).
Proof.
  intros H ratio s n ps y Hn C. unfold seasonal_errors, fitted_state. destruct (split_map f ratio y) as [-> ->].
  rewrite without_last_map, tl_map, hankel_map, map_length, seasonal_state_map.
  set (v := validation_part ratio y). set (x := without_last n v).
  rewrite (rows_at_in (map f) [] []), (rows_at_in f 0 0), seasonal_predict_map.
  - destruct (seasonal_predict n _ _) as [preds|]; [|reflexivity]. cbn [option_map]. f_equal.
    unfold differences. apply map2_map. intros a b. apply map2_map. intros u w. apply H.
  - intros i Hi. apply C in Hi. exact Hi.
  - intros i Hi. apply C in Hi. pose proof (target_rows v n Hn). fold x in H0. lia.
Qed.
(** Both benchmarks: forecasts follow the unit and the offset, errors follow the unit and ignore the offset. *)
Lemma persistence_units : forall c d ratio n_sa positions y x, (1 <= n_sa)%nat -> chooses positions ->
  persistent_predict n_sa (map (fun v => c * v + d) x) = map (map (fun v => c * v + d)) (persistent_predict n_sa x) /\
  persistent_errors ratio n_sa positions (map (fun v => c * v + d) y) = map (map (Rmult c)) (persistent_errors ratio n_sa positions y).
Proof. intros. split; [apply persistent_map|]. apply persistent_errors_map; try assumption. intros a b. ring. Qed.
Lemma seasonal_units : forall c d ratio s n_sa positions y x, (1 <= n_sa)%nat -> chooses positions ->
  seasonal_forecast ratio s n_sa (map (fun v => c * v + d) y) (map (fun v => c * v + d) x)
  = option_map (map (map (fun v => c * v + d))) (seasonal_forecast ratio s n_sa y x) /\
  seasonal_errors ratio s n_sa positions (map (fun v => c * v + d) y) = option_map (map (map (Rmult c))) (seasonal_errors ratio s n_sa positions y).
Proof. intros. split; [apply seasonal_forecast_map|]. apply seasonal_errors_map; try assumption. intros a b. ring. Qed.
