(** Proofs about a forecaster over its life. *)
From Coq Require Import List ZArith Bool Arith Reals Sorted Lia Lra.
From Verif Require Import Model.Stats Model.Subsample Model.Quantiles Model.Metrics Model.ScenGen Model.CopulaFit Model.Lifecycle Spec.SubsampleSpec Spec.QuantilesSpec
  Spec.ScenGenSpec Spec.CopulaFitSpec Proof.SubsampleProof Proof.QuantilesProof Proof.ScenGenProof Proof.ScenGenProof2 Proof.CopulaFitProof.
Import ListNotations.
Local Open Scope R_scope.

Lemma fits_last c conditional qs ds d :
  post_fits c = true ->
  fits c conditional qs (ds ++ [d]) = Memory (Some d) (Some (estimate_err_distr conditional (c_steps d) qs (c_hours d) (c_errs d))).
Proof. intros H. unfold fits. rewrite fold_left_app. cbn. unfold fit at 1. now rewrite H. Qed.

Lemma fits_never c conditional qs ds : post_fits c = false -> m_copula (fits c conditional qs ds) = None.
Proof.
  intros H. unfold fits. assert (G : forall m, m_copula m = None -> m_copula (fold_left (fit c conditional qs) ds m) = None); [|now apply G].
  induction ds as [|d ds IH]; intros m Hm; [exact Hm|]. cbn. apply IH. unfold fit. rewrite H. destruct c; try exact Hm; discriminate.
Qed.

Lemma by_hour steps qs hours errs : exists t, estimate_err_distr true steps qs hours errs = PerHour t.
Proof. unfold estimate_err_distr. destruct (_ =? _)%nat; eauto. Qed.

Lemma quantile_array_by_hour c steps qs cop fh errs hours preds :
  post_fits c = true -> c <> Forest ->
  quantile_array c None steps qs (Memory cop (Some (estimate_err_distr true steps qs fh errs))) hours preds =
  predict_quantiles (estimate_err_distr true steps qs fh errs) steps (length qs) hours preds.
Proof.
  intros H Hc. destruct (by_hour steps qs fh errs) as (t & E). unfold quantile_array. cbn [m_distr].
  destruct c; try discriminate; try congruence; try reflexivity; rewrite E; reflexivity.
Qed.

(** No scenarios for the classes that do not fit the generator. *)
Lemma no_scenarios :
  forall c conditional qs ds own cov cdf steps hours preds n_scen draws nz,
  In c [Discrete; HoltWinters; HoltWintersMulti; FourierSmoothing; FourierKalman; FourierKalmanMulti; ExponentialSmoothing; LstmForecaster] ->
  scenarios c own cov cdf steps qs (fits c conditional qs ds) hours preds n_scen draws nz = None.
Proof.
  intros c conditional qs ds own cov cdf steps hours preds n_scen draws nz Hc. unfold scenarios.
  rewrite fits_never by (repeat destruct Hc as [<-|Hc]; try reflexivity; contradiction).
  destruct (quantile_array _ _ _ _ _ _ _); reflexivity.
Qed.

(** The others: scenarios follow the errors of the last fit. *)
Lemma scenarios_of_last_fit :
  forall c qs ds d cov cdf hours preds n_scen draws nz,
  In c [Linear; Lgb; Hybrid; EnergyAware; Fourier_features; Additive_features; Persistence; SeasonalPersistence; Network] ->
  (1 <= c_steps d)%nat -> length (c_hours d) = length (c_errs d) -> in_day (c_hours d) -> c_errs d <> [] ->
  StronglySorted Rlt qs -> (2 <= length qs)%nat -> Forall (fun q => 0 <= q <= 1) qs ->
  length hours = length preds -> in_day hours -> shaped (length hours) (c_steps d) preds -> n_scen <> 1%nat -> incl hours (c_hours d) ->
  (forall h, In h hours -> (2 <= length (rows_at (c_hours d) h (c_errs d)))%nat /\
     forall j, (j < c_steps d)%nat -> ~ constant_column (hour_data (c_hours d) (c_errs d) h) (length (rows_at (c_hours d) h (c_errs d))) j) ->
  exists scen rank, scenarios c None cov cdf (c_steps d) qs (fits c true qs (ds ++ [d])) hours preds n_scen draws nz = Some (c_steps d, scen) /\
    numbers_rows hours rank /\
    forall i j s l, (i < length hours)%nat -> (j < c_steps d)%nat -> (s < n_scen)%nat ->
      pool (c_hours d) (c_errs d) (nth i hours 0%Z) j l ->
      exists Q, piecewise_linear qs (map (fun q => cell preds i j + quantile l q) qs) Q /\
        scen i j s = Some (Q (cdf (draws (nth i hours 0%Z) [rank i; s; j])) + n_normal nz i j s / 10 ^ 9).
Proof.
  intros c qs ds d cov cdf hours preds n_scen draws nz Hc Hst Hlen Hd He Hs H2 Hq Hl Hdh Hsh Hn Hincl Hv.
  assert (Hp : post_fits c = true /\ c <> Forest) by (repeat destruct Hc as [<-|Hc]; try (split; [reflexivity|discriminate]); contradiction).
  destruct Hp as [Hp Hf]. unfold scenarios. rewrite fits_last by exact Hp. rewrite quantile_array_by_hour by assumption. cbn [m_copula].
  destruct (predicted_quantiles_correct (c_steps d) qs (c_hours d) (c_errs d) hours preds Hlen Hd He Hq Hl Hdh Hsh) as (q & Eq & Hql & Hqs & Hqc).
  rewrite Eq. rewrite varying_steps_sample by exact Hv.
  destruct (copula_sample_correct cdf (c_hours d) (c_steps d) n_scen hours draws Hn Hst Hincl) as (a & rank & Ea & Ha0 & Ha1 & Ha2 & Hr & Ha).
  rewrite Ea. rewrite predict_scenarios_plain. unfold sample_scenarios. eexists. exists rank. split; [reflexivity|]. split; [exact Hr|].
  intros i j s l Hi Hj Hsc Hpool. cbv beta.
  assert (Eqs : nth j (nth i q []) [] = map (fun q0 => cell preds i j + quantile l q0) qs).
  { apply nth_ext with (d := 0) (d' := 0).
    - rewrite map_length. rewrite Forall_forall in Hqs. assert (Hin : In (nth i q []) q) by (apply nth_In; lia).
      destruct (Hqs _ Hin) as [L1 L2]. rewrite Forall_forall in L2. apply L2. apply nth_In. lia.
    - intros k Hk. assert (Hk' : (k < length qs)%nat).
      { rewrite Forall_forall in Hqs. assert (Hin : In (nth i q []) q) by (apply nth_In; lia).
        destruct (Hqs _ Hin) as [L1 L2]. rewrite Forall_forall in L2. rewrite L2 in Hk by (apply nth_In; lia). exact Hk. }
      rewrite (nth_indep (map _ qs) 0 (cell preds i j + quantile l 0)) by (rewrite map_length; exact Hk').
      rewrite (map_nth (fun q0 => cell preds i j + quantile l q0) qs 0 k).
      destruct (Hqc i j ltac:(lia) Hj) as [Hc1 _]. specialize (Hc1 k l Hk' Hpool). unfold cell3, cell at 1 in Hc1. exact Hc1. }
  rewrite Eqs, Ha by assumption.
  destruct (interp_correct qs (map (fun q0 => cell preds i j + quantile l q0) qs)) as (Q & HQ & HP).
  { split; [exact Hs|]. split; [apply map_length|exact H2]. }
  exists Q. split; [exact HP|]. rewrite HQ. cbn. do 2 f_equal. unfold Rdiv. do 2 f_equal. ring.
Qed.

(** ** The cap *)
Lemma cap_used :
  forall (X Y : Type),
  forall c (g : rng) z seed times hours (dx : X) (dy : Y) x y,
  In c [Linear; Lgb; Hybrid; EnergyAware; Fourier_features; Additive_features; Forest; Persistence; SeasonalPersistence; Network] ->
  honest g -> length x = length times -> length y = length times ->
  (forall hs, hours = Some hs -> length hs = length times) -> (0 < z)%Z ->
  exists m pos, create c (Some (Whole z)) seed = Some (Some m) /\ Z.of_nat m = z /\
    (if (length x <=? m)%nat then pos = seq 0 (length x) else ordered_sample times (length x) m pos) /\
    calibration_rows c g (Some m) times hours dx dy x y = Some (rows dx x pos, rows dy y pos).
Proof.
  intros X Y c g z seed times hours dx dy x y Hc Hg Hx Hy Hh Hz.
  assert (Hp : post_fits c = true /\ refuses c = false) by (repeat destruct Hc as [<-|Hc]; try (split; reflexivity); contradiction).
  destruct Hp as [Hp Hr]. exists (Z.to_nat z).
  assert (Hcr : create c (Some (Whole z)) seed = Some (Some (Z.to_nat z))).
  { unfold create, validated. rewrite Hr. replace (z <=? 0)%Z with false by (symmetry; apply Z.leb_gt; lia). reflexivity. }
  unfold calibration_rows. rewrite Hp. destruct (Nat.leb_spec (length x) (Z.to_nat z)) as [L|L].
  - exists (seq 0 (length x)). split; [exact Hcr|]. split; [lia|]. split; [reflexivity|].
    rewrite subsample_unchanged by (right; eauto). f_equal.
    assert (E : forall A (d : A) l, rows d l (seq 0 (length l)) = l).
    { intros A d l. unfold rows. apply nth_ext with (d := d) (d' := d); [now rewrite map_length, seq_length|].
      intros n Hn. rewrite map_length, seq_length in Hn. rewrite (nth_indep _ d (nth (length l) l d)) by (rewrite map_length, seq_length; exact Hn).
      rewrite (map_nth (fun i => nth i l d)). now rewrite seq_nth. }
    rewrite E. f_equal. rewrite Hx, <- Hy. symmetry. apply E.
  - destruct (subsample_exact X Y g (Z.to_nat z) times hours dx dy x y Hg Hx Hy Hh L) as (pos & H1 & H2 & _).
    exists pos. split; [exact Hcr|]. split; [lia|]. split; [exact H1|exact H2].
Qed.

Lemma cap_refused :
  forall c cap seed, In c [HoltWinters; HoltWintersMulti; FourierSmoothing; FourierKalman; FourierKalmanMulti] ->
  (create c cap seed <> None <-> cap = None /\ seed = None).
Proof.
  intros c cap seed Hc. assert (Hr : refuses c = true) by (repeat destruct Hc as [<-|Hc]; try reflexivity; contradiction).
  unfold create. rewrite Hr. destruct cap, seed; split; intros H; try (exfalso; now apply H); try (destruct H; discriminate); try discriminate; now split.
Qed.

Lemma cap_invalid :
  forall c seed v, (v = OtherType \/ exists z, v = Whole z /\ (z <= 0)%Z) -> create c (Some v) seed = None.
Proof.
  intros c seed v Hv. unfold create. destruct (refuses c); [reflexivity|]. destruct Hv as [->|(z & -> & Hz)]; [reflexivity|].
  cbn. now replace (z <=? 0)%Z with true by (symmetry; apply Z.leb_le; lia).
Qed.

Lemma cap_ignored :
  forall (X Y : Type),
  forall (g : rng) z seed times hours (dx : X) (dy : Y) x y, (0 < z)%Z ->
  exists m, create ExponentialSmoothing (Some (Whole z)) seed = Some (Some m) /\
    calibration_rows ExponentialSmoothing g (Some m) times hours dx dy x y = Some (x, y).
Proof.
  intros X Y g z seed times hours dx dy x y Hz. exists (Z.to_nat z). split; [|reflexivity].
  cbn. now replace (z <=? 0)%Z with false by (symmetry; apply Z.leb_gt; lia).
Qed.
