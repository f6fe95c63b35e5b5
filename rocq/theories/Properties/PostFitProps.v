(** Properties of the steps after training and of the copula: C16, C106-C112, C213. *)
From Coq Require Import List ZArith Bool Arith Reals Lra Lia.
From Verif Require Import Model.Series Model.Subsample Model.Stats Model.Quantiles Model.Metrics Model.ScenGen
  Model.PostFit Model.CopulaFit Spec.SubsampleSpec Spec.StatsSpec Spec.QuantilesSpec Spec.ScenGenSpec
  Spec.PostFitSpec Spec.CopulaFitSpec Spec.ScenUnitSpec Proof.SubsampleProof Proof.PostFitProof Proof.CopulaFitProof Proof.ScenUnitProof.
Import ListNotations.
Local Open Scope R_scope.

(** C16: which seed is used; the result depends on the generator of that seed only. *)
Theorem C16_seed :
  forall (X : Type),
  forall (gen : Z -> rng) cap prefit conditional steps qs (denorm : sample X -> list R -> list R)
    (model : sample X -> list R) d0 x ytimes y,
  (forall s r r', post_fit gen (Some s) r cap prefit conditional steps qs denorm model d0 x ytimes y
                  = post_fit gen (Some s) r' cap prefit conditional steps qs denorm model d0 x ytimes y) /\
  (forall s r, post_fit gen (Some s) r cap prefit conditional steps qs denorm model d0 x ytimes y
               = post_fit gen None (Some s) cap prefit conditional steps qs denorm model d0 x ytimes y) /\
  post_fit gen None None cap prefit conditional steps qs denorm model d0 x ytimes y
  = post_fit gen (Some 0%Z) None cap prefit conditional steps qs denorm model d0 x ytimes y /\
  (forall gen' s r, (forall z, s = Some z -> gen z = gen' z) -> (s = None -> forall z, r = Some z -> gen z = gen' z) ->
     (s = None -> r = None -> gen 0%Z = gen' 0%Z) ->
     post_fit gen s r cap prefit conditional steps qs denorm model d0 x ytimes y
     = post_fit gen' s r cap prefit conditional steps qs denorm model d0 x ytimes y).
Proof. exact (@post_fit_seed). Qed.
Print Assumptions C16_seed.
(** C106: the quantiles cover the rows they were calibrated on. *)
Theorem C106_calibrated :
  forall (X : Type),
  forall (gen : Z -> rng) scengen_state random_state cap prefit steps qs (denorm : sample X -> list R -> list R)
    (model : sample X -> list R) d0 x y xs ys d,
  (forall s, honest (gen s)) -> length y = length x -> x <> [] -> cap <> Some 0%nat -> in_day (map sm_hour x) ->
  Forall (fun q => 0 <= q <= 1) qs ->
  (forall r, In r x -> length (denorm r (model r)) = steps) ->
  (forall r v, In (r, v) (combine x y) -> length (denorm r v) = steps) ->
  post_fit gen scengen_state random_state cap prefit true steps qs denorm model d0 x (map sm_time x) y = Some (xs, ys, d) ->
  (exists pos, xs = rows d0 x pos /\ ys = rows [] (map2 denorm x y) pos /\
     NoDup pos /\ (forall p, In p pos -> (p < length x)%nat) /\
     length pos = match cap with Some m => Nat.min m (length x) | None => length x end) /\
  exists q, forecast_quantiles d steps qs denorm model xs = Some q /\
    forall h g j k m m', calibration_rows (map sm_hour xs) h g -> g <> [] -> (j < steps)%nat -> (k < length qs)%nat ->
      how_many (fun e => e <= 0) (residuals ys q g j k) m ->
      how_many (fun e => 0 <= e) (residuals ys q g j k) m' ->
      nth k qs 0 * INR (length g - 1) < INR m /\ (1 - nth k qs 0) * INR (length g - 1) < INR m'.
Proof. exact (@post_fit_calibrated). Qed.
Print Assumptions C106_calibrated.
Theorem C106_fit_succeeds :
  forall (X : Type),
  forall (gen : Z -> rng) scengen_state random_state cap conditional steps qs (denorm : sample X -> list R -> list R)
    (model : sample X -> list R) d0 x y,
  (forall s, honest (gen s)) -> length y = length x ->
  exists r, post_fit gen scengen_state random_state cap false conditional steps qs denorm model d0 x (map sm_time x) y = Some r.
Proof. exact (@post_fit_succeeds). Qed.
Print Assumptions C106_fit_succeeds.
(** Two rows of different hours, one step, a constant learner, the median. *)
Example C106_case : forall gen,
  exists xs ys d,
    post_fit gen None None None false true 1 [1 / 2] (fun _ v => v) (fun _ => [5]) (Sample 0 0 tt)
      [Sample 10 3 tt; Sample 20 4 tt] (map sm_time [Sample 10 3 tt; Sample 20 4 tt]) [[6]; [8]] = Some (xs, ys, d) /\
    xs = [Sample 10%Z 3%Z tt; Sample 20%Z 4%Z tt] /\ ys = [[6]; [8]] /\
    in_day (map sm_hour xs) /\ calibration_rows (map sm_hour xs) 3 [0; 1]%nat.
Proof.
  intros gen. eexists _, _, _. split; [reflexivity|]. split; [reflexivity|]. split; [reflexivity|]. split.
  - intros h. cbn. lia.
  - right. split; [|reflexivity]. intros F. specialize (F 5%Z ltac:(lia)). cbn in F. lia.
Qed.

(** C107: trees can be prepared for every data set the forecaster accepts. *)
Theorem C107_prefit_partial :
  forall (X : Type),
  forall (gen : Z -> rng) scengen_state random_state conditional steps qs (denorm : sample X -> list R -> list R)
    (model : sample X -> list R) d0 x y,
  length y = length x ->
  ((exists r, post_fit gen scengen_state random_state None true conditional steps qs denorm model d0 x (map sm_time x) y = Some r)
   <-> full_day (map sm_hour x)).
Proof. exact (@prefit_all_hours). Qed.
Print Assumptions C107_prefit_partial.
(** Missing: data without some hour of the day; and even with all hours in the data,
    two rows each, the subsampling may drop one of them. *)
Theorem C107_starved_refuted :
  exists (gen : Z -> rng) cap (x : list (sample unit)) y,
    (forall s, honest (gen s)) /\ length y = length x /\ (24 <= cap)%nat /\
    full_day (map sm_hour x) /\ (forall h, (0 <= h < 24)%Z -> available (map sm_hour x) h = 2%nat) /\
    forall scengen_state random_state conditional steps qs denorm model d0,
      post_fit gen scengen_state random_state (Some cap) true conditional steps qs denorm model d0 x (map sm_time x) y = None.
Proof. exact (@prefit_starved). Qed.
Print Assumptions C107_starved_refuted.
Example C107_case : full_day (map sm_hour (map (fun i => Sample (Z.of_nat i) (Z.of_nat i mod 24)%Z tt) (seq 0 24))).
Proof. apply prefit_ok_spec. vm_compute. reflexivity. Qed.

(** C108: the matrices of the copula are correlation matrices. *)
Theorem C108_vanilla :
  forall xs n dim, (2 <= n)%nat -> (forall j, (j < dim)%nat -> ~ constant_column xs n j) ->
  exists M, (forall i j, (i < dim)%nat -> (j < dim)%nat -> corr_est Vanilla xs n dim i j = Some (M i j)) /\
    (forall i j, (i < dim)%nat -> (j < dim)%nat -> M i j = M j i) /\
    (forall i, (i < dim)%nat -> M i i = 1 + / 1000000) /\
    (forall i j, (i < dim)%nat -> (j < dim)%nat -> i <> j -> correlation xs n i j (M i j) /\ -1 <= M i j <= 1) /\
    positive_definite dim M (/ 1000000).
Proof. exact (@vanilla_correlation). Qed.
Print Assumptions C108_vanilla.
Theorem C108_shrunk_partial :
  forall xs n dim, (2 <= n)%nat -> (forall j, (j < dim)%nat -> ~ constant_column xs n j) ->
  exists M, (forall i j, (i < dim)%nat -> (j < dim)%nat -> corr_est Shrunk xs n dim i j = Some (M i j)) /\
    (forall i j, (i < dim)%nat -> (j < dim)%nat -> M i j = M j i) /\
    (forall i, (i < dim)%nat -> M i i = 9 / 10 + 1 / 10 * mean_of (fun k => variance xs n k) dim / variance xs n i) /\
    (forall i j, (i < dim)%nat -> (j < dim)%nat -> i <> j -> correlation xs n i j (10 / 9 * M i j)) /\
    positive_definite dim M 0.
Proof. exact (@shrunk_matrix). Qed.
Print Assumptions C108_shrunk_partial.
(** Missing: a unit diagonal. *)
Theorem C108_shrunk_refuted :
  forall B, exists xs v, (forall j, (j < 2)%nat -> ~ constant_column xs 2 j) /\
    corr_est Shrunk xs 2 2 0 0 = Some v /\ B < v.
Proof. exact (@shrunk_not_correlation). Qed.
Print Assumptions C108_shrunk_refuted.
Example C108_case : forall j, ~ constant_column (uneven 3) 2 j.
Proof. intros j. apply uneven_not_constant. lra. Qed.

(** C109: scenarios can be sampled for every hour of the training data. *)
Theorem C109_varying_partial :
  forall m cdf fit_hours errs dim n_scen hours draws,
  (forall h, In h hours -> (2 <= length (rows_at fit_hours h errs))%nat /\
     forall j, (j < dim)%nat -> ~ constant_column (hour_data fit_hours errs h) (length (rows_at fit_hours h errs)) j) ->
  copula_fit_sample m cdf fit_hours errs dim n_scen hours draws = copula_sample cdf fit_hours dim n_scen hours draws.
Proof. exact (@varying_steps_sample). Qed.
Print Assumptions C109_varying_partial.
Theorem C109_constant_refuted :
  forall m cdf fit_hours errs dim n_scen hours draws h j c,
  In h hours -> (j < dim)%nat ->
  (forall i e, nth_error fit_hours i = Some h -> nth_error errs i = Some e -> nth j e 0 = c) ->
  copula_fit_sample m cdf fit_hours errs dim n_scen hours draws = None.
Proof. exact (@constant_step_fails). Qed.
Print Assumptions C109_constant_refuted.
(** Errors at night: the second step is always exact. *)
Example C109_case : forall m cdf draws,
  copula_fit_sample m cdf [23; 23; 12; 12]%Z [[1; 0]; [2; 0]; [3; 1]; [1; 2]] 2 10 [23]%Z draws = None.
Proof.
  intros m cdf draws. apply (C109_constant_refuted m cdf _ _ 2 10 _ draws 23%Z 1%nat 0); [now left|lia|].
  intros [|[|[|[|i]]]] e H1 H2; cbn in H1, H2; inversion H1; inversion H2; try reflexivity.
  destruct i; discriminate.
Qed.

(** C110: a random state makes scenarios reproducible. *)
Theorem C110_noise_partial :
  forall rvs seed m cdf fit_hours errs q_vect init nz nz' steps n_scen hours quantiles k f,
  seeded_scenarios rvs seed m cdf fit_hours errs q_vect false init nz steps n_scen hours quantiles = Some (k, f) ->
  exists f', seeded_scenarios rvs seed m cdf fit_hours errs q_vect false init nz' steps n_scen hours quantiles = Some (k, f') /\
    forall i j s v, f i j s = Some v -> exists v', f' i j s = Some v' /\
      v' - v = (n_normal nz' i j s - n_normal nz i j s) * / 1000000000.
Proof. exact (@seeded_noise). Qed.
Print Assumptions C110_noise_partial.
Theorem C110_additional_partial :
  forall rvs seed m cdf fit_hours errs q_vect obs nz nz' steps n_scen hours quantiles k f,
  seeded_scenarios rvs seed m cdf fit_hours errs q_vect false None nz steps n_scen hours quantiles = Some (k, f) ->
  length obs = length hours ->
  exists f', seeded_scenarios rvs seed m cdf fit_hours errs q_vect true (Some obs) nz' steps n_scen hours quantiles = Some (S k, f') /\
    (forall i s, f' i 0%nat s = Some (nth i obs 0 + n_uniform nz' i s * / 1000000 + n_normal nz' i 0%nat s * / 1000000000)) /\
    forall i j s v, f i j s = Some v -> exists v', f' i (S j) s = Some v' /\
      v' - v = (n_normal nz' i (S j) s - n_normal nz i j s) * / 1000000000.
Proof. exact (@seeded_additional). Qed.
Print Assumptions C110_additional_partial.
Theorem C110_additional_length_partial :
  forall rvs seed m cdf fit_hours errs q_vect obs nz steps n_scen hours quantiles,
  length obs <> length hours ->
  seeded_scenarios rvs seed m cdf fit_hours errs q_vect true (Some obs) nz steps n_scen hours quantiles = None.
Proof. exact (@seeded_additional_length). Qed.
Print Assumptions C110_additional_length_partial.
Theorem C110_reproducible_refuted :
  forall rvs seed m cdf fit_hours errs q_vect init nz steps n_scen hours quantiles k f i j s v,
  seeded_scenarios rvs seed m cdf fit_hours errs q_vect false init nz steps n_scen hours quantiles = Some (k, f) ->
  f i j s = Some v ->
  exists nz' f' v', seeded_scenarios rvs seed m cdf fit_hours errs q_vect false init nz' steps n_scen hours quantiles = Some (k, f') /\
    f' i j s = Some v' /\ v' <> v.
Proof. exact (@seeded_differs). Qed.
Print Assumptions C110_reproducible_refuted.
(** C111: rows get their own draws. *)
Theorem C111_same_draws_refuted :
  forall rvs seed m cdf fit_hours errs dim n_scen hours i i',
  n_scen <> 1%nat -> (1 <= dim)%nat -> incl hours fit_hours ->
  (forall h, In h hours -> (2 <= length (rows_at fit_hours h errs))%nat /\
     forall j, (j < dim)%nat -> ~ constant_column (hour_data fit_hours errs h) (length (rows_at fit_hours h errs)) j) ->
  (i < length hours)%nat -> (i' < length hours)%nat ->
  rows_of_hour hours (nth i hours 0%Z) = 1%nat -> rows_of_hour hours (nth i' hours 0%Z) = 1%nat ->
  hour_cov m fit_hours errs dim (nth i hours 0%Z) = hour_cov m fit_hours errs dim (nth i' hours 0%Z) ->
  exists s, copula_fit_sample m cdf fit_hours errs dim n_scen hours
              (seeded_draws rvs seed m fit_hours errs dim n_scen hours) = Some s /\
    forall j k, (j < dim)%nat -> (k < n_scen)%nat -> a_at s i j k = a_at s i' j k.
Proof. exact (@same_draws). Qed.
Print Assumptions C111_same_draws_refuted.
Theorem C111_same_hour_partial :
  forall rvs seed m cdf fit_hours errs dim n_scen hours i i',
  n_scen <> 1%nat -> (1 <= dim)%nat -> incl hours fit_hours ->
  (forall h, In h hours -> (2 <= length (rows_at fit_hours h errs))%nat /\
     forall j, (j < dim)%nat -> ~ constant_column (hour_data fit_hours errs h) (length (rows_at fit_hours h errs)) j) ->
  (i < length hours)%nat -> (i' < length hours)%nat -> i <> i' -> nth i hours 0%Z = nth i' hours 0%Z ->
  (forall cov shape p p', p <> p' -> rvs seed cov shape p <> rvs seed cov shape p') -> (forall u v, cdf u = cdf v -> u = v) ->
  exists s, copula_fit_sample m cdf fit_hours errs dim n_scen hours
              (seeded_draws rvs seed m fit_hours errs dim n_scen hours) = Some s /\
    forall j k, (j < dim)%nat -> (k < n_scen)%nat -> a_at s i j k <> a_at s i' j k.
Proof. exact (@same_hour_draws). Qed.
Print Assumptions C111_same_hour_partial.
(** Two hours with the same errors, two rows to forecast. *)
Definition twin_hours : list Z := [7; 7; 8; 8]%Z.
Definition twin_errs : list (list R) := [[0]; [1]; [0]; [1]].
Example C111_case : incl [7; 8]%Z twin_hours /\
  (forall h, In h [7; 8]%Z -> (2 <= length (rows_at twin_hours h twin_errs))%nat /\
     forall j, (j < 1)%nat -> ~ constant_column (hour_data twin_hours twin_errs h) (length (rows_at twin_hours h twin_errs)) j) /\
  rows_of_hour [7; 8]%Z 7 = 1%nat /\ rows_of_hour [7; 8]%Z 8 = 1%nat /\
  forall m, hour_cov m twin_hours twin_errs 1 7 = hour_cov m twin_hours twin_errs 1 8.
Proof.
  split; [intros a; cbn; tauto|]. split; [|split; [reflexivity|split; reflexivity]].
  assert (N : forall f : nat -> nat -> R, f 0%nat 0%nat = 0 -> f 1%nat 0%nat = 1 -> forall j, (j < 1)%nat -> ~ constant_column f 2 j).
  { intros f H0 H1 j Hj [c Hc]. replace j with 0%nat in Hc by lia.
    pose proof (Hc 0%nat ltac:(lia)). pose proof (Hc 1%nat ltac:(lia)). lra. }
  intros h [<-|[<-|[]]]; (split; [cbn; lia|]); apply N; reflexivity.
Qed.

(** C112: the regularisation is tuned on the hour with most observations. *)
Theorem C112_hour_refuted :
  exists hours, in_day hours /\ ~ In (glasso_cv_hour hours) hours /\ forall h, most_frequent hours h -> h <> glasso_cv_hour hours.
Proof. exact (@glasso_hour_wrong). Qed.
Print Assumptions C112_hour_refuted.
Theorem C112_always_zero_refuted : forall hours, glasso_cv_hour hours = 0%Z.
Proof. exact (@glasso_hour_zero). Qed.
Print Assumptions C112_always_zero_refuted.
Theorem C112_hour_partial : forall hours, most_frequent hours (glasso_cv_hour hours) <-> most_frequent hours 0%Z.
Proof. exact (@glasso_hour_right). Qed.
Print Assumptions C112_hour_partial.
Example C112_hour_case : most_frequent [0; 5; 0]%Z 0%Z.
Proof. split; [now left|]. intros h. unfold occurrences. cbn. repeat match goal with |- context [Z.eqb ?a ?b] => destruct (Z.eqb a b) end; cbn; try lia; repeat match goal with |- context [if ?c then _ else _] => destruct c end; cbn; lia. Qed.


(** C213: copulas and scenarios in another unit. *)
Theorem C213_copula :
  forall m hours errs dim k b h i j, Forall (fun row => length row = dim) errs -> (i < dim)%nat -> (j < dim)%nat ->
  (forall a c, (a < dim)%nat -> (c < dim)%nat -> 0 < k a * k c) -> (m = Vanilla \/ i <> j \/ forall a, (a < dim)%nat -> k a = k i) ->
  hour_cov m hours (map (rescaled k b) errs) dim h i j = hour_cov m hours errs dim h i j.
Proof. exact (@copula_rescaled). Qed.
Print Assumptions C213_copula.
Theorem C213_shrunk_refuted :
  forall hours errs dim k b h, Forall (fun row => length row = dim) errs ->
  (forall a c, (a < dim)%nat -> (c < dim)%nat -> 0 < k a * k c) -> 
  (0 < length (Quantiles.rows_at hours h errs))%nat -> (forall a, (a < dim)%nat -> 0 < variance (hour_data hours errs h) (length (Quantiles.rows_at hours h errs)) a) ->
  ((forall i j, (i < dim)%nat -> (j < dim)%nat -> hour_cov Shrunk hours (map (rescaled k b) errs) dim h i j = hour_cov Shrunk hours errs dim h i j) <->
   forall a c, (a < dim)%nat -> (c < dim)%nat -> k a = k c).
Proof. exact (@shrunk_one_unit). Qed.
Print Assumptions C213_shrunk_refuted.
Theorem C213_offset :
  forall rvs seed m cdf fit_hours errs q_vect additional init nz steps n_scen hours quantiles d n scen,
  (additional = true -> init <> None) ->
  seeded_scenarios rvs seed m cdf fit_hours errs q_vect additional init nz steps n_scen hours quantiles = Some (n, scen) ->
  exists scen', seeded_scenarios rvs seed m cdf fit_hours errs q_vect additional (option_map (map (Rplus d)) init) nz steps n_scen hours
                  (fun i j => map (Rplus d) (quantiles i j)) = Some (n, scen') /\
    forall i j s, (i < length hours)%nat -> scen' i j s = option_map (Rplus d) (scen i j s).
Proof. exact (@scenarios_offset). Qed.
Print Assumptions C213_offset.
Theorem C213_unit_partial :
  forall rvs seed m cdf fit_hours errs q_vect additional init nz steps n_scen hours quantiles k d n scen,
  (forall seed f g shape at_, (forall i j, (i < steps)%nat -> (j < steps)%nat -> f i j = g i j) -> rvs seed f shape at_ = rvs seed g shape at_) ->
  Forall (fun row => length row = steps) errs -> 0 < k -> (additional = true -> init <> None) ->
  seeded_scenarios rvs seed m cdf fit_hours errs q_vect additional init nz steps n_scen hours quantiles = Some (n, scen) ->
  exists scen', seeded_scenarios rvs seed m cdf fit_hours (map (map (Rmult k)) errs) q_vect additional (option_map (map (fun v => k * v + d)) init) nz steps n_scen hours
                  (fun i j => map (fun v => k * v + d) (quantiles i j)) = Some (n, scen') /\
    forall i j s, (i < length hours)%nat ->
      scen' i j s = option_map (fun v => k * v + d + (1 - k) * (n_normal nz i j s / 1000000000 + (if additional && (j =? 0)%nat then n_uniform nz i s / 1000000 else 0))) (scen i j s).
Proof. exact (@scenarios_units). Qed.
Print Assumptions C213_unit_partial.
(** Missing: the noise does not follow the unit. *)
Theorem C213_unit_refuted :
  forall rvs seed m cdf fit_hours errs q_vect init nz steps n_scen hours quantiles k d n scen i j s v,
  (forall seed f g shape at_, (forall i j, (i < steps)%nat -> (j < steps)%nat -> f i j = g i j) -> rvs seed f shape at_ = rvs seed g shape at_) ->
  Forall (fun row => length row = steps) errs -> 0 < k ->
  seeded_scenarios rvs seed m cdf fit_hours errs q_vect false init nz steps n_scen hours quantiles = Some (n, scen) ->
  (i < length hours)%nat -> scen i j s = Some v ->
  exists scen', seeded_scenarios rvs seed m cdf fit_hours (map (map (Rmult k)) errs) q_vect false (option_map (map (fun v => k * v + d)) init) nz steps n_scen hours
                  (fun i j => map (fun v => k * v + d) (quantiles i j)) = Some (n, scen') /\
    (scen' i j s = Some (k * v + d) <-> k = 1 \/ n_normal nz i j s = 0).
Proof. exact (@scenarios_unit_noise). Qed.
Print Assumptions C213_unit_refuted.
(** Two steps, in watts and kilowatts. *)
Example C213_case : Forall (fun row => length row = 2%nat) [[0; 0]; [1; 3]] /\
  (0 < length (rows_at [7; 7]%Z 7 [[0; 0]; [1; 3]]))%nat /\
  (forall a, (a < 2)%nat -> 0 < variance (hour_data [7; 7]%Z [[0; 0]; [1; 3]] 7) (length (rows_at [7; 7]%Z 7 [[0; 0]; [1; 3]])) a) /\
  map (rescaled (fun j => if (j =? 0)%nat then 1 else 1000) (fun _ => 5)) [[0; 0]; [1; 3]] = [[5; 5]; [6; 3005]].
Proof.
  split; [repeat constructor|]. split; [cbn; lia|]. split.
  - intros [|[|a]] Ha; [| |lia]; unfold variance, covariance, mean_of, hour_data; cbn; lra.
  - unfold rescaled. cbn [map length seq nth Nat.eqb]. repeat (f_equal; try ring).
Qed.
Example C213_run : forall rvs seed m cdf nz, exists scen v,
  seeded_scenarios rvs seed m cdf twin_hours twin_errs [1 / 4; 3 / 4] false None nz 1 2 [7; 8]%Z (fun _ _ => [1; 2]) = Some (1%nat, scen) /\ scen 0%nat 0%nat 0%nat = Some v.
Proof.
  intros rvs seed m cdf nz. unfold seeded_scenarios. rewrite C109_varying_partial.
  - eexists _, _. split; [cbn [copula_sample]; reflexivity|]. unfold interp1d, sort_points. cbn [combine fold_right insert_point fst].
    destruct (Rle_dec (1 / 4) (3 / 4)); [|lra]; cbn [length Nat.ltb Nat.leb option_map]; reflexivity.
  - apply C111_case.
Qed.
