(** Construction, horizons and tuning of the smoothing models: C151 - C157. *)
From Coq Require Import String Reals List Arith ZArith Bool Lia Lra.
From Verif Require Import Model.Stats Model.HoltWinters Model.FourierEs Model.FourierKalman Model.FkConfig Spec.FkConfigSpec
  Proof.StatsProof Proof.FkConfigProof Proof.FkConfigProof2 Proof.FkConfigProof3.
Import ListNotations.
Local Open Scope string_scope.
Local Open Scope R_scope.
Local Open Scope list_scope.

(** C151 *)
Theorem C151_histories_partial :
  forall (a : multi_args) (ps : list fparams),
  proper_kwargs (a_kwargs a) -> a_submodels_pars a = None -> fk_multi a = Some ps ->
  length ps = a_n_predictors a /\
  (forall i j p q, (i <= j)%nat -> nth_error ps i = Some p -> nth_error ps j = Some q -> (fm p <= fm q)%nat) /\
  (forall p, In p ps -> (a_n_sa a <= fm p /\ requested_period a <= fm p <= Nat.max (a_m a) (a_n_sa a))%nat) /\
  (forall p, nth_error ps (length ps - 1) = Some p -> fm p = Nat.max (a_m a) (a_n_sa a)) /\
  (forall i j p q, (a_n_predictors a < a_m a)%nat -> (i < j)%nat -> nth_error ps i = Some p -> nth_error ps j = Some q ->
     fm p = fm q -> fm p = Nat.max (a_n_sa a) (requested_period a)).
Proof. exact (@multi_histories). Qed.
Print Assumptions C151_histories_partial.
Theorem C151_distinct_refuted : exists (a : multi_args) (ps : list fparams) (p q : fparams),
  proper_kwargs (a_kwargs a) /\ a_submodels_pars a = None /\ (a_n_predictors a < a_m a)%nat /\ fk_multi a = Some ps /\
  nth_error ps 0 = Some p /\ nth_error ps 1 = Some q /\ fm p = fm q.
Proof. exact (@multi_distinct_refuted). Qed.
Print Assumptions C151_distinct_refuted.
Example C151_case : exists ps, fk_multi (plain 2 3 10 None) = Some ps /\ proper_kwargs (a_kwargs (plain 2 3 10 None)) /\
  map fm ps = [4; 7; 10]%nat.
Proof.
  destruct (plain_builds 2 3 10 None) as [ps E]; try (cbn; lia). exists ps. split; [assumption|]. split; [apply plain_proper|].
  destruct (multi_histories _ ps (plain_proper 2 3 10 None) eq_refl E) as [L _]. cbn in L.
  pose proof (predictor _ (plain_proper 2 3 10 None) ps) as P.
  destruct ps as [|p0 [|p1 [|p2 [|p3 ps]]]]; try discriminate. cbn.
  destruct (P 0%nat eq_refl E ltac:(cbn; lia)) as (_ & q & Hq & _ & F & _). injection Hq as <-. rewrite F.
  destruct (P 1%nat eq_refl E ltac:(cbn; lia)) as (_ & q & Hq & _ & F1 & _). injection Hq as <-. rewrite F1.
  destruct (P 2%nat eq_refl E ltac:(cbn; lia)) as (_ & q & Hq & _ & F2 & _). injection Hq as <-. rewrite F2. reflexivity.
Qed.

(** C152 *)
Theorem C152_default_partial :
  forall (a : multi_args) (ps : list fparams) (p : fparams),
  proper_kwargs (a_kwargs a) -> a_submodels_pars a = None -> requested_period a = a_n_sa a ->
  fk_multi a = Some ps -> In p ps -> fsa p = a_n_sa a /\ fperiod p = requested_period a.
Proof. exact (@multi_period_default). Qed.
Print Assumptions C152_default_partial.
Theorem C152_ignored_refuted :
  forall (a : multi_args) (ps : list fparams) (p : fparams),
  proper_kwargs (a_kwargs a) -> a_submodels_pars a = None -> requested_period a <> a_n_sa a ->
  fk_multi a = Some ps -> In p ps -> fperiod p <> requested_period a.
Proof. exact (@multi_period_ignored). Qed.
Print Assumptions C152_ignored_refuted.
Example C152_case : requested_period (plain 24 4 168 (Some 48%nat)) <> 24%nat /\
  exists ps, fk_multi (plain 24 4 168 (Some 48%nat)) = Some ps /\ ps <> [].
Proof.
  split; [discriminate|]. destruct (plain_builds 24 4 168 (Some 48%nat)) as [ps E]; try (cbn; lia). exists ps. split; [assumption|].
  destruct (multi_histories _ ps (plain_proper 24 4 168 (Some 48%nat)) eq_refl E) as [L _]. intros ->. discriminate L.
Qed.

(** C153 *)
Theorem C153_given_partial :
  forall (a : multi_args) (ds : list dict) (ps : list fparams),
  a_submodels_pars a = Some ds -> fk_multi a = Some ps ->
  length ps = a_n_predictors a /\
  forall i p, nth_error ps i = Some p -> exists d, nth_error ds i = Some d /\ fourier_es d = Some p.
Proof. exact (@multi_given). Qed.
Print Assumptions C153_given_partial.
Theorem C153_singular_partial :
  forall (a : multi_args) (ps : list fparams) (p : fparams) (alpha : R),
  proper_kwargs (a_kwargs a) -> a_submodels_pars a = None -> get "alpha" (a_kwargs a) = Some (VReal alpha) ->
  fk_multi a = Some ps -> In p ps -> falpha p = alpha.
Proof. exact (@multi_singular). Qed.
Print Assumptions C153_singular_partial.
Theorem C153_ignored_refuted :
  forall (a : multi_args) (alphas omegas ns_harmonics : val),
  fk_multi (with_parameters a alphas omegas ns_harmonics) = fk_multi a.
Proof. exact (@multi_parameters_ignored). Qed.
Print Assumptions C153_ignored_refuted.
Theorem C153_limits_partial :
  forall (d : dict) (p : fparams), fourier_es d = Some p -> (0 < falpha p < 1)%R /\ (0 < fomega p < 1)%R /\ (0 < fm p)%nat.
Proof. exact (@es_limits). Qed.
Print Assumptions C153_limits_partial.
Theorem C153_as_given_partial :
  forall (d : dict) (p : fparams), fourier_es d = Some p ->
  (get "m"%string d = None -> fm p = 24%nat) /\ (forall n, get "m"%string d = Some (VNat n) -> fm p = n) /\
  (get "n_sa"%string d = None -> fsa p = 1%nat) /\ (forall n, get "n_sa"%string d = Some (VNat n) -> fsa p = n) /\
  (get "periodicity"%string d = None \/ get "periodicity"%string d = Some VNone -> fperiod p = fsa p) /\
  (forall n, get "periodicity"%string d = Some (VNat n) -> fperiod p = n) /\
  (get "alpha"%string d = None -> falpha p = 8 / 10)%R /\ (forall r, get "alpha"%string d = Some (VReal r) -> falpha p = r) /\
  (get "omega"%string d = None -> fomega p = 99 / 100)%R /\ (forall r, get "omega"%string d = Some (VReal r) -> fomega p = r) /\
  (get "n_harmonics"%string d = None -> fharmonics p = Nat.min 3 (fm p / 2)) /\
  (forall n, get "n_harmonics"%string d = Some (VNat n) -> (0 < n)%nat /\ fharmonics p = Nat.min n (fm p / 2)) /\
  (forall r, get "n_harmonics"%string d = Some (VReal r) ->
     (0 < r /\ INR (fharmonics p) <= r)%R /\ (fharmonics p <= fm p / 2)%nat /\ ((fharmonics p < fm p / 2)%nat -> r < INR (fharmonics p) + 1)%R).
Proof. exact (@es_as_given). Qed.
Print Assumptions C153_as_given_partial.
Theorem C153_given_tuning_partial :
  forall (a : multi_args) (ds : list dict) (i : nat) (d : dict), a_submodels_pars a = Some ds -> (i < a_n_predictors a)%nat -> nth_error ds i = Some d ->
  exists b, nth_error (predictors_tune a) i = Some b /\
    (get "optimize_hyperpars"%string d = None -> b = true) /\ (get "optimize_hyperpars"%string d = Some VNone -> b = false) /\
    (forall v, get "optimize_hyperpars"%string d = Some (VBool v) -> b = v) /\
    (forall n, get "optimize_hyperpars"%string d = Some (VNat n) -> (b = true <-> n <> 0%nat)) /\
    (forall r, get "optimize_hyperpars"%string d = Some (VReal r) -> (b = true <-> r <> 0%R)) /\
    (forall t, get "optimize_hyperpars"%string d = Some (VOther t) -> b = true).
Proof. exact (@given_tuning). Qed.
Print Assumptions C153_given_tuning_partial.
Theorem C153_tuning_partial :
  forall (a : multi_args), a_submodels_pars a = None -> predictors_tune a = repeat (a_optimize_sub a) (a_n_predictors a).
Proof. exact (@multi_tuning). Qed.
Print Assumptions C153_tuning_partial.
Theorem C153_tuning_refuted :
  forall (a : multi_args) (ds : list dict) (b : bool), a_submodels_pars a = Some ds ->
  predictors_tune (with_tuning a b) = predictors_tune a.
Proof. exact (@multi_tuning_ignored). Qed.
Print Assumptions C153_tuning_refuted.
Example C153_case : exists p, fourier_es [("m", VNat 24); ("n_sa", VNat 2); ("alpha", VReal (1/2))] = Some p /\ falpha p = 1/2.
Proof.
  unfold fourier_es. cbn. unfold between_0_1. rewrite !(proj2 (Rltb_spec _ _)) by lra. cbn. eexists. split; reflexivity.
Qed.

Example C153_tuning_case : predictors_tune (MultiArgs VNone VNone 2 3 VNone 24 VNone VNone VNone VNone VNone None true false VNone VNone VNone true None [])
  = [false; false; false] /\
  predictors_tune (MultiArgs VNone VNone 2 2 VNone 24 VNone VNone VNone VNone VNone None true false VNone VNone VNone true (Some [[]; [("optimize_hyperpars", VBool false)]]) [])
  = [true; false].
Proof. split; reflexivity. Qed.

(** C154 *)
Theorem C154_parameters_partial :
  forall (a : hw_args) (ps : list params), hw_multi a = Some ps ->
  length ps = length (horizons a) /\
  forall i p, nth_error ps i = Some p ->
    nth_error (horizons a) i = Some (steps p) /\ (period1 p, period2 p) = h_periods a /\
    (forall l, h_alphas a = Some l -> nth_error l i = Some (alpha p)) /\
    (forall l, h_gammas_1 a = Some l -> nth_error l i = Some (gamma1 p)) /\
    (forall l, h_gammas_2 a = Some l -> nth_error l i = Some (gamma2 p)).
Proof. exact (@hw_models). Qed.
Print Assumptions C154_parameters_partial.
Theorem C154_constraints_refuted :
  forall (a : hw_args) (ps : list params) (p : params),
  hw_multi a = Some ps -> In p ps -> lower p = None /\ upper p = None.
Proof. exact (@hw_constraints). Qed.
Print Assumptions C154_constraints_refuted.
Example C154_case : hw_multi (HwArgs (2, 3)%nat 2 (Some (0, 1)) None (Some [1/2; 1/4]) None None) =
  Some [Params (1/2) 0 (1/100) (1/100) None None 2 3 1; Params (1/4) 0 (1/100) (1/100) None None 2 3 2].
Proof. reflexivity. Qed.

(** C155 *)
Theorem C155_within_history_partial :
  forall (p : fparams) (st : fstored) (y : list R) (fit : bool),
  (0 < fm p)%nat -> (0 < fsa p)%nat -> (fperiod p <= fm p)%nat -> shaped p st ->
  run_sliced p st y fit = Some (frun p st y fit).
Proof. exact (@run_sliced_same). Qed.
Print Assumptions C155_within_history_partial.
Theorem C155_beyond_history_refuted :
  forall (d : dict) (p : fparams) (st : fstored) (y : list R) (fit : bool),
  fourier_es d = Some p -> get "periodicity" d = None -> (fm p < fsa p)%nat -> y <> [] -> run_sliced p st y fit = None.
Proof. exact (@horizon_beyond_history). Qed.
Print Assumptions C155_beyond_history_refuted.
Theorem C155_long_period_refuted :
  forall (p : fparams) (st : fstored) (y : list R) (fit : bool),
  (0 < fm p)%nat -> (0 < fsa p)%nat -> (fm p < fperiod p < 2 * fm p + fsa p)%nat -> (fm p <= length y)%nat -> run_sliced p st y fit = None.
Proof. exact (@run_gap). Qed.
Print Assumptions C155_long_period_refuted.
Theorem C155_ignored_period_refuted :
  forall (p : fparams) (st : fstored) (y : list R) (fit : bool),
  (0 < fm p)%nat -> (0 < fsa p)%nat -> (2 * fm p + fsa p <= fperiod p)%nat -> shaped p st ->
  run_sliced p st y fit = Some (frun (with_period (fm p) p) st y fit).
Proof. exact (@run_wrapped). Qed.
Print Assumptions C155_ignored_period_refuted.
Example C155_case : exists p, fourier_es [("m", VNat 24); ("n_sa", VNat 48)] = Some p /\ (fm p < fsa p)%nat.
Proof.
  unfold fourier_es. cbn. unfold between_0_1. rewrite !(proj2 (Rltb_spec _ _)) by lra. cbn. eexists. split; [reflexivity|]. cbn. lia.
Qed.
Example C155_case_long : let p := FParams 24 12 168 8 (1 / 2) (1 / 2) in let q := FParams 24 12 48 8 (1 / 2) (1 / 2) in
  (2 * fm p + fsa p <= fperiod p)%nat /\ shaped p (fresh p) /\ (fm q < fperiod q < 2 * fm q + fsa q)%nat.
Proof. unfold shaped. cbn. repeat split; lia. Qed.
Example C155_case_within : exists p, fourier_es [("m", VNat 24); ("n_sa", VNat 12)] = Some p /\ (fperiod p <= fm p)%nat /\ shaped p (fresh p).
Proof.
  unfold fourier_es. cbn. unfold between_0_1. rewrite !(proj2 (Rltb_spec _ _)) by lra. cbn. eexists. split; [reflexivity|].
  unfold shaped. cbn. repeat split; lia.
Qed.

(** C156 *)
Theorem C156_same_size_partial :
  forall (C : Type) (o : nat -> ops (list R) C) (fresh_state : nat -> kstate (list R) C) (m n_sa : nat) (omega : R) (h : nat)
  (y z : list R) (fit fit' : bool), dimensioned o ->
  exists rows ob rows' ob', run_object o m n_sa omega (create fresh_state h) y fit = Some (rows, ob) /\
    run_object o m n_sa omega (reinit fresh_state h ob) z fit' = Some (rows', ob') /\
    ob_harmonics ob' = h.
Proof. exact (@reconfigured_same). Qed.
Print Assumptions C156_same_size_partial.
Theorem C156_other_size_refuted :
  forall (C : Type) (o : nat -> ops (list R) C) (fresh_state : nat -> kstate (list R) C) (m n_sa : nat) (omega : R) (h h' : nat)
  (y z : list R) (fit fit' : bool) rows ob, dimensioned o -> h <> h' -> y <> [] ->
  run_object o m n_sa omega (create fresh_state h) y fit = Some (rows, ob) ->
  run_object o m n_sa omega (reinit fresh_state h' ob) z fit' = None.
Proof. exact (@reconfigured_fails). Qed.
Print Assumptions C156_other_size_refuted.
Example C156_case : dimensioned (fun h => Ops (list R) unit (fun x P Q Rm c => (repeat 0 (2 * h + 1), tt)) (fun _ => tt) (fun c => c)
  (fun _ _ => []) (fun _ x => x) (repeat 0 (2 * h + 1))).
Proof. intros h. cbn [kalman_op zero_x fst]. split; [|intros]; apply repeat_length. Qed.

(** C157 *)
Theorem C157_first_fit_partial :
  forall (D : Type) (search : D -> dict) (o : tunable) (data : D) (k : string) (v : val),
  attribute "optimize_hyperpars" o = Some (VBool true) -> attribute k o <> None ->
  NoDup (map fst (search data)) -> get k (search data) = Some v -> attribute k (fit_tune search o data) = Some v.
Proof. exact (@first_tuning). Qed.
Print Assumptions C157_first_fit_partial.
Theorem C157_arguments_partial :
  forall (D : Type) (search : D -> dict) (o : tunable) (data : D) (k : string),
  attribute "optimize_hyperpars" o = Some (VBool true) -> NoDup (map fst (search data)) ->
  get k (t_init (fit_tune search o data)) =
    match get k (search data) with
    | Some v => Some v
    | None => if String.eqb k "optimize_hyperpars" then Some (VBool false) else get k (t_init o)
    end.
Proof. exact (@tuned_arguments). Qed.
Print Assumptions C157_arguments_partial.
Theorem C157_later_fits_refuted :
  forall (D : Type) (search : D -> dict) (o : tunable) (data data' : D),
  attribute "optimize_hyperpars" o = Some (VBool true) -> get "optimize_hyperpars" (search data) = None ->
  fit_tune search (fit_tune search o data) data' = fit_tune search o data.
Proof. exact (@later_tuning). Qed.
Print Assumptions C157_later_fits_refuted.
Example C157_case : let o := Tunable [("alpha", VReal (8/10)); ("optimize_hyperpars", VBool true)] [("alpha", VReal (8/10)); ("optimize_hyperpars", VBool true)] in
  let search := fun d : nat => [("alpha", VNat d)] in
  attribute "alpha" (fit_tune search o 3%nat) = Some (VNat 3) /\ attribute "alpha" (fit_tune search (fit_tune search o 3%nat) 5%nat) = Some (VNat 3).
Proof. split; reflexivity. Qed.
