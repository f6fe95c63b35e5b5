From Coq Require Import String Reals List Arith ZArith Bool Lia Lra.
From Verif Require Import Model.Stats Model.HoltWinters Model.FourierEs Model.FourierKalman Model.FkConfig Spec.FkConfigSpec Proof.StatsProof.
Import ListNotations.
Local Open Scope string_scope.
Local Open Scope R_scope.

Lemma get_set k k' v d : get k (set k' v d) = if String.eqb k k' then Some v else get k d.
Proof.
  induction d as [|[c w] d IH]; cbn.
  - destruct (String.eqb k k'); reflexivity.
  - destruct (String.eqb_spec k' c) as [->|N]; cbn.
    + destruct (String.eqb k c) eqn:E; reflexivity.
    + rewrite IH. destruct (String.eqb_spec k c) as [->|N2]; [|reflexivity].
      destruct (String.eqb_spec c k'); [congruence|reflexivity].
Qed.
Lemma get_update_none k d' : forall d, get k d' = None -> get k (update d d') = get k d.
Proof.
  unfold update. induction d' as [|[c w] d' IH]; intros d E; [reflexivity|].
  cbn in E. cbn. destruct (String.eqb k c) eqn:Ec; [discriminate|].
  rewrite IH by assumption. rewrite get_set, Ec. reflexivity.
Qed.
Lemma get_notin k (d : dict) : ~ In k (map fst d) -> get k d = None.
Proof.
  induction d as [|[c w] d IH]; intros N; [reflexivity|]. cbn. destruct (String.eqb_spec k c) as [->|].
  - exfalso. apply N. left. reflexivity.
  - apply IH. intros H. apply N. right. assumption.
Qed.
Lemma get_update_some k v d' : forall d, NoDup (map fst d') -> get k d' = Some v -> get k (update d d') = Some v.
Proof.
  induction d' as [|[c w] d' IH]; intros d Nd E; [discriminate|].
  inversion Nd; subst. cbn in E. unfold update. cbn. destruct (String.eqb_spec k c) as [->|N].
  - fold (update (set c w d) d'). rewrite get_update_none by (apply get_notin; assumption).
    rewrite get_set, String.eqb_refl. assumption.
  - apply IH; assumption.
Qed.

Lemma build_spec {A B} (f : A -> option B) l : forall r, build f l = Some r ->
  length r = length l /\ forall i, (i < length l)%nat -> exists x y, nth_error l i = Some x /\ nth_error r i = Some y /\ f x = Some y.
Proof.
  induction l as [|x l IH]; intros r E; cbn in E.
  - injection E as <-. split; [reflexivity|]. intros i Hi. cbn in Hi. lia.
  - destruct (f x) as [y|] eqn:Ey; [|discriminate]. destruct (build f l) as [ys|]; [|discriminate].
    injection E as <-. destruct (IH ys eq_refl) as [L H]. split; [cbn; congruence|].
    intros [|i] Hi; [exists x, y; repeat split; assumption|]. cbn in Hi. apply H. lia.
Qed.
Lemma build_ext {A B} (f g : A -> option B) l : (forall x, In x l -> f x = g x) -> build f l = build g l.
Proof.
  induction l as [|x l IH]; intros E; [reflexivity|]. cbn. rewrite (E x (or_introl eq_refl)), IH; [reflexivity|].
  intros. apply E. right. assumption.
Qed.
Lemma build_total {A B} (f : A -> option B) l : (forall x, In x l -> exists y, f x = Some y) -> exists r, build f l = Some r.
Proof.
  induction l as [|x l IH]; intros E; [exists []; reflexivity|].
  destruct (E x (or_introl eq_refl)) as [y Ey]. destruct IH as [r Er]; [intros; apply E; right; assumption|].
  exists (y :: r). cbn. rewrite Ey, Er. reflexivity.
Qed.

(** What fourier_es reads. *)
Lemma fourier_fields d p : fourier_es d = Some p ->
  nat_arg "m" 24 d = Some (fm p) /\ nat_arg "n_sa" 1 d = Some (fsa p) /\ real_arg "alpha" (8/10) d = Some (falpha p) /\
  real_arg "omega" (99/100) d = Some (fomega p) /\ period_arg (fsa p) d = Some (fperiod p) /\
  fharmonics p = harmonics_int (match get "n_harmonics" d with None => VNat 3 | Some h => h end) (fm p).
Proof.
  unfold fourier_es. destruct (nat_arg "m" 24 d) as [m|]; [|discriminate]. destruct (nat_arg "n_sa" 1 d) as [n|]; [|discriminate].
  destruct (real_arg "alpha" _ d) as [a|]; [|discriminate]. destruct (real_arg "omega" _ d) as [w|]; [|discriminate].
  destruct (period_arg n d) as [q|] eqn:Eq; [|discriminate].
  destruct (_ && _ && _ && _ && _)%bool; [|discriminate]. intros E. injection E as <-. cbn. repeat split. assumption.
Qed.

Section Multi.
Context (a : multi_args) (K : proper_kwargs (a_kwargs a)).
Lemma kw_none k : In k parameters -> get k (a_kwargs a) = None.
Proof. exact (proj2 K k). Qed.
Definition sub_args m := update (submodels_init_pars a) [("m", VNat m)].
Lemma sub_m m : get "m" (sub_args m) = Some (VNat m).
Proof. unfold sub_args, update. cbn [fold_left fst snd]. rewrite get_set. reflexivity. Qed.
Lemma sub_n_sa m : get "n_sa" (sub_args m) = Some (VNat (a_n_sa a)).
Proof.
  unfold sub_args. rewrite get_update_none by reflexivity. unfold submodels_init_pars. rewrite get_update_none by reflexivity.
  unfold base_pars. rewrite get_update_none by (apply kw_none; cbn; tauto). reflexivity.
Qed.
Lemma sub_period m : get "periodicity" (sub_args m) = None.
Proof.
  unfold sub_args. rewrite get_update_none by reflexivity. unfold submodels_init_pars. rewrite get_update_none by reflexivity.
  unfold base_pars. rewrite get_update_none by (apply kw_none; cbn; tauto). reflexivity.
Qed.
Lemma sub_other k m : k <> "m" -> ~ In k parameters -> get k (sub_args m) = get k (a_kwargs a).
Proof.
  intros N Np. unfold sub_args. rewrite get_update_none by (cbn; destruct (String.eqb_spec k "m"); congruence).
  assert (E : forall c, In c parameters -> String.eqb k c = false)
    by (intros c H; destruct (String.eqb_spec k c) as [->|]; [contradiction|reflexivity]).
  unfold submodels_init_pars. rewrite get_update_none
    by (cbn; rewrite (E "optimize_hyperpars"), (E "verbose") by (cbn; tauto); reflexivity).
  unfold base_pars. destruct (get k (a_kwargs a)) as [v|] eqn:Ek.
  - apply get_update_some; [exact (proj1 K)|assumption].
  - rewrite get_update_none by assumption. cbn.
    rewrite (E "target_name"), (E "targets_names"), (E "n_sa"), (E "m"), (E "val_ratio"), (E "optimize_hyperpars"),
      (E "optimization_budget"), (E "verbose"), (E "nodes_at_step"), (E "q_vect") by (cbn; tauto). reflexivity.
Qed.
Lemma adjusted_eq : adjusted a = map (fun m => Nat.max m (period_of a)) (histories a).
Proof.
  unfold adjusted. destruct (existsb _ _) eqn:E; [reflexivity|].
  rewrite <- (map_id (histories a)) at 1. apply map_ext_in. intros m H. symmetry. apply Nat.max_l.
  destruct (Nat.ltb_spec m (period_of a)) as [Lt|]; [|assumption].
  exfalso. enough (existsb (fun m => (m <? period_of a)%nat) (histories a) = true) by congruence.
  apply existsb_exists. exists m. split; [assumption|]. apply Nat.ltb_lt. assumption.
Qed.
Lemma history_nth k d : (k < a_n_predictors a)%nat ->
  nth k (adjusted a) d = Nat.max (Nat.max (1 + (S k * (a_m a - 1)) / a_n_predictors a) (a_n_sa a)) (period_of a).
Proof.
  intros H. rewrite adjusted_eq. unfold histories. rewrite map_map.
  erewrite nth_indep by (rewrite map_length, seq_length; assumption).
  rewrite (map_nth (fun k => Nat.max (Nat.max (1 + (S k * (a_m a - 1)) / a_n_predictors a) (a_n_sa a)) (period_of a)) _ 0%nat).
  rewrite seq_nth by assumption. reflexivity.
Qed.
Lemma adjusted_length : length (adjusted a) = a_n_predictors a.
Proof. rewrite adjusted_eq. unfold histories. rewrite !map_length, seq_length. reflexivity. Qed.
Lemma fk_multi_inv ps : a_submodels_pars a = None -> fk_multi a = Some ps ->
  build (fun m => fourier_es (sub_args m)) (adjusted a) = Some ps /\ (0 < a_m a)%nat /\ (period_of a < a_m a)%nat.
Proof.
  intros E. unfold fk_multi. rewrite E. destruct (_ && _ && _)%bool eqn:B; [|discriminate].
  apply andb_true_iff in B. destruct B as [B B2]. apply andb_true_iff in B. destruct B as [B1 _].
  apply Nat.ltb_lt in B1, B2. intros H. repeat split; assumption.
Qed.
Lemma predictor ps k : a_submodels_pars a = None -> fk_multi a = Some ps -> (k < length ps)%nat ->
  (k < a_n_predictors a)%nat /\ exists p, nth_error ps k = Some p /\
  fourier_es (sub_args (nth k (adjusted a) 0%nat)) = Some p /\ fm p = nth k (adjusted a) 0%nat /\ fsa p = a_n_sa a /\ fperiod p = a_n_sa a.
Proof.
  intros N E H. destruct (fk_multi_inv ps N E) as (E2 & _). destruct (build_spec _ _ _ E2) as [L S].
  rewrite L, adjusted_length in H. split; [assumption|].
  destruct (S k) as (x & p & Ex & Ep & Ef); [rewrite adjusted_length; assumption|].
  exists p. split; [assumption|]. rewrite (nth_error_nth _ _ _ Ex). split; [assumption|].
  destruct (fourier_fields _ _ Ef) as (F1 & F2 & _ & _ & F5 & _).
  unfold nat_arg in F1. rewrite sub_m in F1. injection F1 as <-.
  unfold nat_arg in F2. rewrite sub_n_sa in F2. injection F2 as F2. rewrite <- F2 in *.
  unfold period_arg in F5. rewrite sub_period in F5. injection F5 as F5. split; [reflexivity|]. split; congruence.
Qed.
End Multi.

(** C151 *)
Lemma linspace_mono n d k k' : (k <= k')%nat -> (k * d / n <= k' * d / n)%nat.
Proof. intros H. destruct n; [cbn; lia|]. apply Nat.div_le_mono; [lia|]. nia. Qed.
Lemma linspace_strict n d k : (0 < n <= d)%nat -> (k * d / n < S k * d / n)%nat.
Proof.
  intros H. assert (k * d / n + 1 <= S k * d / n)%nat; [|lia].
  replace (k * d / n + 1)%nat with ((k * d + 1 * n) / n)%nat by (rewrite Nat.div_add; lia).
  apply Nat.div_le_mono; lia.
Qed.
Lemma multi_histories (a : multi_args) (ps : list fparams) :
  proper_kwargs (a_kwargs a) -> a_submodels_pars a = None -> fk_multi a = Some ps ->
  length ps = a_n_predictors a /\
  (forall i j p q, (i <= j)%nat -> nth_error ps i = Some p -> nth_error ps j = Some q -> (fm p <= fm q)%nat) /\
  (forall p, In p ps -> (a_n_sa a <= fm p /\ requested_period a <= fm p <= Nat.max (a_m a) (a_n_sa a))%nat) /\
  (forall p, nth_error ps (length ps - 1) = Some p -> fm p = Nat.max (a_m a) (a_n_sa a)) /\
  (forall i j p q, (a_n_predictors a < a_m a)%nat -> (i < j)%nat -> nth_error ps i = Some p -> nth_error ps j = Some q ->
     fm p = fm q -> fm p = Nat.max (a_n_sa a) (requested_period a)).
Proof.
  intros K N E. destruct (fk_multi_inv a ps N E) as (E2 & Hm & Hp).
  assert (L : length ps = a_n_predictors a) by (destruct (build_spec _ _ _ E2) as [L _]; rewrite L; apply adjusted_length).
  assert (V : forall i p, nth_error ps i = Some p -> (i < a_n_predictors a)%nat /\
     fm p = Nat.max (Nat.max (1 + (S i * (a_m a - 1)) / a_n_predictors a) (a_n_sa a)) (requested_period a)).
  { intros i p H. assert (Hi : (i < length ps)%nat) by (apply nth_error_Some; congruence).
    destruct (predictor a K ps i N E Hi) as (Hi2 & p' & Hp' & _ & F & _). split; [assumption|].
    rewrite H in Hp'. injection Hp' as <-. rewrite F, history_nth by assumption. reflexivity. }
  change (period_of a) with (requested_period a) in Hp.
  split; [assumption|]. split; [|split; [|split]].
  - intros i j p q Hij Hi Hj. apply V in Hi. apply V in Hj. destruct Hi as [_ ->]. destruct Hj as [_ ->].
    pose proof (linspace_mono (a_n_predictors a) (a_m a - 1) (S i) (S j) ltac:(lia)). lia.
  - intros p Hin. apply In_nth_error in Hin. destruct Hin as [i Hi]. apply V in Hi. destruct Hi as [Hi ->].
    assert (S i * (a_m a - 1) / a_n_predictors a <= a_m a - 1)%nat; [|lia].
    apply Nat.div_le_upper_bound; [lia|]. nia.
  - intros p H. apply V in H. rewrite L in H. destruct H as [Hi ->]. replace (S (a_n_predictors a - 1)) with (a_n_predictors a) by lia.
    rewrite (Nat.mul_comm (a_n_predictors a)), Nat.div_mul by lia. lia.
  - intros i j p q Hn Hij Hi Hj Eq. apply V in Hi. apply V in Hj. destruct Hi as [Hi1 Hi2]. destruct Hj as [Hj1 Hj2].
    assert (S1 : (S i * (a_m a - 1) / a_n_predictors a < S j * (a_m a - 1) / a_n_predictors a)%nat).
    { pose proof (linspace_strict (a_n_predictors a) (a_m a - 1) (S i) ltac:(lia)).
      pose proof (linspace_mono (a_n_predictors a) (a_m a - 1) (S (S i)) (S j) ltac:(lia)). lia. }
    rewrite Hi2, Hj2 in Eq. rewrite Hi2. lia.
Qed.

Definition plain (n_sa n m : nat) (period : option nat) : multi_args :=
  MultiArgs VNone VNone n_sa n VNone m VNone VNone VNone VNone VNone period false false VNone VNone VNone false None [].
Lemma plain_proper n_sa n m q : proper_kwargs (a_kwargs (plain n_sa n m q)).
Proof. split; [constructor|]. reflexivity. Qed.
Lemma sub_builds n_sa n m q h : (0 < h)%nat -> exists p, fourier_es (sub_args (plain n_sa n m q) h) = Some p.
Proof.
  intros H. unfold fourier_es. cbn [nat_arg real_arg sub_args].
  unfold nat_arg, real_arg, period_arg, refused. rewrite !sub_m, !sub_n_sa, sub_period by apply plain_proper.
  rewrite !sub_other by (apply plain_proper || discriminate || (cbn; intuition discriminate)).
  cbn [plain a_kwargs get]. unfold between_0_1.
  rewrite !(proj2 (Rltb_spec _ _)) by lra. rewrite (proj2 (Nat.ltb_lt 0 h) H). cbn [andb negb positive_arg].
  eexists. reflexivity.
Qed.
Lemma plain_builds n_sa n m q : (0 < m)%nat -> (0 < n)%nat -> (period_of (plain n_sa n m q) < m)%nat ->
  exists ps, fk_multi (plain n_sa n m q) = Some ps.
Proof.
  intros Hm Hn Hp. unfold fk_multi. cbn [plain a_m a_submodels_pars a_kwargs refused get negb].
  rewrite (proj2 (Nat.ltb_lt 0 m) Hm). change (MultiArgs _ _ _ _ _ _ _ _ _ _ _ _ _ _ _ _ _ _ _ _) with (plain n_sa n m q).
  rewrite (proj2 (Nat.ltb_lt _ _) Hp). cbn [andb].
  apply build_total. intros h H. apply sub_builds. rewrite adjusted_eq in H. apply in_map_iff in H. destruct H as (k & <- & H).
  unfold histories in H. apply in_map_iff in H. destruct H as (j & <- & _).
  eapply Nat.lt_le_trans; [|apply Nat.le_max_l]. eapply Nat.lt_le_trans; [|apply Nat.le_max_l]. apply Nat.lt_0_succ.
Qed.
Lemma multi_distinct_refuted : exists (a : multi_args) (ps : list fparams) (p q : fparams),
  proper_kwargs (a_kwargs a) /\ a_submodels_pars a = None /\ (a_n_predictors a < a_m a)%nat /\ fk_multi a = Some ps /\
  nth_error ps 0 = Some p /\ nth_error ps 1 = Some q /\ fm p = fm q.
Proof.
  destruct (plain_builds 5 4 8 None) as [ps E]; try (cbn; lia).
  exists (plain 5 4 8 None), ps.
  pose proof (multi_histories _ ps (plain_proper 5 4 8 None) eq_refl E) as (L & _).
  destruct (predictor _ (plain_proper 5 4 8 None) ps 0 eq_refl E ltac:(rewrite L; cbn; lia)) as (_ & p & Hp & _ & F & _).
  destruct (predictor _ (plain_proper 5 4 8 None) ps 1 eq_refl E ltac:(rewrite L; cbn; lia)) as (_ & q & Hq & _ & F2 & _).
  exists p, q. split; [apply plain_proper|]. split; [reflexivity|]. split; [cbn; lia|].
  repeat (split; [assumption|]). rewrite F, F2. reflexivity.
Qed.

(** C152 *)
Lemma multi_period_default (a : multi_args) (ps : list fparams) (p : fparams) :
  proper_kwargs (a_kwargs a) -> a_submodels_pars a = None -> requested_period a = a_n_sa a ->
  fk_multi a = Some ps -> In p ps -> fsa p = a_n_sa a /\ fperiod p = requested_period a.
Proof.
  intros K N R E H. apply In_nth_error in H. destruct H as [i Hi].
  destruct (predictor a K ps i N E) as (_ & p' & Hp' & _ & _ & F & F2); [apply nth_error_Some; congruence|].
  rewrite Hi in Hp'. injection Hp' as <-. split; congruence.
Qed.
Lemma multi_period_ignored (a : multi_args) (ps : list fparams) (p : fparams) :
  proper_kwargs (a_kwargs a) -> a_submodels_pars a = None -> requested_period a <> a_n_sa a ->
  fk_multi a = Some ps -> In p ps -> fperiod p <> requested_period a.
Proof.
  intros K N R E H. apply In_nth_error in H. destruct H as [i Hi].
  destruct (predictor a K ps i N E) as (_ & p' & Hp' & _ & _ & F & F2); [apply nth_error_Some; congruence|].
  rewrite Hi in Hp'. injection Hp' as <-. congruence.
Qed.

(** C153 *)
Lemma multi_parameters_ignored (a : multi_args) (alphas omegas ns_harmonics : val) :
  fk_multi (with_parameters a alphas omegas ns_harmonics) = fk_multi a.
Proof. destruct a. reflexivity. Qed.
Lemma multi_given (a : multi_args) (ds : list dict) (ps : list fparams) :
  a_submodels_pars a = Some ds -> fk_multi a = Some ps ->
  length ps = a_n_predictors a /\
  forall i p, nth_error ps i = Some p -> exists d, nth_error ds i = Some d /\ fourier_es d = Some p.
Proof.
  intros E. unfold fk_multi. rewrite E. destruct (_ && _ && _)%bool; [|discriminate].
  destruct (Nat.ltb_spec (length ds) (a_n_predictors a)) as [|H]; [discriminate|].
  intros B. destruct (build_spec _ _ _ B) as [L S]. rewrite firstn_length_le in L by assumption. split; [assumption|].
  intros i p Hi. assert (Hi2 : (i < length ps)%nat) by (apply nth_error_Some; congruence).
  destruct (S i) as (d & p' & Ed & Ep & Ef); [rewrite firstn_length_le by assumption; lia|].
  exists d. rewrite Hi in Ep. injection Ep as <-. split; [|assumption].
  rewrite <- (firstn_skipn (a_n_predictors a) ds), nth_error_app1 by (rewrite firstn_length_le by assumption; lia). assumption.
Qed.
Lemma multi_singular (a : multi_args) (ps : list fparams) (p : fparams) (alpha : R) :
  proper_kwargs (a_kwargs a) -> a_submodels_pars a = None -> get "alpha" (a_kwargs a) = Some (VReal alpha) ->
  fk_multi a = Some ps -> In p ps -> falpha p = alpha.
Proof.
  intros K N G E H. apply In_nth_error in H. destruct H as [i Hi].
  destruct (predictor a K ps i N E) as (_ & p' & Hp' & F & _); [apply nth_error_Some; congruence|].
  rewrite Hi in Hp'. injection Hp' as <-. apply fourier_fields in F. destruct F as (_ & _ & F & _).
  unfold real_arg in F. rewrite sub_other in F; [|assumption|discriminate|cbn; intuition discriminate].
  rewrite G in F. injection F as ->. reflexivity.
Qed.

(** C154 *)
Lemma hw_models (a : hw_args) (ps : list params) : hw_multi a = Some ps ->
  length ps = length (horizons a) /\
  forall i p, nth_error ps i = Some p ->
    nth_error (horizons a) i = Some (steps p) /\ (period1 p, period2 p) = h_periods a /\
    (forall l, h_alphas a = Some l -> nth_error l i = Some (alpha p)) /\
    (forall l, h_gammas_1 a = Some l -> nth_error l i = Some (gamma1 p)) /\
    (forall l, h_gammas_2 a = Some l -> nth_error l i = Some (gamma2 p)).
Proof.
  intros B. destruct (build_spec _ _ _ B) as [L S].
  assert (Lc : length (combine (seq 0 (length (horizons a))) (horizons a)) = length (horizons a))
    by (rewrite combine_length, seq_length; lia).
  rewrite Lc in L. split; [assumption|]. intros i p Hi.
  assert (Hi2 : (i < length ps)%nat) by (apply nth_error_Some; congruence).
  destruct (S i) as (ih & p' & Ed & Ep & Ef); [lia|]. rewrite Hi in Ep. injection Ep as <-.
  assert (Eh : ih = (i, nth i (horizons a) 0%nat)).
  { apply (nth_error_nth _ _ (0%nat, 0%nat)) in Ed. rewrite combine_nth in Ed by (rewrite seq_length; reflexivity).
    rewrite seq_nth in Ed by lia. symmetry. assumption. }
  subst ih. cbn [fst snd] in Ef.
  destruct (nth_error (or_default (h_alphas a) _) i) as [x|] eqn:E1; [|discriminate].
  destruct (nth_error (or_default (h_gammas_1 a) _) i) as [y|] eqn:E2; [|discriminate].
  destruct (nth_error (or_default (h_gammas_2 a) _) i) as [z|] eqn:E3; [|discriminate].
  injection Ef as <-. cbn. split; [apply nth_error_nth'; lia|]. split; [symmetry; apply surjective_pairing|].
  repeat split; intros l E; rewrite E in *; assumption.
Qed.
Lemma hw_constraints (a : hw_args) (ps : list params) (p : params) :
  hw_multi a = Some ps -> In p ps -> lower p = None /\ upper p = None.
Proof.
  intros B H. apply In_nth_error in H. destruct H as [i Hi]. destruct (build_spec _ _ _ B) as [L S].
  destruct (S i) as (ih & p' & _ & Ep & Ef); [rewrite <- L; apply nth_error_Some; congruence|].
  rewrite Hi in Ep. injection Ep as <-. clear - Ef.
  destruct (nth_error _ _); [|discriminate]. destruct (nth_error _ _); [|discriminate]. destruct (nth_error _ _); [|discriminate].
  injection Ef as <-. split; reflexivity.
Qed.

Lemma multi_tuning (a : multi_args) : a_submodels_pars a = None -> predictors_tune a = repeat (a_optimize_sub a) (a_n_predictors a).
Proof.
  intros N. unfold predictors_tune. rewrite N. rewrite <- (adjusted_length a). generalize (adjusted a) as l. induction l as [|m l IH]; [reflexivity|].
  cbn [map length repeat]. rewrite IH. f_equal. unfold tunes. rewrite get_update_none by reflexivity. unfold submodels_init_pars.
  rewrite (get_update_some "optimize_hyperpars" (VBool (a_optimize_sub a))); [reflexivity| |reflexivity].
  repeat constructor; cbn; intuition discriminate.
Qed.
Lemma multi_tuning_ignored (a : multi_args) (ds : list dict) (b : bool) : a_submodels_pars a = Some ds ->
  predictors_tune (with_tuning a b) = predictors_tune a.
Proof. intros E. unfold predictors_tune, with_tuning. cbn [a_submodels_pars]. rewrite E. reflexivity. Qed.
