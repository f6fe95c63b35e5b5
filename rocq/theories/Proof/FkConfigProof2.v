From Coq Require Import String Reals List Arith ZArith Bool Lia Lra.
From Verif Require Import Model.Stats Model.HoltWinters Model.FourierEs Model.FourierKalman Model.FkConfig Spec.FkConfigSpec
  Proof.StatsProof Proof.FourierProof Proof.SeriesProof Proof.FkConfigProof.
Import ListNotations.
Local Open Scope string_scope.
Local Open Scope R_scope.
Local Open Scope list_scope.

(** Slices *)
Lemma slice_inside {V} (l : list V) (a n : nat) : (a + n <= length l)%nat ->
  py_slice l (Z.of_nat a) (Z.of_nat a + Z.of_nat n) = firstn n (skipn a l).
Proof.
  intros H. unfold py_slice, bound.
  destruct (Z.ltb_spec (Z.of_nat a) 0); [lia|]. destruct (Z.ltb_spec (Z.of_nat a + Z.of_nat n) 0); [lia|].
  replace (Z.to_nat _) with (a + n)%nat by lia. replace (Z.to_nat (Z.min _ (Z.max 0 (Z.of_nat a)))) with a by lia.
  f_equal. lia.
Qed.
Lemma slice_before {V} (l : list V) (a n : nat) : (0 < a <= n)%nat -> (a <= length l)%nat -> (n <= length l)%nat ->
  py_slice l (- Z.of_nat a) (- Z.of_nat a + Z.of_nat n) = firstn (n - a - (length l - a)) (skipn (length l - a) l).
Proof.
  intros H H2 H3. unfold py_slice, bound.
  destruct (Z.ltb_spec (- Z.of_nat a) 0); [|lia]. destruct (Z.ltb_spec (- Z.of_nat a + Z.of_nat n) 0); [lia|].
  replace (Z.to_nat (Z.min _ (Z.max 0 (- Z.of_nat a + Z.of_nat n)))) with (n - a)%nat by lia.
  replace (Z.to_nat _) with (length l - a)%nat by lia. reflexivity.
Qed.
Lemma rows_slice p a n : (a + n <= 2 * fm p + Nat.max (fsa p) (fperiod p))%nat ->
  firstn n (skipn a (stored_basis p)) = map (fun r => map (basis (fm p) (a + r)) (seq 0 (dim p))) (seq 0 n).
Proof.
  intros H. unfold stored_basis. rewrite skipn_map, firstn_map.
  assert (E : firstn n (skipn a (seq 0 (2 * fm p + Nat.max (fsa p) (fperiod p)))) = map (Nat.add a) (seq 0 n)).
  { replace (2 * fm p + Nat.max (fsa p) (fperiod p))%nat with (a + (n + (2 * fm p + Nat.max (fsa p) (fperiod p) - a - n)))%nat by lia.
    rewrite seq_app, skipn_app, skipn_all2 by (rewrite seq_length; lia). rewrite seq_length, Nat.sub_diag. cbn [app skipn].
    rewrite seq_app, firstn_app, seq_length, Nat.sub_diag, firstn_O, app_nil_r, firstn_all2 by (rewrite seq_length; lia).
    clear. cbn. revert a. induction n as [|n IH]; intros a; [reflexivity|]. cbn. rewrite Nat.add_0_r. f_equal.
    rewrite <- (seq_shift n 0), map_map, IH. apply map_ext. intros. lia. }
  rewrite E, map_map. reflexivity.
Qed.
Lemma combine_map_seq (a b : nat -> R) n :
  map (fun ab => fst ab + snd ab) (combine (map a (seq 0 n)) (map b (seq 0 n))) = map (fun h => a h + b h) (seq 0 n).
Proof. generalize (seq 0 n). intros l. induction l as [|x l IH]; [reflexivity|]. cbn. f_equal. assumption. Qed.
Lemma corrected_seq p eps (f : nat -> R) :
  corrected p eps (map f (seq 0 (fsa p))) = map (fun h => f h + eps * (INR (fsa p - h) ^ 2) / INR (fsa p) ^ 2) (seq 0 (fsa p)).
Proof.
  unfold corrected. generalize (seq 0 (fsa p)). intros l. induction l as [|x l IH]; [reflexivity|]. cbn. f_equal. assumption.
Qed.
Lemma window_length {V} (y w : list V) i : (0 < length w)%nat -> (i < length y)%nat -> length (window_at y w i) = length w.
Proof.
  intros Hw Hi. unfold window_at, recent_history.
  assert (L : length (firstn (i + 1 - (i + 1 - length w)) (skipn (i + 1 - length w) y)) = Nat.min (i + 1) (length w))
    by (rewrite firstn_length, skipn_length; lia).
  set (y_w := firstn _ _) in *. destruct (Nat.eqb_spec (length y_w) (length w)) as [E|N]; [assumption|].
  rewrite app_length, firstn_length, app_length, skipn_length, firstn_length.
  pose proof (Nat.mod_upper_bound (length y_w) (length w) ltac:(lia)). lia.
Qed.
Lemma rsum_le_ext f g n : (forall k, (k < n)%nat -> f k = g k) -> rsum f n = rsum g n.
Proof. induction n as [|n IH]; intros H; [reflexivity|]. cbn. rewrite IH by (intros; apply H; lia). rewrite H by lia. reflexivity. Qed.
Lemma coeffs_same p i w past : (0 < fm p)%nat -> length w = fm p ->
  past = map (fun r => map (basis (fm p) (i mod fm p + r)) (seq 0 (dim p))) (seq 0 (fm p)) ->
  map (fun j => dot w (map (fun row => nth j row 0) past)) (seq 0 (dim p)) = coeffs p i w.
Proof.
  intros Hm L ->. unfold coeffs. apply map_ext_in. intros j Hj. apply in_seq in Hj. unfold dot. rewrite L, map_map.
  apply rsum_le_ext. intros k Hk. rewrite nth_map_seq by assumption. rewrite nth_map_seq by lia. apply Rmult_comm.
Qed.
Lemma dot_row p t x : dot (map (basis (fm p) t) (seq 0 (dim p))) x = rsum (fun j => basis (fm p) t j * nth j x 0) (dim p).
Proof. unfold dot. rewrite map_length, seq_length. apply rsum_le_ext. intros k Hk. rewrite nth_map_seq by assumption. reflexivity. Qed.

Lemma step_same p y w0 s i : (0 < fm p)%nat -> (0 < fsa p)%nat -> (fperiod p <= fm p)%nat -> length w0 = fm p -> (i < length y)%nat ->
  step_sliced p y w0 s i = Some (fstep p y w0 s i).
Proof.
  intros Hm Hn Hp Hw Hi. unfold step_sliced.
  pose proof (Nat.mod_upper_bound i (fm p) ltac:(lia)) as Hmod.
  assert (LB : length (stored_basis p) = (2 * fm p + Nat.max (fsa p) (fperiod p))%nat)
    by (unfold stored_basis; rewrite map_length, seq_length; reflexivity).
  rewrite slice_inside by lia. rewrite rows_slice by lia.
  replace (Z.of_nat (i mod fm p) + Z.of_nat (fm p) - Z.of_nat (fperiod p))%Z with (Z.of_nat (i mod fm p + fm p - fperiod p)) by lia.
  rewrite slice_inside by lia. rewrite rows_slice by lia.
  rewrite (coeffs_same p i) by (assumption || reflexivity || (rewrite window_length; lia)).
  rewrite map_map. unfold fstep, reconstruct.
  rewrite (map_ext _ _ (fun r => dot_row p (i mod fm p + fm p - fperiod p + r) _)).
  set (f := fun h : nat => rsum (fun j => basis (fm p) (i mod fm p + fm p - fperiod p + h) j * _) (dim p)).
  set (eps := fomega p * _ + _). rewrite corrected_seq. unfold broadcast. rewrite !map_length, Nat.eqb_refl.
  rewrite combine_map_seq. destruct (fsa p) as [|n] eqn:En; [lia|]. cbn [seq map hd]. reflexivity.
Qed.
Lemma run_sliced_same (p : fparams) (st : fstored) (y : list R) (fit : bool) :
  (0 < fm p)%nat -> (0 < fsa p)%nat -> (fperiod p <= fm p)%nat -> shaped p st ->
  run_sliced p st y fit = Some (frun p st y fit).
Proof.
  intros Hm Hn Hp [Hw _]. unfold run_sliced, frun.
  assert (E : forall is s, Forall (fun i => (i < length y)%nat) is ->
    steps_sliced p y (st_w st) s is = Some (fsteps p y (st_w st) s is)).
  { induction is as [|i is IH]; intros s H; [reflexivity|]. inversion H; subst. cbn [steps_sliced fsteps].
    rewrite step_same by assumption. destruct (fstep p y (st_w st) s i) as [s1 r]. rewrite IH by assumption.
    destruct (fsteps p y (st_w st) s1 is). reflexivity. }
  rewrite E by (apply Forall_forall; intros i H; apply in_seq in H; lia).
  destruct (fsteps _ _ _ _ _). reflexivity.
Qed.
Lemma run_beyond_history (p : fparams) (st : fstored) (y : list R) (fit : bool) :
  (0 < fm p)%nat -> (fm p < fperiod p <= fm p + fsa p)%nat -> y <> [] -> run_sliced p st y fit = None.
Proof.
  intros Hm Hp Hy. unfold run_sliced. destruct y as [|v y]; [contradiction|]. cbn [length seq steps_sliced].
  assert (E : step_sliced p (v :: y) (st_w st) (fstart p st (v :: y)) 0 = None); [|rewrite E; reflexivity].
  unfold step_sliced. rewrite Nat.mod_0_l by lia.
  assert (LB : length (stored_basis p) = (2 * fm p + Nat.max (fsa p) (fperiod p))%nat)
    by (unfold stored_basis; rewrite map_length, seq_length; reflexivity).
  replace (Z.of_nat 0 + Z.of_nat (fm p) - Z.of_nat (fperiod p))%Z with (- Z.of_nat (fperiod p - fm p))%Z by lia.
  rewrite (slice_before (stored_basis p)) by lia. rewrite LB.
  replace (fsa p - _ - _)%nat with 0%nat by lia. reflexivity.
Qed.
Lemma horizon_beyond_history (d : dict) (p : fparams) (st : fstored) (y : list R) (fit : bool) :
  fourier_es d = Some p -> get "periodicity" d = None -> (fm p < fsa p)%nat -> y <> [] -> run_sliced p st y fit = None.
Proof.
  intros F G H Hy. pose proof (fourier_fields d p F) as (_ & _ & _ & _ & E & _). unfold period_arg in E. rewrite G in E. injection E as E.
  apply run_beyond_history; [|lia|assumption].
  unfold fourier_es in F. destruct (nat_arg "m" 24 d) as [m|]; [|discriminate]. destruct (nat_arg "n_sa" 1 d) as [n|]; [|discriminate].
  destruct (real_arg "alpha" _ d) as [a|]; [|discriminate]. destruct (real_arg "omega" _ d) as [w|]; [|discriminate].
  destruct (period_arg n d) as [q|]; [|discriminate].
  destruct (between_0_1 a && between_0_1 w && positive_arg _ && (0 <? m)%nat && negb (refused d))%bool eqn:B; [|discriminate].
  injection F as <-. cbn. apply andb_true_iff in B. destruct B as [B _]. apply andb_true_iff in B. destruct B as [_ B].
  apply Nat.ltb_lt in B. assumption.
Qed.

(** FK *)
Lemma kstep_history {C} (o : nat -> ops (list R) C) h m n_sa omega y w0 sh i : dimensioned o ->
  Forall (fun row => length row = 2 * h + 1)%nat (snd sh) -> (i < length (snd sh))%nat ->
  Forall (fun row => length row = 2 * h + 1)%nat (snd (fst (kstep (o h) m n_sa omega y w0 sh i))) /\
  length (snd (fst (kstep (o h) m n_sa omega y w0 sh i))) = length (snd sh).
Proof.
  intros D H Hi. unfold kstep. pose proof (proj2 (D h)) as Dk.
  set (c := analyse (o h) i (window_at y w0 i)). specialize (Dk (kx (fst sh)) (kP (fst sh)) (kQ (fst sh)) (kR (fst sh)) c).
  destruct (kalman_op (o h) (kx (fst sh)) (kP (fst sh)) (kQ (fst sh)) (kR (fst sh)) c) as [x P]. cbn [fst snd] in *.
  split.
  - apply Forall_app. split; [apply Forall_forall; intros r Hr; rewrite Forall_forall in H; apply H; rewrite <- (firstn_skipn i); apply in_or_app; left; assumption|].
    constructor; [assumption|]. apply Forall_forall. intros r Hr. rewrite Forall_forall in H. apply H.
    rewrite <- (firstn_skipn (Datatypes.S i)). apply in_or_app. right. assumption.
  - rewrite app_length. cbn [length]. rewrite firstn_length, skipn_length. lia.
Qed.
Lemma ksteps_history {C} (o : nat -> ops (list R) C) h m n_sa omega y w0 is : dimensioned o -> forall sh,
  Forall (fun row => length row = 2 * h + 1)%nat (snd sh) -> Forall (fun i => (i < length (snd sh))%nat) is ->
  Forall (fun row => length row = 2 * h + 1)%nat (snd (snd (ksteps (o h) m n_sa omega y w0 sh is))) /\
  length (snd (snd (ksteps (o h) m n_sa omega y w0 sh is))) = length (snd sh).
Proof.
  intros D. induction is as [|i is IH]; intros sh H Hi; [split; [assumption|reflexivity]|].
  inversion Hi; subst. cbn. pose proof (kstep_history o h m n_sa omega y w0 sh i D H ltac:(assumption)) as [K1 K2].
  destruct (kstep (o h) m n_sa omega y w0 sh i) as [sh1 r]. cbn [fst snd] in *.
  destruct (IH sh1 K1) as [I1 I2]; [rewrite K2; assumption|].
  destruct (ksteps (o h) m n_sa omega y w0 sh1 is) as [rs sh2]. cbn [fst snd] in *. split; [assumption|congruence].
Qed.
Lemma krun_history {C} (o : nat -> ops (list R) C) h m n_sa omega f y fit : dimensioned o ->
  Forall (fun row => length row = 2 * h + 1)%nat (fk_history f) ->
  Forall (fun row => length row = 2 * h + 1)%nat (fk_history (snd (krun (o h) m n_sa omega f y fit))) /\
  length (fk_history (snd (krun (o h) m n_sa omega f y fit))) = (length (fk_history f) + length y)%nat.
Proof.
  intros D H. unfold krun.
  assert (R : Forall (fun row => length row = 2 * h + 1)%nat (fk_history f ++ repeat (zero_x (o h)) (length y))).
  { apply Forall_app. split; [assumption|]. apply Forall_forall. intros r Hr. apply repeat_spec in Hr. subst. apply (proj1 (D h)). }
  pose proof (ksteps_history o h m n_sa omega y (kw (fk_state f)) (seq 0 (length y)) D
    (fk_state f, fk_history f ++ repeat (zero_x (o h)) (length y)) R) as K.
  destruct (ksteps _ _ _ _ _ _ _ _) as [rows [s hist]]. cbn [fst snd fk_history] in *.
  destruct K as [K1 K2]; [apply Forall_forall; intros i Hi; apply in_seq in Hi; rewrite app_length, repeat_length; lia|].
  split; [assumption|]. rewrite K2, app_length, repeat_length. reflexivity.
Qed.
Lemma run_object_some {C} (o : nat -> ops (list R) C) m n_sa omega (ob : fk_object C) y fit :
  Forall (fun row => length row = 2 * ob_harmonics ob + 1)%nat (fk_history (ob_fk ob)) ->
  run_object o m n_sa omega ob y fit =
  Some (fst (krun (o (ob_harmonics ob)) m n_sa omega (ob_fk ob) y fit), FkObject (ob_harmonics ob) (snd (krun (o (ob_harmonics ob)) m n_sa omega (ob_fk ob) y fit))).
Proof.
  intros H. unfold run_object. rewrite (proj2 (forallb_forall _ _)).
  - destruct (krun _ _ _ _ _ _ _). reflexivity.
  - intros r Hr. apply Nat.eqb_eq. rewrite Forall_forall in H. apply H. assumption.
Qed.
(** C156 *)
Lemma reconfigured_same {C} (o : nat -> ops (list R) C) (fresh_state : nat -> kstate (list R) C) (m n_sa : nat) (omega : R) (h : nat)
  (y z : list R) (fit fit' : bool) : dimensioned o ->
  exists rows ob rows' ob', run_object o m n_sa omega (create fresh_state h) y fit = Some (rows, ob) /\
    run_object o m n_sa omega (reinit fresh_state h ob) z fit' = Some (rows', ob') /\
    ob_harmonics ob' = h.
Proof.
  intros D. pose proof (krun_history o h m n_sa omega (ob_fk (create fresh_state h)) y fit D (Forall_nil _)) as [K _].
  eexists _, _, _, _. split; [apply run_object_some; constructor|].
  cbn [create ob_harmonics ob_fk]. split; [apply run_object_some; cbn [reinit ob_harmonics ob_fk fk_history]; exact K|reflexivity].
Qed.
Lemma reconfigured_fails {C} (o : nat -> ops (list R) C) (fresh_state : nat -> kstate (list R) C) (m n_sa : nat) (omega : R) (h h' : nat)
  (y z : list R) (fit fit' : bool) rows ob : dimensioned o -> h <> h' -> y <> [] ->
  run_object o m n_sa omega (create fresh_state h) y fit = Some (rows, ob) ->
  run_object o m n_sa omega (reinit fresh_state h' ob) z fit' = None.
Proof.
  intros D N Hy E. rewrite run_object_some in E by constructor. injection E as <- <-. cbn [create ob_harmonics ob_fk].
  pose proof (krun_history o h m n_sa omega (Fk (fresh_state h) []) y fit D (Forall_nil _)) as [K L].
  unfold run_object. cbn [reinit ob_harmonics ob_fk fk_history].
  destruct (fk_history (snd (krun (o h) m n_sa omega (Fk (fresh_state h) []) y fit))) as [|r hist].
  - destruct y; [contradiction|]. cbn in L. discriminate.
  - inversion K; subst. cbn [forallb]. destruct (Nat.eqb_spec (length r) (2 * h' + 1)); [lia|]. reflexivity.
Qed.

(** C157 *)
Lemma get_map_attrs k (attrs new : dict) : get k (set_params attrs new) =
  match get k attrs with Some v => Some (match get k new with Some v' => v' | None => v end) | None => None end.
Proof.
  induction attrs as [|[c w] attrs IH]; [reflexivity|]. cbn. destruct (String.eqb_spec k c) as [->|]; [reflexivity|assumption].
Qed.
Lemma first_tuning {D} (search : D -> dict) (o : tunable) (data : D) (k : string) (v : val) :
  attribute "optimize_hyperpars" o = Some (VBool true) -> attribute k o <> None ->
  NoDup (map fst (search data)) -> get k (search data) = Some v -> attribute k (fit_tune search o data) = Some v.
Proof.
  unfold attribute, fit_tune. intros E Hk Nd G. rewrite E. cbn [t_attrs]. rewrite get_map_attrs.
  destruct (get k (t_attrs o)); [|contradiction]. unfold tuned_args. rewrite (get_update_some k v) by assumption. reflexivity.
Qed.
Lemma later_tuning {D} (search : D -> dict) (o : tunable) (data data' : D) :
  attribute "optimize_hyperpars" o = Some (VBool true) -> get "optimize_hyperpars" (search data) = None ->
  fit_tune search (fit_tune search o data) data' = fit_tune search o data.
Proof.
  unfold attribute. intros E G. unfold fit_tune at 2 3. rewrite E. unfold fit_tune. cbn [t_attrs]. rewrite get_map_attrs, E.
  unfold tuned_args. rewrite (get_update_none "optimize_hyperpars" (search data)) by assumption.
  unfold update at 1. cbn [fold_left fst snd]. rewrite get_set. cbn. reflexivity.
Qed.
Lemma es_limits (d : dict) (p : fparams) : fourier_es d = Some p -> (0 < falpha p < 1)%R /\ (0 < fomega p < 1)%R /\ (0 < fm p)%nat.
Proof.
  unfold fourier_es. destruct (nat_arg "m" 24 d) as [m|]; [|discriminate]. destruct (nat_arg "n_sa" 1 d) as [n|]; [|discriminate].
  destruct (real_arg "alpha" _ d) as [al|]; [|discriminate]. destruct (real_arg "omega" _ d) as [om|]; [|discriminate].
  destruct (period_arg n d) as [pe|]; [|discriminate]. destruct (between_0_1 al && between_0_1 om && _ && _ && _)%bool eqn:B; [|discriminate].
  intros H. injection H as <-. cbn [falpha fomega fm]. apply andb_prop in B. destruct B as [B _]. apply andb_prop in B. destruct B as [B M].
  apply andb_prop in B. destruct B as [B _]. apply andb_prop in B. destruct B as [A O].
  unfold between_0_1 in A, O. apply andb_prop in A, O. destruct A as [A1 A2], O as [O1 O2]. apply Rltb_spec in A1, A2, O1, O2. apply Nat.ltb_lt in M. auto.
Qed.
Lemma es_refuses (d : dict) (k : string) (v : val) : k = "max_scengen_rows"%string \/ k = "scengen_random_state"%string -> get k d = Some v -> fourier_es d = None.
Proof.
  intros K G. assert (Rf : refused d = true) by (unfold refused; destruct K as [-> | ->]; rewrite G; [reflexivity|destruct (get "max_scengen_rows" d); reflexivity]).
  unfold fourier_es. destruct (nat_arg "m" 24 d) as [m|]; [|reflexivity]. destruct (nat_arg "n_sa" 1 d) as [n|]; [|reflexivity].
  destruct (real_arg "alpha" (8 / 10) d) as [al|]; [|reflexivity]. destruct (real_arg "omega" (99 / 100) d) as [om|]; [|reflexivity].
  destruct (period_arg n d); [|reflexivity]. rewrite Rf. cbn [negb]. rewrite andb_false_r. reflexivity.
Qed.
(** What a constructed predictor holds, from the arguments it was given. *)
Lemma es_as_given :
  forall (d : dict) (p : fparams), fourier_es d = Some p ->
  (get "m"%string d = None -> fm p = 24%nat) /\ (forall n, get "m"%string d = Some (VNat n) -> fm p = n) /\
  (get "n_sa"%string d = None -> fsa p = 1%nat) /\ (forall n, get "n_sa"%string d = Some (VNat n) -> fsa p = n) /\
  (get "periodicity"%string d = None \/ get "periodicity"%string d = Some VNone -> fperiod p = fsa p) /\
  (forall n, get "periodicity"%string d = Some (VNat n) -> fperiod p = n) /\
  (get "alpha"%string d = None -> falpha p = 8 / 10)%R /\ (forall r, get "alpha"%string d = Some (VReal r) -> falpha p = r) /\
  (get "omega"%string d = None -> fomega p = 99 / 100)%R /\ (forall r, get "omega"%string d = Some (VReal r) -> fomega p = r) /\
  (get "n_harmonics"%string d = None -> fharmonics p = Nat.min 3 (fm p / 2)) /\
  (forall n, get "n_harmonics"%string d = Some (VNat n) -> (0 < n)%nat /\ fharmonics p = Nat.min n (fm p / 2)) /\
  (forall r, get "n_harmonics"%string d = Some (VReal r) ->
     (0 < r /\ INR (fharmonics p) <= r)%R /\ (fharmonics p <= fm p / 2)%nat /\ ((fharmonics p < fm p / 2)%nat -> r < INR (fharmonics p) + 1)%R).
Proof.
  intros d p. unfold fourier_es. destruct (nat_arg "m" 24 d) as [m|] eqn:Em; [|discriminate]. destruct (nat_arg "n_sa" 1 d) as [n|] eqn:En; [|discriminate].
  destruct (real_arg "alpha" _ d) as [al|] eqn:Ea; [|discriminate]. destruct (real_arg "omega" _ d) as [om|] eqn:Eo; [|discriminate].
  destruct (period_arg n d) as [pe|] eqn:Ep; [|discriminate]. destruct (between_0_1 al && between_0_1 om && _ && _ && _)%bool eqn:B; [|discriminate].
  intros H. injection H as <-. cbn [falpha fomega fm fsa fperiod fharmonics]. apply andb_prop in B. destruct B as [B _]. apply andb_prop in B. destruct B as [B _].
  apply andb_prop in B. destruct B as [_ P]. unfold nat_arg in Em, En. unfold real_arg in Ea, Eo. unfold period_arg in Ep.
  split; [intros G; rewrite G in *; congruence|]. split; [intros k G; rewrite G in *; congruence|].
  split; [intros G; rewrite G in *; congruence|]. split; [intros k G; rewrite G in *; congruence|].
  split; [intros [G|G]; rewrite G in *; congruence|]. split; [intros k G; rewrite G in *; congruence|].
  split; [intros G; rewrite G in *; congruence|]. split; [intros k G; rewrite G in *; congruence|].
  split; [intros G; rewrite G in *; congruence|]. split; [intros k G; rewrite G in *; congruence|].
  split; [intros G; rewrite G; reflexivity|]. split; [intros k G; rewrite G in *; split; [now apply Nat.ltb_lt|reflexivity]|].
  intros r G. rewrite G in *. cbn [positive_arg harmonics_int] in *. apply Rltb_spec in P. set (h := (m / 2)%nat).
  assert (M : (0 <= Rmin r (INR h))%R) by (apply Rmin_glb; [lra|apply pos_INR]).
  destruct (base_Int_part (Rmin r (INR h))) as [L U]. pose proof (Rmin_l r (INR h)) as A. pose proof (Rmin_r r (INR h)) as A2.
  assert (N : (0 <= Int_part (Rmin r (INR h)))%Z).
  { destruct (Z_lt_le_dec (Int_part (Rmin r (INR h))) 0) as [Q|Q]; [|exact Q]. assert (IZR (Int_part (Rmin r (INR h))) <= -1)%R by (apply IZR_le; lia). lra. }
  set (z := Int_part (Rmin r (INR h))) in *. assert (I : INR (Z.to_nat z) = IZR z) by (rewrite INR_IZR_INZ, Z2Nat.id by exact N; reflexivity).
  rewrite I. repeat split; [exact P|lra| |].
  - apply INR_le. rewrite I. lra.
  - intros Lt. apply lt_INR in Lt. assert (S1 : (INR (Z.to_nat z) + 1 <= INR h)%R).
    { apply INR_lt in Lt. rewrite <- S_INR. apply le_INR. lia. }
    rewrite I in S1. unfold Rmin in L, U. destruct (Rle_dec r (INR h)); lra.
Qed.
(** Parameters given one predictor at a time: each tunes itself when its own argument, true by default, says so. *)
Lemma given_tuning :
  forall (a : multi_args) (ds : list dict) (i : nat) (d : dict), a_submodels_pars a = Some ds -> (i < a_n_predictors a)%nat -> nth_error ds i = Some d ->
  exists b, nth_error (predictors_tune a) i = Some b /\
    (get "optimize_hyperpars"%string d = None -> b = true) /\ (get "optimize_hyperpars"%string d = Some VNone -> b = false) /\
    (forall v, get "optimize_hyperpars"%string d = Some (VBool v) -> b = v) /\
    (forall n, get "optimize_hyperpars"%string d = Some (VNat n) -> (b = true <-> n <> 0%nat)) /\
    (forall r, get "optimize_hyperpars"%string d = Some (VReal r) -> (b = true <-> r <> 0%R)) /\
    (forall t, get "optimize_hyperpars"%string d = Some (VOther t) -> b = true).
Proof.
  intros a ds i d E Hi G. exists (tunes d). split.
  - unfold predictors_tune. rewrite E, nth_error_map. replace (nth_error (firstn (a_n_predictors a) ds) i) with (nth_error ds i); [now rewrite G|].
    clear E G. revert Hi. generalize (a_n_predictors a). revert i. induction ds as [|x ds IH]; intros [|i] [|n] Hi; try reflexivity; try lia. cbn. apply IH. lia.
  - unfold tunes. repeat split; intros; try (rewrite H in *; reflexivity).
    + rewrite H in *. apply Nat.ltb_lt in H0. lia.
    + rewrite H in *. apply Nat.ltb_lt. lia.
    + rewrite H in *. intros ->. unfold Rltb in H0. destruct (Rlt_dec 0 0); [lra|discriminate].
    + rewrite H in *. apply orb_true_iff. rewrite !Rltb_spec. lra.
Qed.
