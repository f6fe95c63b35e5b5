From Coq Require Import String Reals List Arith ZArith Bool Lia Lra.
From Verif Require Import Model.Stats Model.HoltWinters Model.FourierEs Model.FourierKalman Model.FkConfig Spec.FkConfigSpec
  Proof.StatsProof Proof.FourierProof Proof.SeriesProof Proof.FkConfigProof Proof.FkConfigProof2.
Import ListNotations.
Local Open Scope string_scope.
Local Open Scope R_scope.
Local Open Scope list_scope.

(** C155 *)
Lemma slice_wrapped {V} (l : list V) (a n : nat) : (n < a <= length l)%nat ->
  py_slice l (- Z.of_nat a) (- Z.of_nat a + Z.of_nat n) = firstn n (skipn (length l - a) l).
Proof.
  intros H. unfold py_slice, bound.
  destruct (Z.ltb_spec (- Z.of_nat a) 0); [|lia]. destruct (Z.ltb_spec (- Z.of_nat a + Z.of_nat n) 0); [|lia].
  replace (Z.to_nat (Z.min _ (Z.max 0 (- Z.of_nat a + Z.of_nat n + _)))) with (length l - a + n)%nat by lia.
  replace (Z.to_nat _) with (length l - a)%nat by lia. f_equal. lia.
Qed.
Lemma basis_wrap m t k j : (0 < m)%nat -> basis m (t + k * m) j = basis m t j.
Proof.
  intros H. induction k as [|k IH]; [f_equal; lia|]. rewrite <- IH. replace (t + Datatypes.S k * m)%nat with ((t + k * m) + m)%nat by lia.
  apply basis_period. assumption.
Qed.
Lemma step_wrapped p y w0 s i : (0 < fm p)%nat -> (0 < fsa p)%nat -> (2 * fm p + fsa p <= fperiod p)%nat -> length w0 = fm p -> (i < length y)%nat ->
  step_sliced p y w0 s i = Some (fstep (with_period (fm p) p) y w0 s i).
Proof.
  intros Hm Hn Hp Hw Hi. unfold step_sliced.
  pose proof (Nat.mod_upper_bound i (fm p) ltac:(lia)) as Hmod.
  assert (LB : length (stored_basis p) = (2 * fm p + Nat.max (fsa p) (fperiod p))%nat)
    by (unfold stored_basis; rewrite map_length, seq_length; reflexivity).
  rewrite slice_inside by lia. rewrite rows_slice by lia.
  replace (Z.of_nat (i mod fm p) + Z.of_nat (fm p) - Z.of_nat (fperiod p))%Z with (- Z.of_nat (fperiod p - (i mod fm p + fm p)))%Z by lia.
  rewrite slice_wrapped by lia. rewrite LB, rows_slice by lia.
  rewrite (coeffs_same p i) by (assumption || reflexivity || (rewrite window_length; lia)).
  rewrite map_map. unfold fstep, reconstruct, with_period. cbn [fm fsa fperiod fharmonics falpha fomega].
  rewrite (map_ext _ _ (fun r => dot_row p (2 * fm p + Nat.max (fsa p) (fperiod p) - (fperiod p - (i mod fm p + fm p)) + r) _)).
  set (p' := FParams (fm p) (fsa p) (fm p) (fharmonics p) (falpha p) (fomega p)).
  change (dim p') with (dim p). change (coeffs p' i) with (coeffs p i).
  rewrite (map_ext _ (fun h => rsum (fun j => basis (fm p) (i mod fm p + fm p - fm p + h) j * nth j (mix (falpha p) (coeffs p i (window_at y w0 i)) (fx s)) 0) (dim p))).
  2:{ intros h. apply rsum_le_ext. intros j Hj. f_equal.
      replace (2 * fm p + Nat.max (fsa p) (fperiod p) - (fperiod p - (i mod fm p + fm p)) + h)%nat with ((i mod fm p + fm p - fm p + h) + 3 * fm p)%nat by lia.
      apply basis_wrap. assumption. }
  set (f := fun h : nat => rsum _ (dim p)).
  set (eps := fomega p * _ + _). rewrite (corrected_seq p' eps f : corrected p' eps (map f (seq 0 (fsa p))) = map _ (seq 0 (fsa p))). cbn [fsa p']. unfold broadcast. rewrite !map_length, Nat.eqb_refl.
  rewrite combine_map_seq. destruct (fsa p) as [|n] eqn:En; [lia|]. cbn [seq map hd]. reflexivity.
Qed.
Lemma run_wrapped (p : fparams) (st : fstored) (y : list R) (fit : bool) :
  (0 < fm p)%nat -> (0 < fsa p)%nat -> (2 * fm p + fsa p <= fperiod p)%nat -> shaped p st ->
  run_sliced p st y fit = Some (frun (with_period (fm p) p) st y fit).
Proof.
  intros Hm Hn Hp [Hw _]. unfold run_sliced, frun.
  assert (E : forall is s, Forall (fun i => (i < length y)%nat) is ->
    steps_sliced p y (st_w st) s is = Some (fsteps (with_period (fm p) p) y (st_w st) s is)).
  { induction is as [|i is IH]; intros s H; [reflexivity|]. inversion H; subst. cbn [steps_sliced fsteps].
    rewrite step_wrapped by assumption. destruct (fstep _ y (st_w st) s i) as [s1 r]. rewrite IH by assumption.
    destruct (fsteps _ y (st_w st) s1 is). reflexivity. }
  rewrite E by (apply Forall_forall; intros i H; apply in_seq in H; lia).
  change (fstart (with_period (fm p) p) st y) with (fstart p st y). destruct (fsteps _ _ _ _ _). reflexivity.
Qed.
(** The periodicities in between fail as soon as the rows reach the wrapped slice. *)
Lemma step_gap p y w0 s i : (0 < fm p)%nat -> (i mod fm p + fm p < fperiod p <= i mod fm p + fm p + fsa p)%nat -> step_sliced p y w0 s i = None.
Proof.
  intros Hm Hp. unfold step_sliced.
  pose proof (Nat.mod_upper_bound i (fm p) ltac:(lia)) as Hmod.
  assert (LB : length (stored_basis p) = (2 * fm p + Nat.max (fsa p) (fperiod p))%nat)
    by (unfold stored_basis; rewrite map_length, seq_length; reflexivity).
  replace (Z.of_nat (i mod fm p) + Z.of_nat (fm p) - Z.of_nat (fperiod p))%Z with (- Z.of_nat (fperiod p - (i mod fm p + fm p)))%Z by lia.
  rewrite (slice_before (stored_basis p)) by lia. rewrite LB.
  replace (fsa p - _ - _)%nat with 0%nat by lia. reflexivity.
Qed.
Lemma steps_fail p y w0 i is : (forall s, step_sliced p y w0 s i = None) -> In i is -> forall s, steps_sliced p y w0 s is = None.
Proof.
  intros H. induction is as [|k is IH]; intros I s; [easy|]. cbn [steps_sliced]. destruct I as [->|I]; [rewrite H; reflexivity|].
  destruct (step_sliced p y w0 s k) as [[s1 r]|]; [|reflexivity]. rewrite IH by assumption. reflexivity.
Qed.
Lemma run_gap (p : fparams) (st : fstored) (y : list R) (fit : bool) :
  (0 < fm p)%nat -> (0 < fsa p)%nat -> (fm p < fperiod p < 2 * fm p + fsa p)%nat -> (fm p <= length y)%nat -> run_sliced p st y fit = None.
Proof.
  intros Hm Hn Hp Hy. unfold run_sliced.
  set (i := (fperiod p - fsa p - fm p)%nat). assert (Hi : (i < fm p)%nat) by lia.
  rewrite (steps_fail p y (st_w st) i); [reflexivity| |apply in_seq; lia].
  intros s. apply step_gap; [assumption|]. rewrite Nat.mod_small by assumption. lia.
Qed.

(** C157 *)
Lemma tuned_arguments {D} (search : D -> dict) (o : tunable) (data : D) (k : string) :
  attribute "optimize_hyperpars" o = Some (VBool true) -> NoDup (map fst (search data)) ->
  get k (t_init (fit_tune search o data)) =
    match get k (search data) with
    | Some v => Some v
    | None => if String.eqb k "optimize_hyperpars" then Some (VBool false) else get k (t_init o)
    end.
Proof.
  unfold attribute, fit_tune. intros E Nd. rewrite E. cbn [t_init]. unfold tuned_args.
  destruct (get k (search data)) as [v|] eqn:G; [apply get_update_some; assumption|].
  rewrite get_update_none by assumption. unfold update. cbn [fold_left fst snd]. apply get_set.
Qed.
