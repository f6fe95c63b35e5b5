From Coq Require Import Reals List Arith Bool Lia Lra ZArith.
From Verif Require Import Model.FourierEs Spec.FourierSpec Proof.SeriesProof Proof.FourierProof.
Import ListNotations.
Local Open Scope R_scope.

Lemma nth_map_in' {A B} (f : A -> B) l i d d' : (i < length l)%nat -> nth i (map f l) d = f (nth i l d').
Proof. intros H. rewrite (nth_indep _ _ (f d')) by now rewrite map_length. apply map_nth. Qed.

(** With as many harmonics as half the window, the last sine is zero everywhere. *)
Lemma nyquist_sine h t : (0 < h)%nat -> basis (2 * h) t (2 * h - 1) = 0.
Proof.
  intros Hh. unfold basis. destruct (2 * h - 1)%nat as [|j] eqn:E; [lia|]. rewrite <- E. cbn zeta.
  replace ((2 * h - 1 + 1) / 2)%nat with h by (replace (2 * h - 1 + 1)%nat with (h * 2)%nat by lia; symmetry; apply Nat.div_mul; lia).
  replace (Nat.odd (2 * h - 1)) with true.
  2:{ symmetry. replace (2 * h - 1)%nat with (1 + 2 * (h - 1))%nat by lia. rewrite Nat.odd_add, Nat.odd_mul. reflexivity. }
  assert (0 < INR h) by now apply lt_0_INR.
  replace (2 * PI * INR h * INR t / INR (2 * h)) with (INR t * PI) by (rewrite mult_INR; cbn [INR]; field; lra).
  replace (sin (INR t * PI)) with 0; [ring|]. symmetry. apply sin_eq_0_1. exists (Z.of_nat t). now rewrite <- INR_IZR_INZ.
Qed.
Lemma nyquist_not_orthonormal h s : (0 < h)%nat ->
  rsum (fun r => basis (2 * h) (s + r) (2 * h - 1) * basis (2 * h) (s + r) (2 * h - 1)) (2 * h) = 0.
Proof.
  intros Hh. rewrite (rsum_ext _ (fun _ => 0)); [rewrite rsum_const; lra|]. intros r _. rewrite nyquist_sine by exact Hh. ring.
Qed.

(** ** Signals of the span *)
Lemma signal_mod p c t : (0 < fm p)%nat -> signal p c (t mod fm p) = signal p c t.
Proof. intros H. unfold signal. apply rsum_ext. intros j _. now rewrite basis_mod. Qed.
Lemma signal_congr p c t u : (0 < fm p)%nat -> (t mod fm p = u mod fm p)%nat -> signal p c t = signal p c u.
Proof. intros H E. rewrite <- (signal_mod p c t), <- (signal_mod p c u) by exact H. now rewrite E. Qed.

Lemma coeffs_signal p c i w : proper p -> length c = dim p ->
  (forall r, (r < fm p)%nat -> nth r w 0 = signal p c (i + r)) -> coeffs p i w = c.
Proof.
  intros (H1 & _ & _) Hc Hw. assert (Hm : (0 < fm p)%nat) by lia. unfold coeffs.
  apply (list_eq_nth _ _ 0); [now rewrite map_length, seq_length|]. intros j Hj. rewrite map_length, seq_length in Hj.
  rewrite (nth_map_seq (fun j => rsum (fun r => basis (fm p) (i mod fm p + r) j * nth r w 0) (fm p))) by exact Hj. cbn [Nat.add].
  set (s := (i mod fm p)%nat).
  rewrite (rsum_ext _ (fun r => rsum (fun k => basis (fm p) (s + r) j * basis (fm p) (s + r) k * nth k c 0) (dim p))).
  - rewrite rsum_swap. rewrite (rsum_ext _ (fun k => (if (j =? k)%nat then 1 else 0) * nth k c 0)).
    + rewrite (rsum_pick _ _ j) by (exact Hj || (intros k Hk Hne; apply not_eq_sym in Hne; apply Nat.eqb_neq in Hne; rewrite Hne; ring)).
      rewrite Nat.eqb_refl. ring.
    + intros k Hk. rewrite (rsum_ext _ (fun r => nth k c 0 * (basis (fm p) (s + r) j * basis (fm p) (s + r) k))) by (intros; ring).
      rewrite rsum_scal, (basis_orthonormal (fm p) (fharmonics p)) by (unfold dim in *; lia). ring.
  - intros r Hr. rewrite Hw by exact Hr. rewrite (signal_congr p c (i + r) (s + r)).
    + unfold signal. rewrite <- rsum_scal. apply rsum_ext. intros k _. ring.
    + exact Hm.
    + unfold s. now rewrite Nat.add_mod_idemp_l by lia.
Qed.

Lemma windows_of_series (Y : nat -> R) m n i : (0 < m)%nat -> (i < n)%nat ->
  window_at (map Y (seq m n)) (map Y (seq 0 m)) i = map Y (seq (i + 1) m).
Proof.
  intros Hm Hi. rewrite window_last by (rewrite map_length, seq_length; assumption). rewrite map_length, seq_length.
  rewrite firstn_map, <- map_app. unfold last_of. rewrite map_length, app_length, seq_length, firstn_length, seq_length.
  replace (m + Nat.min (i + 1) n - m)%nat with (i + 1)%nat by lia. rewrite skipn_map. f_equal.
  assert (F : firstn (i + 1) (seq m n) = seq m (i + 1)).
  { replace n with (i + 1 + (n - (i + 1)))%nat by lia. rewrite seq_app, firstn_app, seq_length, Nat.sub_diag. cbn [firstn].
    rewrite firstn_all2 by (rewrite seq_length; lia). apply app_nil_r. }
  rewrite F. pose proof (seq_app m (i + 1) 0) as Q. cbn [Nat.add] in Q. rewrite <- Q. clear Q. replace (m + (i + 1))%nat with (i + 1 + m)%nat by lia. rewrite seq_app.
  rewrite skipn_app, seq_length, Nat.sub_diag. cbn [skipn]. rewrite skipn_all2 by (rewrite seq_length; lia). reflexivity.
Qed.

(** The coefficients approach those of the signal geometrically, whatever they were. *)
Lemma coefficients_converge p c x0 eps last1 n : proper p -> length c = dim p -> length x0 = dim p ->
  let Y := fun u => signal p c (u + fm p - 1) in
  let st := FStored (Some x0) eps last1 (map Y (seq 0 (fm p))) in
  st_x (snd (frun p st (map Y (seq (fm p) n)) true)) =
    Some (map (fun j => nth j c 0 + (1 - falpha p) ^ n * (nth j x0 0 - nth j c 0)) (seq 0 (dim p))).
Proof.
  intros Hp Hc Hx Y st. unfold frun. cbn [st_w st]. rewrite map_length, seq_length.
  set (w0 := map Y (seq 0 (fm p))). set (y := map Y (seq (fm p) n)).
  assert (Hm : (0 < fm p)%nat) by (destruct Hp; lia).
  assert (W : forall i, (i < n)%nat -> coeffs p i (window_at y w0 i) = c).
  { intros i Hi. unfold y, w0. rewrite windows_of_series by assumption. apply coeffs_signal; [exact Hp|exact Hc|].
    intros r Hr. rewrite (nth_indep _ _ (Y 0%nat)) by (rewrite map_length, seq_length; exact Hr). rewrite map_nth, seq_nth by exact Hr.
    unfold Y. apply signal_congr; [exact Hm|]. replace (i + 1 + r + fm p - 1)%nat with (i + r + 1 * fm p)%nat by lia. now rewrite Nat.mod_add by lia. }
  assert (G : forall k a s, (a + k <= n)%nat -> length (fx s) = dim p ->
     fx (snd (fsteps p y w0 s (seq a k))) = map (fun j => nth j c 0 + (1 - falpha p) ^ k * (nth j (fx s) 0 - nth j c 0)) (seq 0 (dim p))).
  { induction k as [|k IH]; intros a s Ha Hs; cbn [seq fsteps].
    - apply (list_eq_nth _ _ 0); [now rewrite map_length, seq_length|]. intros j Hj.
      cbn [snd] in *. rewrite (nth_map_seq (fun j => nth j c 0 + (1 - falpha p) ^ 0 * (nth j (fx s) 0 - nth j c 0))) by lia. cbn [Nat.add pow]. ring.
    - destruct (fstep p y w0 s a) as [s1 r] eqn:E. assert (Ex : fx s1 = mix (falpha p) c (fx s)).
      { unfold fstep in E. injection E as E _. rewrite <- E. cbn [fx]. now rewrite W by lia. }
      assert (L1 : length (fx s1) = dim p) by (rewrite Ex; unfold mix; rewrite map_length, combine_length; lia).
      specialize (IH (S a) s1 ltac:(lia) L1). destruct (fsteps p y w0 s1 (seq (S a) k)) as [rs s2]. cbn [snd] in *. rewrite IH.
      apply map_ext_in. intros j Hj. apply in_seq in Hj. rewrite Ex. unfold mix.
      rewrite (nth_map_in' (fun uv : R * R => falpha p * fst uv + (1 - falpha p) * snd uv) _ _ _ (0, 0)) by (rewrite combine_length; lia).
      rewrite combine_nth by lia. cbn [fst snd pow]. ring. }
  specialize (G n 0%nat (fstart p st y) ltac:(lia) Hx).
  destruct (fsteps p y w0 (fstart p st y) (seq 0 n)) as [rows s]. cbn [snd st_x] in *. now rewrite G.
Qed.

(** A signal of the span with the period of the model is forecast exactly. *)
Lemma forecasts_exact p c n : proper p -> length c = dim p ->
  let Y := fun u => signal p c (u + fm p - 1) in
  (forall t, Y (t + fperiod p)%nat = Y t) ->
  let st := FStored (Some c) 0 (Y (fm p)) (map Y (seq 0 (fm p))) in
  fst (frun p st (map Y (seq (fm p) n)) false) = map (fun i => map (fun h => Y (fm p + i + 1 + h)%nat) (seq 0 (fsa p))) (seq 0 n).
Proof.
  intros Hp Hc Y Hper st. unfold frun. cbn [st_w st]. rewrite map_length, seq_length.
  set (w0 := map Y (seq 0 (fm p))). set (y := map Y (seq (fm p) n)).
  assert (Hm : (0 < fm p)%nat) by (destruct Hp; lia). destruct Hp as (H1 & H2 & H3).
  assert (S1 : forall i w, (i < n)%nat -> exists w', fstep p y w0 (FState c 0 (Y (fm p + i)%nat) w) i
             = (FState c 0 (Y (fm p + S i)%nat) w', map (fun h => Y (fm p + i + 1 + h)%nat) (seq 0 (fsa p)))).
  { intros i w Hi. unfold fstep. cbn [fx feps flast]. unfold y, w0. rewrite windows_of_series by assumption.
    assert (Ec : coeffs p i (map Y (seq (i + 1) (fm p))) = c).
    { apply coeffs_signal; [now split|exact Hc|].
      intros r Hr. rewrite (nth_indep _ _ (Y 0%nat)) by (rewrite map_length, seq_length; exact Hr). rewrite map_nth, seq_nth by exact Hr.
      unfold Y. apply signal_congr; [exact Hm|]. replace (i + 1 + r + fm p - 1)%nat with (i + r + 1 * fm p)%nat by lia. now rewrite Nat.mod_add by lia. }
    rewrite Ec.
    assert (Em : mix (falpha p) c c = c).
    { unfold mix. generalize c. clear. induction c as [|a c IH]; [reflexivity|]. cbn. rewrite IH. f_equal. ring. }
    rewrite Em.
    assert (El : last (map Y (seq (i + 1) (fm p))) 0 = Y (fm p + i)%nat).
    { destruct (fm p) as [|m'] eqn:Em'; [lia|]. rewrite seq_S, map_app. cbn [map]. rewrite last_last. f_equal. lia. }
    rewrite El.
    assert (Er : reconstruct p i c = map (fun h => Y (fm p + i + 1 + h)%nat) (seq 0 (fsa p))).
    { unfold reconstruct. apply map_ext. intros h. fold (signal p c (i mod fm p + fm p - fperiod p + h)).
      replace (Y (fm p + i + 1 + h)%nat) with (Y (fm p + i + 1 + h - fperiod p)%nat) by (rewrite <- (Hper (fm p + i + 1 + h - fperiod p)%nat); f_equal; lia).
      unfold Y. apply signal_congr; [exact Hm|].
      replace (i mod fm p + fm p - fperiod p + h)%nat with (i mod fm p + (fm p - fperiod p + h))%nat by lia. rewrite Nat.add_mod_idemp_l by lia.
      replace (fm p + i + 1 + h - fperiod p + fm p - 1)%nat with (i + (fm p - fperiod p + h) + 1 * fm p)%nat by lia. now rewrite Nat.mod_add by lia. }
    rewrite Er. replace (fomega p * (Y (fm p + i)%nat - Y (fm p + i)%nat) + (1 - fomega p) * 0) with 0 by ring.
    exists (map Y (seq (i + 1) (fm p))). f_equal; [f_equal|].
    - destruct (fsa p) as [|k]; [lia|]. cbn [seq map hd]. f_equal. lia.
    - unfold corrected. apply (list_eq_nth _ _ 0); [rewrite !map_length, combine_length, map_length, !seq_length; lia|].
      intros h Hh. rewrite map_length, combine_length, map_length, seq_length, Nat.min_id in Hh.
      rewrite (nth_map_in' (fun hv : nat * R => snd hv + 0 * INR (fsa p - fst hv) ^ 2 / INR (fsa p) ^ 2) _ _ _ (0%nat, 0)) by (rewrite combine_length, map_length, seq_length; lia).
      rewrite combine_nth by now rewrite map_length. cbn [fst snd]. unfold Rdiv. ring. }
  assert (G : forall k a w, (a + k <= n)%nat -> fst (fsteps p y w0 (FState c 0 (Y (fm p + a)%nat) w) (seq a k))
      = map (fun i => map (fun h => Y (fm p + i + 1 + h)%nat) (seq 0 (fsa p))) (seq a k)).
  { induction k as [|k IH]; intros a w Ha; [reflexivity|]. cbn [seq fsteps map]. destruct (S1 a w ltac:(lia)) as [w' ->].
    specialize (IH (S a) w' ltac:(lia)). destruct (fsteps p y w0 _ (seq (S a) k)) as [rs s2]. cbn [fst] in *. now rewrite IH. }
  specialize (G n 0%nat w0 ltac:(lia)). unfold fstart. cbn [st_x st_eps st_last st_w st].
  rewrite Nat.add_0_r in G. fold w0. destruct (fsteps p y w0 _ (seq 0 n)) as [rows s]. exact G.
Qed.

(** ** Chunks *)
Lemma fsteps_app p y w0 s is js :
  fsteps p y w0 s (is ++ js) = let '(r1, s1) := fsteps p y w0 s is in let '(r2, s2) := fsteps p y w0 s1 js in (r1 ++ r2, s2).
Proof.
  revert s. induction is as [|i is IH]; intros s; cbn [app fsteps]; [now destruct (fsteps p y w0 s js)|].
  destruct (fstep p y w0 s i) as [s1 r]. rewrite IH. destruct (fsteps p y w0 s1 is) as [r1 s2]. destruct (fsteps p y w0 s2 js). reflexivity.
Qed.
Lemma fsteps_congr p y w0 z v0 (f : nat -> nat) is : forall s,
  (forall i, In i is -> window_at y w0 (f i) = window_at z v0 i /\ f i mod fm p = i mod fm p)%nat ->
  fsteps p y w0 s (map f is) = fsteps p z v0 s is.
Proof.
  induction is as [|i is IH]; intros s H; [reflexivity|]. cbn [map fsteps].
  destruct (H i (or_introl eq_refl)) as [H1 H2].
  replace (fstep p y w0 s (f i)) with (fstep p z v0 s i) by (unfold fstep, coeffs, reconstruct; now rewrite H1, H2).
  destruct (fstep p z v0 s i) as [s1 r]. rewrite IH; [reflexivity|]. intros j Hj. apply H. now right.
Qed.
Lemma fsteps_last_window p y w0 s n : fw (snd (fsteps p y w0 s (seq 0 (S n)))) = window_at y w0 n.
Proof.
  rewrite seq_S, fsteps_app. destruct (fsteps p y w0 s (seq 0 n)) as [r1 s1]. cbn [Nat.add fsteps].
  unfold fstep. reflexivity.
Qed.

Lemma fit_in_chunks p st y z : (0 < fm p)%nat -> length (st_w st) = fm p -> y <> [] -> (length y mod fm p = 0)%nat ->
  frun p st (y ++ z) true =
    (fst (frun p st y true) ++ fst (frun p (snd (frun p st y true)) z true), snd (frun p (snd (frun p st y true)) z true)).
Proof.
  intros Hm Hw Hy Hmod. unfold frun. rewrite app_length, seq_app, fsteps_app.
  assert (F1 : fsteps p (y ++ z) (st_w st) (fstart p st (y ++ z)) (seq 0 (length y)) = fsteps p y (st_w st) (fstart p st y) (seq 0 (length y))).
  { replace (fstart p st (y ++ z)) with (fstart p st y) by (unfold fstart; destruct y; [congruence|reflexivity]).
    rewrite <- (map_id (seq 0 (length y))) at 1. apply fsteps_congr. intros i Hi. apply in_seq in Hi. split; [|reflexivity].
    rewrite !window_last by (rewrite ?app_length; lia). f_equal. f_equal. rewrite firstn_app.
    replace (i + 1 - length y)%nat with 0%nat by lia. cbn [firstn]. apply app_nil_r. }
  rewrite F1. assert (Ly : length y = S (length y - 1)) by (destruct y; [congruence|cbn; lia]).
  pose proof (fsteps_last_window p y (st_w st) (fstart p st y) (length y - 1)) as LW. rewrite <- Ly in LW.
  destruct (fsteps p y (st_w st) (fstart p st y) (seq 0 (length y))) as [r1 s1]. cbn [fst snd st_w] in *.
  assert (F2 : fsteps p (y ++ z) (st_w st) s1 (seq (0 + length y) (length z)) = fsteps p z (fw s1) s1 (seq 0 (length z))).
  { replace (seq (0 + length y) (length z)) with (map (fun i => (length y + i)%nat) (seq 0 (length z))).
    - apply fsteps_congr. intros i Hi. apply in_seq in Hi. split.
      + rewrite LW. symmetry. apply window_chunks; [lia|exact Hy|lia].
      + rewrite Nat.add_mod, Hmod by lia. cbn [Nat.add]. now rewrite Nat.mod_mod by lia.
    - cbn [Nat.add]. generalize (length y) (length z). clear. intros a n. revert a. induction n as [|n IH]; intros a; [reflexivity|].
      cbn [seq map]. f_equal; [lia|]. rewrite <- (IH (S a)), <- seq_shift, map_map. apply map_ext. intros. lia. }
  rewrite F2. replace (fstart p (FStored (Some (fx s1)) (feps s1) (flast s1) (fw s1)) z) with s1 by (now destruct s1).
  destruct (fsteps p z (fw s1) s1 (seq 0 (length z))) as [r2 s2]. reflexivity.
Qed.


(** ** A fit in two parts of odd length differs *)
Lemma basis2_0 t : basis 2 t 0 = 1 / sqrt 2.
Proof. unfold basis. replace (2 / INR 2) with 1 by (cbn; lra). rewrite sqrt_1. ring. Qed.
Lemma basis2_1 t : basis 2 t 1 = 0.
Proof. exact (nyquist_sine 1 t (Nat.lt_0_succ 0)). Qed.
Lemma basis2_2 t : basis 2 t 2 = cos (INR t * PI).
Proof.
  unfold basis. replace (2 / INR 2) with 1 by (cbn; lra). rewrite sqrt_1. cbn [Nat.odd Nat.even negb]. cbn zeta.
  change ((2 + 1) / 2)%nat with 1%nat. replace (2 * PI * INR 1 * INR t / INR 2) with (INR t * PI) by (cbn; field). ring.
Qed.
Definition two : fparams := FParams 2 1 2 1 (1 / 2) (1 / 2).
Lemma coeffs_two i w0 w1 : (i = 0 \/ i = 1)%nat -> coeffs two i [w0; w1] = [(w0 + w1) / sqrt 2; 0; if (i =? 0)%nat then w0 - w1 else w1 - w0].
Proof.
  intros Hi. unfold coeffs. cbn [two fm dim fharmonics Nat.mul Nat.add seq map rsum nth].
  rewrite !basis2_0, !basis2_1, !basis2_2. f_equal; [unfold Rdiv; ring|]. f_equal; [ring|]. f_equal.
  assert (C2 : cos (INR 2 * PI) = 1) by (replace (INR 2 * PI) with (2 * PI) by (cbn; ring); apply cos_2PI).
  assert (C1 : cos (INR 1 * PI) = -1) by (replace (INR 1 * PI) with PI by (cbn; ring); apply cos_PI).
  assert (C0 : cos (INR 0 * PI) = 1) by (replace (INR 0 * PI) with 0 by (cbn; ring); apply cos_0).
  destruct Hi as [-> | ->].
  - change (0 mod 2 + 0)%nat with 0%nat. change (0 mod 2 + 1)%nat with 1%nat. rewrite C0, C1. cbn [Nat.eqb]. ring.
  - change (1 mod 2 + 0)%nat with 1%nat. change (1 mod 2 + 1)%nat with 2%nat. rewrite C1, C2. cbn [Nat.eqb]. ring.
Qed.
Lemma reconstruct_two i a b c : (i = 0 \/ i = 1)%nat -> reconstruct two i [a; b; c] = [a / sqrt 2 + (if (i =? 0)%nat then c else - c)].
Proof.
  intros Hi. unfold reconstruct. cbn [two fm fsa fperiod dim fharmonics Nat.mul Nat.add seq map rsum nth]. rewrite basis2_0, basis2_1, basis2_2.
  assert (C1 : cos (INR 1 * PI) = -1) by (replace (INR 1 * PI) with PI by (cbn; ring); apply cos_PI).
  assert (C0 : cos (INR 0 * PI) = 1) by (replace (INR 0 * PI) with 0 by (cbn; ring); apply cos_0).
  f_equal. destruct Hi as [-> | ->].
  - change (0 mod 2 + 2 - 2 + 0)%nat with 0%nat. rewrite C0. cbn [Nat.eqb]. unfold Rdiv. ring.
  - change (1 mod 2 + 2 - 2 + 0)%nat with 1%nat. rewrite C1. cbn [Nat.eqb]. unfold Rdiv. ring.
Qed.
Lemma chunks_differ : exists (p : fparams) (y z : list R), (0 < fm p)%nat /\ y <> [] /\ z <> [] /\
  fst (frun p (fresh p) (y ++ z) true) <> fst (frun p (fresh p) y true) ++ fst (frun p (snd (frun p (fresh p) y true)) z true).
Proof.
  exists two, [1], [0]. split; [cbn; lia|]. split; [discriminate|]. split; [discriminate|].
  unfold frun. cbn [app length seq fsteps fresh st_w two fm repeat].
  unfold fstep. change (window_at [1; 0] [0; 0] 0) with [0; 1]. change (window_at [1; 0] [0; 0] 1) with [1; 0]. change (window_at [1] [0; 0] 0) with [0; 1].
  rewrite !coeffs_two by lia. unfold fstart. cbn [fx feps flast fw fresh st_x st_eps st_last st_w two fm fharmonics Nat.mul Nat.add repeat hd falpha fomega mix combine map fst snd].
  rewrite !reconstruct_two by lia. cbn [hd]. change (window_at [0] [0; 1] 0) with [1; 0]. rewrite !coeffs_two by lia.
  cbn [mix combine map fst snd Nat.eqb]. rewrite !reconstruct_two by lia. cbn [corrected fsa combine seq map fst snd Nat.eqb].
  intros E. injection E as E. unfold Rdiv in E. lra.
Qed.
