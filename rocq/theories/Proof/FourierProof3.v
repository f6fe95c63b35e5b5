(** Fourier models: one row per observation, causality, units and offsets. *)
From Coq Require Import Reals List Arith Bool Lia Lra ZArith.
From Verif Require Import Model.FourierEs Model.FourierKalman Spec.FourierSpec Spec.UnitsSpec Proof.FourierProof Proof.FourierProof2 Proof.FourierKalmanProof.
Import ListNotations.
Local Open Scope R_scope.

(** * Rows and causality *)
Lemma window_prefix {V} (y w : list V) k i : (i < k)%nat -> window_at (firstn k y) w i = window_at y w i.
Proof.
  intros H. unfold window_at, recent_history. replace (firstn _ (skipn _ (firstn k y))) with (firstn (i + 1 - (i + 1 - length w)) (skipn (i + 1 - length w) y)); [reflexivity|].
  rewrite skipn_firstn_comm, firstn_firstn. f_equal. lia.
Qed.
Lemma fsteps_prefix p y w0 k : forall is s, (forall i, In i is -> (i < k)%nat) -> fsteps p (firstn k y) w0 s is = fsteps p y w0 s is.
Proof.
  induction is as [|i is IH]; intros s H; [reflexivity|]. cbn [fsteps]. unfold fstep. rewrite window_prefix by (apply H; now left).
  rewrite IH; [reflexivity|]. intros j Hj. apply H. now right.
Qed.
Lemma fsteps_rows p y w0 : forall is s, length (fst (fsteps p y w0 s is)) = length is.
Proof.
  induction is as [|i is IH]; intros s; [reflexivity|]. cbn [fsteps]. destruct (fstep p y w0 s i) as [s1 r]. specialize (IH s1).
  destruct (fsteps p y w0 s1 is) as [rs s2]. cbn in *. congruence.
Qed.
Lemma corrected_length p eps pr : length pr = fsa p -> length (corrected p eps pr) = fsa p.
Proof. intros H. unfold corrected. rewrite map_length, combine_length, seq_length. lia. Qed.
Lemma reconstruct_length p i x : length (reconstruct p i x) = fsa p.
Proof. unfold reconstruct. now rewrite map_length, seq_length. Qed.
Lemma fsteps_widths p y w0 : forall is s row, In row (fst (fsteps p y w0 s is)) -> length row = fsa p.
Proof.
  induction is as [|i is IH]; intros s row; [intros []|]. cbn [fsteps]. unfold fstep. set (s1 := FState _ _ _ _). specialize (IH s1).
  destruct (fsteps p y w0 s1 is) as [rs s2]. cbn [fst] in *. intros [<-|H]; [apply corrected_length, reconstruct_length|now apply IH].
Qed.
Lemma ksteps_app {X C} (o : ops X C) m n omega y w0 : forall is sh js,
  ksteps o m n omega y w0 sh (is ++ js) = let '(r1, s1) := ksteps o m n omega y w0 sh is in let '(r2, s2) := ksteps o m n omega y w0 s1 js in (r1 ++ r2, s2).
Proof.
  induction is as [|i is IH]; intros sh js; cbn [app ksteps]; [now destruct (ksteps o m n omega y w0 sh js)|].
  destruct (kstep o m n omega y w0 sh i) as [s1 r]. rewrite IH. destruct (ksteps o m n omega y w0 s1 is) as [r1 s2]. destruct (ksteps o m n omega y w0 s2 js). reflexivity.
Qed.
Lemma ksteps_prefix {X C} (o : ops X C) m n omega y w0 k : forall is sh, (forall i, In i is -> (i < k)%nat) ->
  ksteps o m n omega (firstn k y) w0 sh is = ksteps o m n omega y w0 sh is.
Proof.
  induction is as [|i is IH]; intros sh H; [reflexivity|]. cbn [ksteps]. unfold kstep. rewrite window_prefix by (apply H; now left).
  destruct (kalman_op o _ _ _ _ _) as [x P]. rewrite IH; [reflexivity|]. intros j Hj. apply H. now right.
Qed.
Lemma ksteps_rows {X C} (o : ops X C) m n omega y w0 : forall is sh, length (fst (ksteps o m n omega y w0 sh is)) = length is.
Proof.
  induction is as [|i is IH]; intros s; [reflexivity|]. cbn [ksteps]. destruct (kstep o m n omega y w0 s i) as [s1 r]. specialize (IH s1).
  destruct (ksteps o m n omega y w0 s1 is) as [rs s2]. cbn in *. congruence.
Qed.
Lemma ksteps_widths {X C} (o : ops X C) m n omega y w0 : (forall i x, length (synthesise o i x) = n) ->
  forall is sh row, In row (fst (ksteps o m n omega y w0 sh is)) -> length row = n.
Proof.
  intros L. induction is as [|i is IH]; intros sh row; [intros []|]. cbn [ksteps]. unfold kstep. destruct (kalman_op o _ _ _ _ _) as [x P].
  set (s1 := (KState _ _ _ _ _ _ _, _)). specialize (IH s1). destruct (ksteps o m n omega y w0 s1 is) as [rs s2]. cbn [fst] in *.
  intros [<-|H]; [|now apply IH]. rewrite map_length, combine_length, seq_length, L. lia.
Qed.
Lemma fourier_rows : forall p st y fit,
  length (fst (frun p st y fit)) = length y /\ (forall row, In row (fst (frun p st y fit)) -> length row = fsa p).
Proof.
  intros p st y fit. unfold frun. pose proof (fsteps_rows p y (st_w st) (seq 0 (length y)) (fstart p st y)) as A.
  pose proof (fsteps_widths p y (st_w st) (seq 0 (length y)) (fstart p st y)) as B. destruct (fsteps _ _ _ _ _) as [rows s]. cbn [fst] in *.
  rewrite seq_length in A. auto.
Qed.
Lemma fourier_causal : forall p st y k fit, fst (frun p st (firstn k y) fit) = firstn k (fst (frun p st y fit)).
Proof.
  intros p st y k fit. destruct (le_lt_dec (length y) k) as [L|L].
  { rewrite firstn_all2 by exact L. rewrite firstn_all2; [reflexivity|]. rewrite (proj1 (fourier_rows p st y fit)). exact L. }
  destruct k as [|k]; [reflexivity|].
  unfold frun. rewrite firstn_length_le by lia.
  replace (fstart p st (firstn (S k) y)) with (fstart p st y) by (unfold fstart; destruct y; [cbn in L; lia|reflexivity]).
  rewrite fsteps_prefix by (intros i Hi; apply in_seq in Hi; lia).
  replace (length y) with (S k + (length y - S k))%nat by lia. rewrite seq_app, fsteps_app.
  pose proof (fsteps_rows p y (st_w st) (seq 0 (S k)) (fstart p st y)) as A.
  destruct (fsteps p y (st_w st) (fstart p st y) (seq 0 (S k))) as [r1 s1]. destruct (fsteps p y (st_w st) s1 _) as [r2 s2]. cbn [fst] in *.
  rewrite seq_length in A. rewrite firstn_app, A, Nat.sub_diag, firstn_O, app_nil_r, <- A, firstn_all. reflexivity.
Qed.
Lemma fk_rows {X C} : forall (o : ops X C) m n_sa omega f y fit, (forall i x, length (synthesise o i x) = n_sa) ->
  length (fst (krun o m n_sa omega f y fit)) = length y /\ (forall row, In row (fst (krun o m n_sa omega f y fit)) -> length row = n_sa).
Proof.
  intros o m n omega f y fit L. unfold krun. set (sh := (fk_state f, _)).
  pose proof (ksteps_rows o m n omega y (kw (fk_state f)) (seq 0 (length y)) sh) as A.
  pose proof (ksteps_widths o m n omega y (kw (fk_state f)) L (seq 0 (length y)) sh) as B. destruct (ksteps _ _ _ _ _ _ _ _) as [rows [s h]]. cbn [fst] in *.
  rewrite seq_length in A. auto.
Qed.
Lemma fk_causal {X C} : forall (o : ops X C) m n_sa omega f y k fit,
  fst (krun o m n_sa omega f (firstn k y) fit) = firstn k (fst (krun o m n_sa omega f y fit)).
Proof.
  intros o m n omega f y k fit. destruct (le_lt_dec (length y) k) as [L|L].
  { rewrite firstn_all2 by exact L. rewrite firstn_all2; [reflexivity|]. unfold krun. set (sh := (fk_state f, _)).
    pose proof (ksteps_rows o m n omega y (kw (fk_state f)) (seq 0 (length y)) sh) as A. destruct (ksteps _ _ _ _ _ _ _ _) as [rows [s h]]. cbn [fst] in *.
    rewrite seq_length in A. lia. }
  unfold krun. rewrite firstn_length_le by lia. rewrite ksteps_prefix by (intros i Hi; apply in_seq in Hi; lia).
  set (w0 := kw (fk_state f)). set (h1 := fk_history f ++ repeat (zero_x o) k). set (h2 := fk_history f ++ repeat (zero_x o) (length y)).
  assert (A : fst (ksteps o m n omega y w0 (fk_state f, h1) (seq 0 k)) = fst (ksteps o m n omega y w0 (fk_state f, h2) (seq 0 k))).
  { apply ksteps_record; try reflexivity; unfold h1, h2; rewrite app_length, repeat_length; lia. }
  destruct (ksteps o m n omega y w0 (fk_state f, h1) (seq 0 k)) as [ra [sa ha]]. cbn [fst] in *.
  replace (length y) with (k + (length y - k))%nat at 1 by lia. rewrite seq_app, ksteps_app.
  pose proof (ksteps_rows o m n omega y w0 (seq 0 k) (fk_state f, h2)) as B. rewrite seq_length in B.
  destruct (ksteps o m n omega y w0 (fk_state f, h2) (seq 0 k)) as [rb sb]. cbn [fst] in *. subst ra.
  destruct (ksteps o m n omega y w0 sb _) as [r2 [s2 h3]]. cbn [fst]. rewrite firstn_app, B, Nat.sub_diag, firstn_O, app_nil_r, <- B, firstn_all. reflexivity.
Qed.
(** The forecast after an observation: a signal whose first value misses it by some amount, and a share of the smoothed amount, less and less along the horizon. *)
Lemma fk_row {X C} : forall (o : ops X C) m n_sa omega f y v fit, (0 < n_sa)%nat -> (0 < length (kw (fk_state f)))%nat ->
  (forall i x, length (synthesise o i x) = n_sa) ->
  exists signal eps before,
    length signal = n_sa /\ eps = omega * (v - nth 0 signal 0) + (1 - omega) * before /\
    (y = [] -> before = keps (fk_state f)) /\
    (fit = true -> keps (fk_state (snd (krun o m n_sa omega f (y ++ [v]) fit))) = eps) /\
    (forall h, (h < n_sa)%nat -> nth h (nth (length y) (fst (krun o m n_sa omega f (y ++ [v]) fit)) []) 0
       = nth h signal 0 + eps * (INR (n_sa - h) / INR n_sa) ^ 2).
Proof.
  intros o m n omega f y v fit Hn Hw L. unfold krun. rewrite app_length. cbn [length]. rewrite Nat.add_1_r, seq_S, ksteps_app. cbn [Nat.add].
  set (w0 := kw (fk_state f)) in *. set (sh := (fk_state f, _)). set (yv := y ++ [v]).
  pose proof (ksteps_rows o m n omega yv w0 (seq 0 (length y)) sh) as B. rewrite seq_length in B.
  destruct (ksteps o m n omega yv w0 sh (seq 0 (length y))) as [rb sb] eqn:E. cbn [fst] in B. cbn [ksteps]. unfold kstep.
  destruct (kalman_op o _ _ _ _ _) as [x P]. cbn [fst snd].
  exists (synthesise o (length y) x), (omega * (last (window_at yv w0 (length y)) 0 - hd 0 (synthesise o (length y) x)) + (1 - omega) * keps (fst sb)), (keps (fst sb)).
  assert (LW : last (window_at yv w0 (length y)) 0 = v).
  { rewrite window_last by (unfold yv; rewrite ?app_length; cbn; lia). unfold yv. rewrite firstn_app, firstn_all2 by lia.
    replace (length y + 1 - length y)%nat with 1%nat by lia. cbn [firstn]. unfold last_of.
    assert (G : forall l k, (k < length (l ++ [v]))%nat -> last (skipn k (l ++ [v])) 0 = v).
    { induction l as [|a l IH]; intros [|k] H; cbn [app length] in H; try lia; [reflexivity| |].
      - change (skipn 0 ((a :: l) ++ [v])) with ((a :: l) ++ [v]). apply last_last.
      - cbn [app skipn]. apply IH. lia. }
    rewrite app_assoc. apply G. rewrite <- app_assoc. fold w0. rewrite !app_length. cbn [length]. lia. }
  rewrite LW. repeat split.
  - apply L.
  - do 3 f_equal. destruct (synthesise o (length y) x); reflexivity.
  - intros ->. cbn in E. injection E as _ <-. reflexivity.
  - intros ->. reflexivity.
  - intros h Hh. rewrite app_nth2, B, Nat.sub_diag by lia. cbn [nth].
    set (sg := synthesise o (length y) x). assert (LS : length sg = n) by apply L. set (eps := _ + _ * keps (fst sb)).
    rewrite (nth_map_any _ _ _ (0%nat, 0)) by (rewrite combine_length, seq_length; lia).
    rewrite combine_nth by (rewrite seq_length; lia). rewrite seq_nth by lia. cbn [fst snd Nat.add].
    unfold Rdiv. rewrite Rpow_mult_distr, pow_inv. ring.
Qed.

(** * Units *)
Lemma window_map {V W} (f : V -> W) y w i : window_at (map f y) (map f w) i = map f (window_at y w i).
Proof.
  unfold window_at, recent_history. rewrite !map_length, !skipn_map, !firstn_map, !map_length.
  destruct (_ =? _)%nat; [reflexivity|]. now rewrite <- map_app, firstn_map, <- map_app.
Qed.
Lemma nth_times c s i : nth i (map (Rmult c) s) 0 = c * nth i s 0.
Proof. rewrite <- (Rmult_0_r c) at 1. apply map_nth. Qed.
Lemma coeffs_in c p i w : coeffs p i (map (Rmult c) w) = map (Rmult c) (coeffs p i w).
Proof.
  unfold coeffs. rewrite map_map. apply map_ext. intros j. rewrite <- rsum_scal. apply rsum_ext. intros r _. rewrite nth_times. ring.
Qed.
Lemma reconstruct_in c p i x : reconstruct p i (map (Rmult c) x) = map (Rmult c) (reconstruct p i x).
Proof.
  unfold reconstruct. rewrite map_map. apply map_ext. intros h. rewrite <- rsum_scal. apply rsum_ext. intros j _. rewrite nth_times. ring.
Qed.
Lemma mix_in c a u v : mix a (map (Rmult c) u) (map (Rmult c) v) = map (Rmult c) (mix a u v).
Proof. unfold mix. revert v. induction u as [|x u IH]; intros [|z v]; try reflexivity. cbn. rewrite IH. f_equal. ring. Qed.
Lemma corrected_in c p eps pr : corrected p (c * eps) (map (Rmult c) pr) = map (Rmult c) (corrected p eps pr).
Proof.
  unfold corrected. generalize (seq 0 (fsa p)). induction pr as [|a pr IH]; intros [|i l]; try reflexivity. cbn [map combine]. rewrite IH. f_equal. cbn [fst snd].
  unfold Rdiv. ring.
Qed.
Lemma last_times c l : last (map (Rmult c) l) 0 = c * last l 0.
Proof. induction l as [|a [|b l] IH]; [cbn; ring|reflexivity|]. exact IH. Qed.
Lemma hd_times c l : hd 0 (map (Rmult c) l) = c * hd 0 l.
Proof. destruct l; cbn; ring. Qed.
Definition state_times (c : R) (s : fstate) : fstate := FState (map (Rmult c) (fx s)) (c * feps s) (c * flast s) (map (Rmult c) (fw s)).
Lemma fstep_in c p y w0 s i : fstep p (map (Rmult c) y) (map (Rmult c) w0) (state_times c s) i
  = (state_times c (fst (fstep p y w0 s i)), map (Rmult c) (snd (fstep p y w0 s i))).
Proof.
  destruct s as [x e l w]. unfold fstep, state_times. cbn [fst snd fx feps flast fw]. rewrite window_map, coeffs_in, last_times, mix_in, reconstruct_in, hd_times.
  replace (fomega p * (c * last (window_at y w0 i) 0 - c * l) + (1 - fomega p) * (c * e))
    with (c * (fomega p * (last (window_at y w0 i) 0 - l) + (1 - fomega p) * e)) by ring.
  rewrite corrected_in. reflexivity.
Qed.
Lemma fsteps_in c p y w0 : forall is s, fsteps p (map (Rmult c) y) (map (Rmult c) w0) (state_times c s) is
  = (map (map (Rmult c)) (fst (fsteps p y w0 s is)), state_times c (snd (fsteps p y w0 s is))).
Proof.
  induction is as [|i is IH]; intros s; [reflexivity|]. cbn [fsteps]. rewrite fstep_in. destruct (fstep p y w0 s i) as [s1 r]. cbn [fst snd].
  rewrite IH. now destruct (fsteps p y w0 s1 is).
Qed.
Lemma fourier_units : forall c p st y fit,
  frun p (fourier_in c st) (map (Rmult c) y) fit = (map (map (Rmult c)) (fst (frun p st y fit)), fourier_in c (snd (frun p st y fit))).
Proof.
  intros c p st y fit. unfold frun. cbn [fourier_in st_w]. rewrite map_length.
  replace (fstart p _ (map (Rmult c) y)) with (state_times c (fstart p st y)).
  - rewrite fsteps_in. destruct (fsteps p y (st_w st) (fstart p st y) _) as [rows s]. cbn [fst snd]. f_equal. now destruct fit.
  - destruct st as [[x|] e l w]; unfold fstart, state_times, fourier_in; cbn [fx feps flast fw st_x st_eps st_last st_w option_map map]; [reflexivity|]. f_equal.
    rewrite hd_times. f_equal; [ring|]. generalize (2 * fharmonics p)%nat. intros n. induction n as [|n IH]; cbn; [reflexivity|]. now rewrite IH, Rmult_0_r.
Qed.
(** A new forecaster has no unit yet. *)
Lemma fresh_in c p : fourier_in c (fresh p) = fresh p.
Proof.
  unfold fourier_in, fresh. cbn. rewrite Rmult_0_r. f_equal. induction (fm p) as [|n IH]; cbn; [reflexivity|]. now rewrite IH, Rmult_0_r.
Qed.
Lemma fourier_units_fresh : forall c p y z,
  fst (frun p (snd (frun p (fresh p) (map (Rmult c) y) true)) (map (Rmult c) z) false) = map (map (Rmult c)) (fst (frun p (snd (frun p (fresh p) y true)) z false)).
Proof.
  intros c p y z. rewrite <- (fresh_in c p) at 1. rewrite fourier_units. cbn [snd]. now rewrite fourier_units.
Qed.

(** * Offsets *)
Lemma basis_constant m t : (0 < m)%nat -> basis m t 0 = / sqrt (INR m).
Proof.
  intros H. unfold basis. apply lt_0_INR in H. rewrite sqrt_div by lra. pose proof (sqrt_lt_R0 _ H). pose proof (sqrt_lt_R0 2 ltac:(lra)). field. split; lra.
Qed.
Lemma basis_sum m h s j : (2 * h < m)%nat -> (j < 2 * h + 1)%nat -> rsum (fun r => basis m (s + r) j) m = if (j =? 0)%nat then sqrt (INR m) else 0.
Proof.
  intros Hm Hj. assert (P : (0 < m)%nat) by lia. pose proof (lt_0_INR _ P) as P1. pose proof (sqrt_lt_R0 _ P1) as P2.
  pose proof (basis_orthonormal m h s 0 j Hm ltac:(lia) Hj) as O.
  rewrite (rsum_ext _ (fun r => / sqrt (INR m) * basis m (s + r) j)) in O by (intros i _; now rewrite basis_constant).
  rewrite rsum_scal, Nat.eqb_sym in O. destruct (j =? 0)%nat.
  - apply Rmult_eq_reg_l with (/ sqrt (INR m)); [rewrite O; field; lra|apply Rinv_neq_0_compat; lra].
  - apply Rmult_integral in O. destruct O as [O|O]; [|exact O]. pose proof (Rinv_0_lt_compat _ P2). lra.
Qed.
Lemma nth_moved d w i : (i < length w)%nat -> nth i (map (fun v => v + d) w) 0 = nth i w 0 + d.
Proof. intros H. now rewrite (nth_map_any _ _ _ 0) by exact H. Qed.
Lemma coeffs_moved d p i w : proper p -> length w = fm p ->
  coeffs p i (map (fun v => v + d) w) = constant_moved d (INR (fm p)) (coeffs p i w).
Proof.
  intros [Hp _] L. assert (G : forall j, (j < dim p)%nat -> rsum (fun r => basis (fm p) (i mod fm p + r) j * nth r (map (fun v => v + d) w) 0) (fm p)
    = rsum (fun r => basis (fm p) (i mod fm p + r) j * nth r w 0) (fm p) + d * (if (j =? 0)%nat then sqrt (INR (fm p)) else 0)).
  { intros j Hj. rewrite <- (basis_sum (fm p) (fharmonics p) (i mod fm p) j Hp Hj), <- rsum_scal, <- rsum_plus. apply rsum_ext. intros r Hr.
    rewrite nth_moved by lia. ring. }
  unfold coeffs, dim in *. rewrite Nat.add_1_r in *. cbn [seq map constant_moved]. f_equal; [apply (G 0%nat); lia|].
  apply map_ext_in. intros j Hj. apply in_seq in Hj. rewrite G by lia. destruct j as [|j]; [lia|]. cbn [Nat.eqb]. ring.
Qed.
Lemma mix_moved d m a u v : length u = length v -> mix a (constant_moved d m u) (constant_moved d m v) = constant_moved d m (mix a u v).
Proof. intros L. destruct u as [|x u], v as [|z v]; try discriminate; [reflexivity|]. cbn. f_equal. ring. Qed.
Lemma reconstruct_moved d p i x : proper p -> length x = dim p -> reconstruct p i (constant_moved d (INR (fm p)) x) = map (fun v => v + d) (reconstruct p i x).
Proof.
  intros [Hp _] L. unfold reconstruct. rewrite map_map. apply map_ext. intros h. destruct x as [|a x]; [unfold dim in L; cbn in L; lia|].
  cbn [constant_moved]. set (t := (_ + h)%nat).
  rewrite (rsum_ext _ (fun j => basis (fm p) t j * nth j (a :: x) 0 + (if (j =? 0)%nat then d else 0))).
  - rewrite rsum_plus. f_equal. rewrite (rsum_pick _ _ 0); [reflexivity|unfold dim; lia|]. intros j _ Hj. destruct j; [lia|reflexivity].
  - assert (P : 0 < INR (fm p)) by (apply lt_0_INR; lia). pose proof (sqrt_lt_R0 _ P). intros [|j] _; cbn [nth Nat.eqb]; [|ring].
    rewrite basis_constant by lia. field. lra.
Qed.
Lemma corrected_moved d p eps pr : corrected p eps (map (fun v => v + d) pr) = map (fun v => v + d) (corrected p eps pr).
Proof.
  unfold corrected. generalize (seq 0 (fsa p)). induction pr as [|a pr IH]; intros [|i l]; try reflexivity. cbn [map combine]. rewrite IH. f_equal. cbn [fst snd]. ring.
Qed.
Lemma last_moved d l : l <> [] -> last (map (fun v => v + d) l) 0 = last l 0 + d.
Proof. induction l as [|a [|b l] IH]; intros H; [congruence|reflexivity|]. apply IH. discriminate. Qed.
Definition state_moved (d : R) (p : fparams) (s : fstate) : fstate :=
  FState (constant_moved d (INR (fm p)) (fx s)) (feps s) (flast s + d) (map (fun v => v + d) (fw s)).
Lemma coeffs_length p i w : length (coeffs p i w) = dim p.
Proof. unfold coeffs. now rewrite map_length, seq_length. Qed.
Lemma mix_dim p a u v : length u = dim p -> length v = dim p -> length (mix a u v) = dim p.
Proof. intros A B. unfold mix. rewrite map_length, combine_length. lia. Qed.
Lemma fstep_moved d p y w0 s i : proper p -> length w0 = fm p -> (i < length y)%nat -> length (fx s) = dim p ->
  fstep p (map (fun v => v + d) y) (map (fun v => v + d) w0) (state_moved d p s) i
  = (state_moved d p (fst (fstep p y w0 s i)), map (fun v => v + d) (snd (fstep p y w0 s i))) /\
  length (fx (fst (fstep p y w0 s i))) = dim p.
Proof.
  intros Hp L Hi Hx. assert (P : (0 < fm p)%nat) by (destruct Hp; lia).
  assert (W : length (window_at y w0 i) = fm p) by (rewrite window_length; lia).
  assert (X : length (mix (falpha p) (coeffs p i (window_at y w0 i)) (fx s)) = dim p) by (apply mix_dim; [apply coeffs_length|exact Hx]).
  split; [|exact X]. destruct s as [x e l w]. unfold fstep, state_moved. cbn [fst snd fx feps flast fw] in *. rewrite window_map, coeffs_moved by assumption.
  rewrite mix_moved by (rewrite coeffs_length; lia). rewrite reconstruct_moved by assumption. rewrite last_moved by (intros E; rewrite E in W; cbn in W; lia).
  replace (last (window_at y w0 i) 0 + d - (l + d)) with (last (window_at y w0 i) 0 - l) by ring. rewrite corrected_moved.
  do 2 f_equal.
  destruct Hp as (_ & Hn & _). pose proof (reconstruct_length p i (mix (falpha p) (coeffs p i (window_at y w0 i)) x)) as RL.
  destruct (reconstruct p i _); [cbn in RL; lia|reflexivity].
Qed.
Lemma fsteps_moved d p y w0 : proper p -> length w0 = fm p -> forall is s, (forall i, In i is -> (i < length y)%nat) -> length (fx s) = dim p ->
  fsteps p (map (fun v => v + d) y) (map (fun v => v + d) w0) (state_moved d p s) is
  = (map (map (fun v => v + d)) (fst (fsteps p y w0 s is)), state_moved d p (snd (fsteps p y w0 s is))).
Proof.
  intros Hp L. induction is as [|i is IH]; intros s H Hx; [reflexivity|]. cbn [fsteps].
  destruct (fstep_moved d p y w0 s i Hp L (H i (or_introl eq_refl)) Hx) as [-> Hx1]. destruct (fstep p y w0 s i) as [s1 r]. cbn [fst snd] in *.
  rewrite IH; [|intros j Hj; apply H; now right|exact Hx1]. now destruct (fsteps p y w0 s1 is).
Qed.
Lemma fourier_offset : forall d p st y fit, proper p -> fourier_shaped p st -> y <> [] ->
  frun p (fourier_moved d p st) (map (fun v => v + d) y) fit
  = (map (map (fun v => v + d)) (fst (frun p st y fit)), fourier_moved d p (snd (frun p st y fit))).
Proof.
  intros d p st y fit Hp [Hw Hx] Hy. unfold frun. cbn [fourier_moved st_w]. rewrite map_length.
  replace (fstart p _ (map (fun v => v + d) y)) with (state_moved d p (fstart p st y)).
  - rewrite fsteps_moved; try assumption.
    + destruct (fsteps p y (st_w st) (fstart p st y) _) as [rows s]. cbn [fst snd]. f_equal. now destruct fit.
    + intros i Hi. apply in_seq in Hi. lia.
    + unfold fstart. cbn [fx]. destruct (st_x st) as [x|] eqn:E; [now apply Hx|]. cbn [length]. rewrite repeat_length. unfold dim. lia.
  - destruct st as [[x|] e l w]; unfold fstart, state_moved, fourier_moved; cbn [fx feps flast fw st_x st_eps st_last st_w option_map constant_moved]; [reflexivity|].
    f_equal. f_equal. destruct y; [congruence|]. cbn. ring.
Qed.
(** A new forecaster of windows of one value forecasts (1 + omega) times the value. *)
Lemma fourier_fresh_double : forall omega alpha v,
  fst (frun (FParams 1 1 1 0 alpha omega) (fresh (FParams 1 1 1 0 alpha omega)) [v] true) = [[(1 + omega) * v]].
Proof.
  intros omega alpha v. assert (B : forall t, basis 1 t 0 = 1) by (intros t; rewrite basis_constant by lia; cbn; rewrite sqrt_1; field).
  unfold frun, fresh, fstart. cbn -[basis sqrt]. rewrite !B, sqrt_1. do 2 f_equal. field.
Qed.
Lemma fourier_fresh_offset : forall omega alpha v d, omega <> 0 -> d <> 0 ->
  fst (frun (FParams 1 1 1 0 alpha omega) (fresh (FParams 1 1 1 0 alpha omega)) [v + d] true)
  <> map (map (fun w => w + d)) (fst (frun (FParams 1 1 1 0 alpha omega) (fresh (FParams 1 1 1 0 alpha omega)) [v] true)).
Proof.
  intros omega alpha v d Ho Hd. rewrite !fourier_fresh_double. cbn. intros E. injection E as E. assert (A : omega * d = 0) by lra. apply Rmult_integral in A. lra.
Qed.

(** * FK *)
Lemma ksteps_follow {X C} (o : ops X C) m n omega k d f y w0 : (0 < m)%nat -> (0 < n)%nat -> follows o m n k d f -> length w0 = m ->
  forall c i s h, (i + c <= length y)%nat -> (i + c <= length h)%nat ->
  fst (ksteps o m n omega (map (fun v => k * v + d) y) (map (fun v => k * v + d) w0) (fk_changed k d f s, map f h) (seq i c))
    = map (map (fun v => k * v + d)) (fst (ksteps o m n omega y w0 (s, h) (seq i c))) /\
  fst (snd (ksteps o m n omega (map (fun v => k * v + d) y) (map (fun v => k * v + d) w0) (fk_changed k d f s, map f h) (seq i c)))
    = fk_changed k d f (fst (snd (ksteps o m n omega y w0 (s, h) (seq i c)))).
Proof.
  intros Hm Hn F L. induction c as [|c IH]; intros i s h Hy Hh; [split; reflexivity|]. cbn [seq ksteps]. unfold kstep. cbn [fst snd].
  cbn [fk_changed kx kP kQ kR keps klast kw]. rewrite window_map.
  assert (W : length (window_at y w0 i) = m) by (rewrite window_length; lia).
  rewrite (analysis_follows _ _ _ _ _ _ F) by exact W. rewrite (filter_follows _ _ _ _ _ _ F).
  destruct (kalman_op o (kx s) (kP s) (kQ s) (kR s) (analyse o i (window_at y w0 i))) as [x P]. cbn [fst snd].
  rewrite (synthesis_follows _ _ _ _ _ _ F). set (w := window_at y w0 i) in *. set (pr := synthesise o i x).
  assert (LP : length pr = n) by apply (synthesis_length _ _ _ _ _ _ F).
  assert (HD : hd 0 (map (fun v => k * v + d) pr) = k * hd 0 pr + d) by (destruct pr; [cbn in LP; lia|reflexivity]).
  assert (LW : last (map (fun v => k * v + d) w) 0 = k * last w 0 + d).
  { clear - W Hm. assert (w <> []) by (destruct w; [cbn in W; lia|discriminate]). clear W. induction w as [|a [|b w] IH]; [congruence|reflexivity|]. apply IH. discriminate. }
  rewrite HD, LW. set (eps := omega * (last w 0 - hd 0 pr) + (1 - omega) * keps s).
  replace (omega * (k * last w 0 + d - (k * hd 0 pr + d)) + (1 - omega) * (k * keps s)) with (k * eps) by (unfold eps; ring).
  assert (HI : firstn i (map f h) ++ f x :: skipn (S i) (map f h) = map f (firstn i h ++ x :: skipn (S i) h)).
  { rewrite map_app, firstn_map. cbn [map]. now rewrite skipn_map. }
  rewrite HI. set (hist := firstn i h ++ x :: skipn (S i) h). rewrite firstn_map, (correlation_same _ _ _ _ _ _ F).
  set (Q := if ((i mod m =? 0)%nat && (m <=? i)%nat)%bool then corr_op o (firstn i hist) else kQ s). set (Rm := if ((i mod m =? 0)%nat && (m <=? i)%nat)%bool then rescale_op o Q else kR s).
  set (s1 := KState x P Q Rm eps (hd 0 pr) w).
  change (KState (f x) P Q Rm (k * eps) (k * hd 0 pr + d) (map (fun v => k * v + d) w)) with (fk_changed k d f s1).
  destruct (IH (S i) s1 hist) as [I1 I2]; [lia|unfold hist; rewrite set_length; lia|].
  destruct (ksteps o m n omega (map (fun v => k * v + d) y) (map (fun v => k * v + d) w0) (fk_changed k d f s1, map f hist) (seq (S i) c)) as [rs [s2 h2]].
  destruct (ksteps o m n omega y w0 (s1, hist) (seq (S i) c)) as [rs' [s2' h2']]. cbn [fst snd] in *. split; [|exact I2]. rewrite I1. cbn [map]. f_equal.
  generalize eps, (seq 0 n), pr. clear. intros eps l pr. revert l. induction pr as [|a pr IH]; intros [|j l]; try reflexivity. cbn [map combine]. rewrite IH. f_equal. cbn [fst snd]. unfold Rdiv. ring.
Qed.
Lemma fk_follows {X C} : forall (o : ops X C) m n_sa omega k d f obj obj' y fit, (0 < m)%nat -> (0 < n_sa)%nat ->
  follows o m n_sa k d f -> length (kw (fk_state obj)) = m -> fk_state obj' = fk_changed k d f (fk_state obj) ->
  fst (krun o m n_sa omega obj' (map (fun v => k * v + d) y) fit) = map (map (fun v => k * v + d)) (fst (krun o m n_sa omega obj y fit)) /\
  fk_state (snd (krun o m n_sa omega obj' (map (fun v => k * v + d) y) fit)) = fk_changed k d f (fk_state (snd (krun o m n_sa omega obj y fit))).
Proof.
  intros o m n omega k d f [s h] [s' h'] y fit Hm Hn F L E. cbn [fk_state] in *. subst s'. unfold krun. cbn [fk_state fk_history]. rewrite map_length.
  change (kw (fk_changed k d f s)) with (map (fun v => k * v + d) (kw s)).
  set (ha := h' ++ repeat (zero_x o) (length y)). set (hb := h ++ repeat (zero_x o) (length y)).
  destruct (ksteps_record o m n omega (map (fun v => k * v + d) y) (map (fun v => k * v + d) (kw s)) (length y) 0 (fk_changed k d f s) ha (map f hb)) as [A B];
    [unfold ha; rewrite app_length, repeat_length; lia|unfold hb; rewrite map_length, app_length, repeat_length; lia|reflexivity|].
  destruct (ksteps_follow o m n omega k d f y (kw s) Hm Hn F L (length y) 0 s hb) as [A2 B2]; [lia|unfold hb; rewrite app_length, repeat_length; lia|].
  destruct (ksteps o m n omega (map (fun v => k * v + d) y) (map (fun v => k * v + d) (kw s)) (fk_changed k d f s, ha) _) as [ra [sa ja]]. destruct (ksteps o m n omega (map (fun v => k * v + d) y) (map (fun v => k * v + d) (kw s)) (fk_changed k d f s, map f hb) _) as [rb [sb jb]].
  destruct (ksteps o m n omega y (kw s) (s, hb) _) as [rc [sc jc]]. cbn [fst snd fk_state] in *. subst. split; [reflexivity|]. now destruct fit.
Qed.
