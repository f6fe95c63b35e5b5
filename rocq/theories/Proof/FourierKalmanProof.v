From Coq Require Import Reals List Arith Bool Lia Lra.
From Verif Require Import Model.FourierEs Model.FourierKalman Model.Experts Spec.ExpertsSpec Proof.SeriesProof.
Import ListNotations.
Local Open Scope R_scope.

Lemma firstn_set {V} i (l : list V) v : (i <= length l)%nat -> firstn i (firstn i l ++ v :: skipn (S i) l) = firstn i l.
Proof. intros H. rewrite firstn_app, firstn_firstn, firstn_length_le, Nat.min_id, Nat.sub_diag by lia. cbn. apply app_nil_r. Qed.
Lemma set_length {V} i (l : list V) v : (i < length l)%nat -> length (firstn i l ++ v :: skipn (S i) l) = length l.
Proof. intros H. rewrite app_length. cbn [length]. rewrite firstn_length_le, skipn_length by lia. lia. Qed.

(** Rows and states do not depend on the record. *)
Lemma ksteps_record {X C} (o : ops X C) m n_sa omega y w0 k : forall i s h h',
  (i + k <= length h)%nat -> (i + k <= length h')%nat -> firstn i h = firstn i h' ->
  fst (ksteps o m n_sa omega y w0 (s, h) (seq i k)) = fst (ksteps o m n_sa omega y w0 (s, h') (seq i k)) /\
  fst (snd (ksteps o m n_sa omega y w0 (s, h) (seq i k))) = fst (snd (ksteps o m n_sa omega y w0 (s, h') (seq i k))).
Proof.
  induction k as [|k IH]; intros i s h h' L1 L2 E; cbn [seq ksteps]; [split; reflexivity|].
  unfold kstep. cbn [fst snd].
  destruct (kalman_op o (kx s) (kP s) (kQ s) (kR s) (analyse o i (window_at y w0 i))) as [x P]. cbn zeta.
  rewrite !firstn_set by lia. rewrite <- E.
  set (s1 := KState _ _ _ _ _ _ _).
  destruct (IH (S i) s1 (firstn i h ++ x :: skipn (S i) h) (firstn i h ++ x :: skipn (S i) h')) as [I1 I2].
  - rewrite set_length; lia.
  - rewrite app_length. cbn [length]. rewrite firstn_length_le, skipn_length by lia. lia.
  - rewrite !firstn_app, firstn_length_le by lia. replace (S i - i)%nat with 1%nat by lia. reflexivity.
  - destruct (ksteps o m n_sa omega y w0 (s1, firstn i h ++ x :: skipn (S i) h) (seq (S i) k)) as [rs [s2 h2]].
    destruct (ksteps o m n_sa omega y w0 (s1, firstn i h ++ x :: skipn (S i) h') (seq (S i) k)) as [rs' [s2' h2']]. cbn [fst snd] in *.
    now rewrite I1, I2.
Qed.
Lemma krun_record {X C} (o : ops X C) m n_sa omega s h h' y fit :
  fst (krun o m n_sa omega (Fk s h) y fit) = fst (krun o m n_sa omega (Fk s h') y fit) /\
  fk_state (snd (krun o m n_sa omega (Fk s h) y fit)) = fk_state (snd (krun o m n_sa omega (Fk s h') y fit)).
Proof.
  unfold krun. cbn [fk_state fk_history].
  destruct (ksteps_record o m n_sa omega y (kw s) (length y) 0 s (h ++ repeat (zero_x o) (length y)) (h' ++ repeat (zero_x o) (length y))) as [A B].
  - rewrite app_length, repeat_length. lia.
  - rewrite app_length, repeat_length. lia.
  - reflexivity.
  - destruct (ksteps _ _ _ _ _ _ (s, h ++ _) _) as [rs [s2 h2]]. destruct (ksteps _ _ _ _ _ _ (s, h' ++ _) _) as [rs' [s2' h2']].
    cbn [fst snd fk_state] in *. split; [exact A|]. now destruct fit.
Qed.
Lemma krun_predict_state {X C} (o : ops X C) m n_sa omega f y : fk_state (snd (krun o m n_sa omega f y false)) = fk_state f.
Proof. unfold krun. destruct (ksteps _ _ _ _ _ _ _ _) as [rs [s2 h2]]. reflexivity. Qed.
Lemma krun_same_state {X C} (o : ops X C) m n_sa omega f g y fit : fk_state f = fk_state g ->
  fst (krun o m n_sa omega f y fit) = fst (krun o m n_sa omega g y fit) /\
  fk_state (snd (krun o m n_sa omega f y fit)) = fk_state (snd (krun o m n_sa omega g y fit)).
Proof. destruct f as [s h], g as [s' h']. cbn [fk_state]. intros <-. apply krun_record. Qed.

Lemma after_state {X C} (o : ops X C) m n_sa omega cs : forall f g, fk_state f = fk_state g ->
  fk_state (after (krun o m n_sa omega) f cs) = fk_state (after (krun o m n_sa omega) g (filter is_fit cs)).
Proof.
  induction cs as [|c cs IH]; intros f g E; [exact E|]. cbn [after fold_left filter]. destruct c as [y|y]; cbn [is_fit].
  - cbn [fold_left]. apply IH. now apply krun_same_state.
  - apply IH. now rewrite krun_predict_state.
Qed.
Lemma fk_predict_pure {X C} (o : ops X C) m n_sa omega f cs y :
  fst (krun o m n_sa omega (after (krun o m n_sa omega) f cs) y false) =
  fst (krun o m n_sa omega (after (krun o m n_sa omega) f (filter is_fit cs)) y false).
Proof. apply krun_same_state. now apply after_state. Qed.
Lemma fourier_predict_pure p st cs y :
  fst (frun p (after (frun p) st cs) y false) = fst (frun p (after (frun p) st (filter is_fit cs)) y false).
Proof.
  assert (G : forall cs st, after (frun p) st cs = after (frun p) st (filter is_fit cs)).
  { clear. induction cs as [|c cs IH]; intros st; [reflexivity|]. cbn [after fold_left filter]. destruct c as [y|y]; cbn [is_fit]; [apply IH|].
    replace (snd (frun p st y false)) with st; [apply IH|]. unfold frun. now destruct (fsteps _ _ _ _ _). }
  now rewrite G.
Qed.

(** The record grows with every prediction. *)
Lemma ksteps_length {X C} (o : ops X C) m n_sa omega y w0 k : forall i s h, (i + k <= length h)%nat ->
  length (snd (snd (ksteps o m n_sa omega y w0 (s, h) (seq i k)))) = length h.
Proof.
  induction k as [|k IH]; intros i s h L; cbn [seq ksteps]; [reflexivity|]. unfold kstep. cbn [fst snd].
  destruct (kalman_op o (kx s) (kP s) (kQ s) (kR s) (analyse o i (window_at y w0 i))) as [x P]. cbn zeta.
  set (s1 := KState _ _ _ _ _ _ _). specialize (IH (S i) s1 (firstn i h ++ x :: skipn (S i) h)). rewrite set_length in IH by lia.
  specialize (IH ltac:(lia)). destruct (ksteps o m n_sa omega y w0 (s1, firstn i h ++ x :: skipn (S i) h) (seq (S i) k)) as [rs [s2 h2]].
  exact IH.
Qed.
Lemma fk_record_grows {X C} (o : ops X C) m n_sa omega f y fit :
  length (fk_history (snd (krun o m n_sa omega f y fit))) = (length (fk_history f) + length y)%nat.
Proof.
  unfold krun. pose proof (ksteps_length o m n_sa omega y (kw (fk_state f)) (length y) 0 (fk_state f) (fk_history f ++ repeat (zero_x o) (length y))) as L.
  rewrite app_length, repeat_length in L. specialize (L ltac:(lia)). destruct (ksteps _ _ _ _ _ _ _ _) as [rs [s2 h2]]. exact L.
Qed.
Lemma fk_record_unbounded {X C} (o : ops X C) m n_sa omega f y k :
  length (fk_history (after (krun o m n_sa omega) f (repeat (Predict y) k))) = (length (fk_history f) + k * length y)%nat.
Proof.
  revert f. induction k as [|k IH]; intros f; [cbn; lia|]. cbn [repeat after fold_left]. fold (after (krun o m n_sa omega)). 
  etransitivity; [apply IH|]. rewrite fk_record_grows. lia.
Qed.

(** ** Experts *)
Lemma add_up_zeros k n : add_up (map (fun _ : nat => 0) (seq k n)) = 0.
Proof. revert k. unfold add_up. induction n as [|n IH]; intros k; [reflexivity|]. cbn. rewrite IH. lra. Qed.
Lemma nth_map_any {A B} (f : A -> B) l k d d' : (k < length l)%nat -> nth k (map f l) d' = f (nth k l d).
Proof. intros H. rewrite (nth_indep _ d' (f d)) by now rewrite map_length. apply map_nth. Qed.
Lemma add_up_nonneg l : Forall (fun v => 0 <= v) l -> 0 <= add_up l.
Proof. unfold add_up. induction 1 as [|v l Hv _ IH]; cbn; lra. Qed.
Lemma add_up_scal c l : add_up (map (fun v => c * v) l) = c * add_up l.
Proof. unfold add_up. induction l as [|v l IH]; cbn; [lra|]. rewrite IH. lra. Qed.
Lemma weights_probability c w : weights c = Some w -> probability w /\ length w = length c.
Proof.
  unfold weights. destruct (Req_EM_T _ 0) as [E|E]; [discriminate|]. intros [= <-]. split; [|apply map_length].
  assert (0 <= add_up (map Rabs c)) by (apply add_up_nonneg; apply Forall_forall; intros v Hv; apply in_map_iff in Hv; destruct Hv as [x [<- _]]; apply Rabs_pos).
  set (s := add_up (map Rabs c)) in *. split.
  - apply Forall_forall. intros v Hv. apply in_map_iff in Hv. destruct Hv as [x [<- _]]. apply Rabs_pos.
  - fold (add_up (map (fun x => Rabs (x / s)) c)). rewrite (map_ext _ (fun x => / s * Rabs x)).
    + rewrite <- (map_map Rabs (fun v => / s * v)), add_up_scal. fold s. field. exact E.
    + intros x. unfold Rdiv. rewrite Rabs_mult, (Rabs_pos_eq (/ s)); [ring|]. apply Rlt_le, Rinv_0_lt_compat. lra.
Qed.

Lemma combine_hull l : forall w, length w = length l -> Forall (fun v => 0 <= v) w -> l <> [] ->
  let v := add_up (map (fun ab => fst ab * snd ab) (combine l w)) in
  (exists a, In a l /\ a * add_up w <= v) /\ (exists b, In b l /\ v <= b * add_up w).
Proof.
  cbn zeta. induction l as [|x l IH]; intros w Hl Hw Hne; [congruence|].
  destruct w as [|u w]; [discriminate|]. inversion Hw as [|? ? Hu Hw']; subst. injection Hl as Hl.
  cbn [combine map add_up fold_right fst snd]. fold (add_up w). fold (add_up (map (fun ab => fst ab * snd ab) (combine l w))).
  destruct l as [|x' l].
  - destruct w; [|discriminate]. cbn. split; exists x; (split; [now left|lra]).
  - destruct (IH w Hl Hw') as [[a [Ha1 Ha2]] [b [Hb1 Hb2]]]; [discriminate|].
    set (T := add_up (map _ _)) in *. pose proof (add_up_nonneg w Hw'). split.
    + destruct (Rle_dec a x); [exists a|exists x]; (split; [cbn in *; tauto|nra]).
    + destruct (Rle_dec x b); [exists b|exists x]; (split; [cbn in *; tauto|nra]).
Qed.
Lemma experts_hull preds c w : weights c = Some w -> Forall (fun row => length row = length c) preds -> c <> [] ->
  length (combine_experts preds w) = length preds /\
  forall h, (h < length preds)%nat -> in_hull (nth h preds []) (nth h (combine_experts preds w) 0).
Proof.
  intros Hw Hp Hc. destruct (weights_probability c w Hw) as [[W1 W2] W3]. unfold combine_experts. split; [apply map_length|].
  intros h Hh. rewrite Forall_forall in Hp. specialize (Hp (nth h preds []) (nth_In _ _ Hh)).
  rewrite (nth_map_any _ _ _ []) by exact Hh. destruct (combine_hull (nth h preds []) w) as [[a [A1 A2]] [b [B1 B2]]]; [congruence|exact W1|destruct (nth h preds []); [destruct c; [congruence|discriminate]|discriminate]|].
  fold (add_up w) in W2. rewrite W2 in *. split; [exists a|exists b]; (split; [assumption|lra]).
Qed.

Lemma expert_coeffs_probability n_sa n preds y i w : expert_coeffs n_sa n preds y i = Some w -> probability w /\ length w = n /\ Forall (fun v => 0 < v) w.
Proof.
  unfold expert_coeffs. destruct (Req_EM_T _ 0) as [E|E]; [discriminate|]. intros [= <-].
  set (err := map (expert_error n_sa preds y i) (seq 0 n)) in *. set (e := map _ err).
  assert (Le : length e = n) by (unfold e, err; now rewrite !map_length, seq_length).
  assert (Pe : Forall (fun v => 0 < v) e) by (apply Forall_forall; intros v Hv; apply in_map_iff in Hv; destruct Hv as [x [<- _]]; apply exp_pos).
  assert (n <> 0)%nat. { intros ->. apply E. unfold err. cbn. lra. }
  assert (S : 0 < add_up e).
  { destruct Pe as [|v l Hv Hl]; [cbn in Le; lia|]. cbn. assert (0 <= add_up l) by (apply add_up_nonneg; eapply Forall_impl; [|exact Hl]; intros; cbn in *; lra). unfold add_up in *. lra. }
  assert (Pw : Forall (fun v => 0 < v) (map (fun v => v / add_up e) e)).
  { apply Forall_forall. intros v Hv. apply in_map_iff in Hv. destruct Hv as [x [<- Hx]]. rewrite Forall_forall in Pe. specialize (Pe x Hx). apply Rdiv_lt_0_compat; assumption. }
  split; [split|split].
  - eapply Forall_impl; [|exact Pw]. cbn. intros. lra.
  - fold (add_up (map (fun v => v / add_up e) e)). rewrite (map_ext _ (fun v => / add_up e * v)) by (intros; unfold Rdiv; ring). rewrite add_up_scal. field. lra.
  - now rewrite map_length.
  - exact Pw.
Qed.

Lemma error_late n_sa preds y i e : (0 < n_sa)%nat -> (n_sa <= S i)%nat -> one_step_late n_sa preds y e -> expert_error n_sa preds y i e = 0.
Proof.
  intros Hn Hi H. unfold expert_error. replace (map _ _) with (map (fun _ : nat => 0) (seq 0 n_sa)).
  - rewrite add_up_zeros. unfold Rdiv. ring.
  - apply map_ext_in. intros sa Hs. apply in_seq in Hs. rewrite H by lia. replace (i - sa + sa)%nat with i by lia. now rewrite Rminus_diag_eq, Rabs_R0.
Qed.
Lemma error_perfect n_sa preds y i e : (0 < n_sa)%nat -> (n_sa <= S i)%nat -> perfect n_sa preds y e -> expert_error n_sa preds y i e = Rabs (y (S i) - y i).
Proof.
  intros Hn Hi H. unfold expert_error. replace (map _ _) with (map (fun _ : nat => Rabs (y (S i) - y i)) (seq 0 n_sa)).
  - replace (add_up (map (fun _ : nat => Rabs (y (S i) - y i)) (seq 0 n_sa))) with (INR n_sa * Rabs (y (S i) - y i)).
    + field. apply not_0_INR. lia.
    + generalize 0%nat. clear. unfold add_up. induction n_sa as [|n IH]; intros k; [cbn; lra|]. cbn [seq map fold_right]. rewrite <- IH. rewrite S_INR. lra.
  - apply map_ext_in. intros sa Hs. apply in_seq in Hs. rewrite H by lia. now replace (i - sa + 1 + sa)%nat with (S i) by lia.
Qed.

(** The expert that is one step late gets more weight than the one that is right. *)
Lemma late_expert_preferred n_sa n preds y i a b w : (0 < n_sa)%nat -> (n_sa <= S i)%nat -> (a < n)%nat -> (b < n)%nat ->
  perfect n_sa preds y a -> one_step_late n_sa preds y b -> y (S i) <> y i ->
  expert_coeffs n_sa n preds y i = Some w -> nth a w 0 < nth b w 0.
Proof.
  intros Hn Hi Ha Hb HA HB Hy. unfold expert_coeffs. destruct (Req_EM_T _ 0) as [E|E]; [discriminate|]. intros [= <-].
  set (err := map (expert_error n_sa preds y i) (seq 0 n)) in *. set (mean := add_up err / INR n) in *. set (e := map _ err).
  assert (Le : length err = n) by (unfold err; now rewrite map_length, seq_length).
  assert (Pe : Forall (fun v => 0 < v) e) by (apply Forall_forall; intros v Hv; apply in_map_iff in Hv; destruct Hv as [x [<- _]]; apply exp_pos).
  assert (S : 0 < add_up e).
  { assert (Le' : length e = n) by (unfold e; now rewrite map_length). destruct Pe as [|v l Hv Hl]; [cbn in Le'; lia|]. cbn. assert (0 <= add_up l) by (apply add_up_nonneg; eapply Forall_impl; [|exact Hl]; intros; cbn in *; lra). unfold add_up in *. lra. }
  assert (N : forall k, (k < n)%nat -> nth k (map (fun v => v / add_up e) e) 0 = exp (- (expert_error n_sa preds y i k / mean)) / add_up e).
  { intros k Hk. rewrite (nth_map_any _ e k 0) by (unfold e; rewrite map_length; lia). f_equal.
    unfold e. rewrite (nth_map_any _ err k 0) by lia. do 3 f_equal.
    unfold err. rewrite (nth_map_seq (expert_error n_sa preds y i)) by exact Hk. reflexivity. }
  rewrite !N by assumption. rewrite (error_late _ _ _ _ b), (error_perfect _ _ _ _ a) by assumption.
  assert (0 < Rabs (y (Datatypes.S i) - y i)) by (apply Rabs_pos_lt; lra).
  assert (P0 : Forall (fun v => 0 <= v) err).
  { apply Forall_forall. intros v Hv. apply in_map_iff in Hv. destruct Hv as [x [<- _]]. unfold expert_error. apply Rmult_le_pos; [|apply Rlt_le, Rinv_0_lt_compat, lt_0_INR; lia].
    apply add_up_nonneg, Forall_forall. intros v Hv. apply in_map_iff in Hv. destruct Hv as [z [<- _]]. apply Rabs_pos. }
  assert (0 < mean).
  { assert (0 <= mean) by (apply Rmult_le_pos; [now apply add_up_nonneg|apply Rlt_le, Rinv_0_lt_compat, lt_0_INR; lia]). lra. }
  apply Rmult_lt_compat_r; [now apply Rinv_0_lt_compat|]. apply exp_increasing. unfold Rdiv. rewrite Rmult_0_l.
  assert (0 < Rabs (y (Datatypes.S i) - y i) * / mean) by (apply Rmult_lt_0_compat; [assumption|now apply Rinv_0_lt_compat]). lra.
Qed.

(** When no expert has an error, the weights are 0/0. *)
Lemma no_error_no_weights n_sa n preds y i : (forall e, (e < n)%nat -> expert_error n_sa preds y i e = 0) -> expert_coeffs n_sa n preds y i = None.
Proof.
  intros H. unfold expert_coeffs. destruct (Req_EM_T _ 0) as [E|E]; [reflexivity|]. exfalso. apply E.
  replace (map (expert_error n_sa preds y i) (seq 0 n)) with (map (fun _ : nat => 0) (seq 0 n)).
  - rewrite add_up_zeros. unfold Rdiv. ring.
  - apply map_ext_in. intros e He. apply in_seq in He. now rewrite H by lia.
Qed.

(** Every combined forecast is NaN or within the experts' range. *)
Lemma mix_rows_hull {K} (kal : K -> option (list R) -> option (list R) -> K * option (list R)) n_sa n preds y :
  (0 < n)%nat -> (forall st x z, (forall v, x = Some v -> length v = n) -> (forall v, z = Some v -> length v = n) -> forall v, snd (kal st x z) = Some v -> length v = n) ->
  forall rows st x, (forall v, x = Some v -> length v = n) ->
  length (mix_rows kal n_sa n preds y st x rows) = length rows /\
  forall k row, nth_error (mix_rows kal n_sa n preds y st x rows) k = Some (Some row) ->
    length row = n_sa /\
    forall h, (h < n_sa)%nat -> in_hull (map (preds (nth k rows 0%nat) h) (seq 0 n)) (nth h row 0).
Proof.
  intros Hn HK. induction rows as [|i rows IH]; intros st x Hx; [split; [reflexivity|intros [|k] row; discriminate]|].
  cbn [mix_rows]. set (z := if (n_sa <=? i)%nat then _ else x).
  assert (Hz : forall v, z = Some v -> length v = n).
  { unfold z. destruct (n_sa <=? i)%nat; [|exact Hx]. intros v Hv. now apply expert_coeffs_probability in Hv. }
  pose proof (HK st x z Hx Hz) as Hx'. destruct (kal st x z) as [st' x'] eqn:E. cbn [snd] in Hx'.
  destruct (IH st' x' Hx') as [IL IH']. split; [cbn [length]; now rewrite IL|].
  intros [|k] row; cbn [nth_error nth]; [|apply IH'].
  destruct (choose x' z) as [c|] eqn:Ec; [|discriminate]. destruct (weights c) as [w|] eqn:Ew; [|discriminate]. cbn [option_map]. intros [= <-].
  assert (Lc : length c = n). { unfold choose in Ec. destruct x' as [v|]; [injection Ec as <-; now apply Hx'|now apply Hz]. }
  destruct (experts_hull (map (fun h => map (preds i h) (seq 0 n)) (seq 0 n_sa)) c w Ew) as [L Hh].
  - apply Forall_forall. intros r Hr. apply in_map_iff in Hr. destruct Hr as [h [<- _]]. now rewrite map_length, seq_length.
  - intros ->. cbn in Lc. lia.
  - rewrite map_length, seq_length in L. split; [exact L|]. intros h H. specialize (Hh h). rewrite map_length, seq_length in Hh. specialize (Hh H).
    rewrite (nth_map_seq (fun h => map (preds i h) (seq 0 n))) in Hh by exact H. exact Hh.
Qed.

(** A row where no expert has an error is NaN. *)
Lemma mix_rows_nan {K} (kal : K -> option (list R) -> option (list R) -> K * option (list R)) n_sa n preds y :
  (forall st x, snd (kal st x None) = None) ->
  forall rows st x k, (k < length rows)%nat -> (n_sa <= nth k rows 0)%nat ->
  (forall e sa, (e < n)%nat -> (sa < n_sa)%nat -> preds (nth k rows 0 - sa)%nat sa e = y (nth k rows 0%nat)) ->
  nth_error (mix_rows kal n_sa n preds y st x rows) k = Some None.
Proof.
  intros HK. induction rows as [|i rows IH]; intros st x k Hk Hi He; [cbn in Hk; lia|]. cbn [mix_rows].
  destruct k as [|k]; cbn [nth] in *.
  - apply Nat.leb_le in Hi. rewrite Hi. rewrite no_error_no_weights.
    + pose proof (HK st x) as E. destruct (kal st x None) as [st' x']. cbn [snd] in E. subst x'. reflexivity.
    + intros e H. unfold expert_error. replace (map _ _) with (map (fun _ : nat => 0) (seq 0 n_sa)).
      * rewrite add_up_zeros. unfold Rdiv. ring.
      * apply map_ext_in. intros sa Hs. apply in_seq in Hs. rewrite He by lia. now rewrite Rminus_diag_eq, Rabs_R0.
  - destruct (kal st x _) as [st' x']. cbn [nth_error]. apply IH; [cbn in Hk; lia|exact Hi|exact He].
Qed.
(** Experts are ranked by the distance between their forecasts of the next value and the present one. *)
Lemma expert_error_distance n_sa preds y i e : expert_error n_sa preds y i e = mean_distance n_sa preds (S i) (y i) e.
Proof. unfold expert_error, mean_distance, add_up. f_equal. f_equal. apply map_ext. intros h. now replace (S i - 1 - h)%nat with (i - h)%nat by lia. Qed.
Lemma expert_error_nonneg n_sa preds y i e : 0 <= expert_error n_sa preds y i e.
Proof.
  unfold expert_error. destruct n_sa as [|n]; [cbn; unfold Rdiv; rewrite Rmult_0_l; lra|]. apply Rmult_le_pos; [|apply Rlt_le, Rinv_0_lt_compat, lt_0_INR; lia].
  apply add_up_nonneg, Forall_forall. intros v Hv. apply in_map_iff in Hv. destruct Hv as [z [<- _]]. apply Rabs_pos.
Qed.
Lemma experts_ranked n_sa n preds y i a b w : (a < n)%nat -> (b < n)%nat -> expert_coeffs n_sa n preds y i = Some w ->
  (nth a w 0 < nth b w 0 <-> mean_distance n_sa preds (S i) (y i) b < mean_distance n_sa preds (S i) (y i) a).
Proof.
  intros Ha Hb. rewrite <- !expert_error_distance. unfold expert_coeffs. destruct (Req_EM_T _ 0) as [E|E]; [discriminate|]. intros [= <-].
  set (err := map (expert_error n_sa preds y i) (seq 0 n)) in *. set (mean := add_up err / INR n) in *. set (e := map _ err).
  assert (Le : length err = n) by (unfold err; now rewrite map_length, seq_length).
  assert (Pe : Forall (fun v => 0 < v) e) by (apply Forall_forall; intros v Hv; apply in_map_iff in Hv; destruct Hv as [x [<- _]]; apply exp_pos).
  assert (S : 0 < add_up e).
  { assert (Le' : length e = n) by (unfold e; now rewrite map_length). destruct Pe as [|v l Hv Hl]; [cbn in Le'; lia|]. cbn. assert (0 <= add_up l) by (apply add_up_nonneg; eapply Forall_impl; [|exact Hl]; intros; cbn in *; lra). unfold add_up in *. lra. }
  assert (N : forall k, (k < n)%nat -> nth k (map (fun v => v / add_up e) e) 0 = exp (- (expert_error n_sa preds y i k / mean)) / add_up e).
  { intros k Hk. rewrite (nth_map_any _ e k 0) by (unfold e; rewrite map_length; lia). f_equal.
    unfold e. rewrite (nth_map_any _ err k 0) by lia. do 3 f_equal.
    unfold err. rewrite (nth_map_seq (expert_error n_sa preds y i)) by exact Hk. reflexivity. }
  rewrite !N by assumption.
  assert (P0 : Forall (fun v => 0 <= v) err) by (apply Forall_forall; intros v Hv; apply in_map_iff in Hv; destruct Hv as [x [<- _]]; apply expert_error_nonneg).
  assert (0 < mean).
  { assert (0 <= mean) by (apply Rmult_le_pos; [now apply add_up_nonneg|apply Rlt_le, Rinv_0_lt_compat, lt_0_INR; lia]). lra. }
  set (u := expert_error n_sa preds y i a). set (v := expert_error n_sa preds y i b). pose proof (Rinv_0_lt_compat _ S). pose proof (Rinv_0_lt_compat mean H).
  split; intros Q.
  - apply (Rmult_lt_reg_r (/ add_up e)) in Q; [|assumption]. apply exp_lt_inv in Q. apply Ropp_lt_cancel in Q. now apply (Rmult_lt_reg_r (/ mean)) in Q.
  - apply Rmult_lt_compat_r; [assumption|]. apply exp_increasing, Ropp_lt_contravar. now apply Rmult_lt_compat_r.
Qed.
Lemma experts_ranked_flat n_sa n preds y i a b w : (a < n)%nat -> (b < n)%nat -> expert_coeffs n_sa n preds y i = Some w -> y (S i) = y i ->
  (nth a w 0 < nth b w 0 <-> mean_distance n_sa preds (S i) (y (S i)) b < mean_distance n_sa preds (S i) (y (S i)) a).
Proof. intros Ha Hb H E. rewrite E. now apply experts_ranked with (n := n). Qed.
(** There are weights unless all experts agree with the present value. *)
Lemma experts_numbers n_sa n preds y i : (0 < n)%nat -> (0 < n_sa)%nat ->
  (expert_coeffs n_sa n preds y i = None <-> forall e h, (e < n)%nat -> (h < n_sa)%nat -> preds (i - h)%nat h e = y i).
Proof.
  intros Hn Hs.
  assert (Z : forall l : list R, Forall (fun v => 0 <= v) l -> add_up l = 0 -> Forall (fun v => v = 0) l).
  { induction 1 as [|v l Hv Hl IH]; [constructor|]. intros E. pose proof (add_up_nonneg l Hl). unfold add_up in *. cbn in E. constructor; [lra|apply IH; lra]. }
  split.
  - unfold expert_coeffs. destruct (Req_EM_T _ 0) as [E|E]; [|discriminate]. intros _ e h He Hh.
    assert (E' : add_up (map (expert_error n_sa preds y i) (seq 0 n)) = 0).
    { apply (Rmult_eq_reg_r (/ INR n)); [rewrite Rmult_0_l; exact E|]. apply Rinv_neq_0_compat, not_0_INR. lia. }
    apply Z in E'; [|apply Forall_forall; intros v Hv; apply in_map_iff in Hv; destruct Hv as [x [<- _]]; apply expert_error_nonneg].
    rewrite Forall_forall in E'. specialize (E' (expert_error n_sa preds y i e) ltac:(apply in_map, in_seq; lia)). unfold expert_error in E'.
    assert (E2 : add_up (map (fun sa => Rabs (preds (i - sa)%nat sa e - y i)) (seq 0 n_sa)) = 0).
    { apply (Rmult_eq_reg_r (/ INR n_sa)); [rewrite Rmult_0_l; exact E'|]. apply Rinv_neq_0_compat, not_0_INR. lia. }
    apply Z in E2; [|apply Forall_forall; intros v Hv; apply in_map_iff in Hv; destruct Hv as [x [<- _]]; apply Rabs_pos].
    rewrite Forall_forall in E2. specialize (E2 (Rabs (preds (i - h)%nat h e - y i)) ltac:(apply (in_map (fun sa => Rabs (preds (i - sa)%nat sa e - y i))), in_seq; lia)).
    destruct (Req_dec (preds (i - h)%nat h e - y i) 0) as [Q|Q]; [lra|]. apply Rabs_no_R0 in Q. congruence.
  - intros H. apply no_error_no_weights. intros e He. unfold expert_error. replace (map _ _) with (map (fun _ : nat => 0) (seq 0 n_sa)); [rewrite add_up_zeros; unfold Rdiv; ring|].
    apply map_ext_in. intros h Hh. apply in_seq in Hh. rewrite H by lia. now rewrite Rminus_diag_eq, Rabs_R0.
Qed.
