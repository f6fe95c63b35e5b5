From Coq Require Import Reals List Arith Bool Lia Lra.
From Verif Require Import Model.FourierEs Model.Activations Model.Picnn Spec.ActivationsSpec Spec.PicnnSpec Proof.FourierProof Proof.ActivationsProof.
Import ListNotations.
Local Open Scope R_scope.

Lemma rsum_le f g n : (forall i, (i < n)%nat -> f i <= g i) -> rsum f n <= rsum g n.
Proof. induction n as [|n IH]; intros H; cbn; [lra|]. pose proof (H n ltac:(lia)). pose proof (IH ltac:(intros; apply H; lia)). lra. Qed.
Lemma relu_nonneg x : 0 <= relu x. Proof. unfold relu. apply Rmax_l. Qed.
Lemma relu_nondecreasing : nondecreasing relu.
Proof. intros x y H. unfold relu. apply Rle_max_compat_l. exact H. Qed.
Lemma relu_convex : convex1 relu.
Proof.
  intros t a b Ht. unfold relu. apply Rmax_lub.
  - assert (0 <= t * Rmax 0 a) by (apply Rmult_le_pos; [lra|apply Rmax_l]). assert (0 <= (1 - t) * Rmax 0 b) by (apply Rmult_le_pos; [lra|apply Rmax_l]). lra.
  - assert (t * a <= t * Rmax 0 a) by (apply Rmult_le_compat_l; [lra|apply Rmax_r]). assert ((1 - t) * b <= (1 - t) * Rmax 0 b) by (apply Rmult_le_compat_l; [lra|apply Rmax_r]). lra.
Qed.
Lemma sigmoid_nondecreasing : nondecreasing sigmoid.
Proof.
  intros x y H. unfold sigmoid, Rdiv. rewrite !Rmult_1_l. apply Rinv_le_contravar; [pose proof (exp_pos (- y)); lra|].
  destruct H as [H| ->]; [|lra]. pose proof (exp_increasing (- y) (- x) ltac:(lra)). lra.
Qed.
Lemma sigmoid_pos x : 0 < sigmoid x. Proof. unfold sigmoid. apply Rdiv_lt_0_compat; [lra|]. pose proof (exp_pos (- x)). lra. Qed.

Lemma control_mix o n t a b j : control o n (mix t a b) j = t * control o n a j + (1 - t) * control o n b j.
Proof. unfold control, mix. destruct (augment o); [|reflexivity]. destruct (j <? n)%nat; ring. Qed.
Lemma mixed_convex o n w u t y1 y2 z z1 z2 k : 0 <= t <= 1 -> nonneg (wz w) -> (forall j, z j <= t * z1 j + (1 - t) * z2 j) ->
  mixed o n w (mix t y1 y2) u z k <= t * mixed o n w y1 u z1 k + (1 - t) * mixed o n w y2 u z2 k.
Proof.
  intros Ht Hw Hz. unfold mixed.
  set (g := fun j => relu (dense (wzu w) (bzu w) (x_in w) u j)). set (r := fun j => rec_fun o (dense (wyu w) (byu w) (x_in w) u j)). set (c := dense (wuz w) (buz w) (x_in w) u k).
  assert (A : rsum (fun j => wz w j k * (z j * g j)) (z_in w) <= t * rsum (fun j => wz w j k * (z1 j * g j)) (z_in w) + (1 - t) * rsum (fun j => wz w j k * (z2 j * g j)) (z_in w)).
  { rewrite <- !rsum_scal, <- rsum_plus. apply rsum_le. intros j _. pose proof (relu_nonneg (dense (wzu w) (bzu w) (x_in w) u j)) as Hg. fold (g j) in Hg.
    assert (z j * g j <= (t * z1 j + (1 - t) * z2 j) * g j) by (apply Rmult_le_compat_r; [exact Hg|apply Hz]).
    assert (wz w j k * (z j * g j) <= wz w j k * ((t * z1 j + (1 - t) * z2 j) * g j)) by (apply Rmult_le_compat_l; [apply Hw|assumption]). lra. }
  assert (B : rsum (fun j => wy w j k * (control o n (mix t y1 y2) j * r j)) (y_in w) = t * rsum (fun j => wy w j k * (control o n y1 j * r j)) (y_in w) + (1 - t) * rsum (fun j => wy w j k * (control o n y2 j * r j)) (y_in w)).
  { rewrite <- !rsum_scal, <- rsum_plus. apply rsum_ext. intros j _. rewrite control_mix. ring. }
  unfold g in A. unfold r in B. cbv beta in A, B. rewrite B. lra.
Qed.
Lemma net_convex o n hs last : bounds o = None -> nondecreasing (act_fun o) -> convex1 (act_fun o) -> Forall (fun w => nonneg (wz w)) hs -> nonneg (wz last) ->
  forall u t y1 y2 z z1 z2 k, 0 <= t <= 1 -> (forall j, z j <= t * z1 j + (1 - t) * z2 j) ->
  net o n hs last (mix t y1 y2) u z k <= t * net o n hs last y1 u z1 k + (1 - t) * net o n hs last y2 u z2 k.
Proof.
  intros Hb Hm Hc Hh Hl. induction Hh as [|w hs Hw _ IH]; intros u t y1 y2 z z1 z2 k Ht Hz; cbn [net].
  - unfold output. rewrite Hb. now apply mixed_convex.
  - apply IH; [exact Ht|]. intros j. unfold hidden. eapply Rle_trans; [apply Hm; apply (mixed_convex o n w u t y1 y2 z z1 z2 j Ht Hw Hz)|]. now apply Hc.
Qed.
Lemma picnn_convex o n hs last x k : bounds o = None -> nondecreasing (act_fun o) -> convex1 (act_fun o) -> Forall (fun w => nonneg (wz w)) (hs ++ [last]) ->
  convex (fun y => picnn o n hs last x y k).
Proof.
  intros Hb Hm Hc Hf t a b Ht. apply Forall_app in Hf. destruct Hf as [Hh Hl]. inversion Hl; subst. unfold picnn. apply net_convex; auto. intros j. lra.
Qed.

(** Monotone networks *)
Lemma mixed_monotone o n w u y1 y2 z1 z2 k : augment o = false -> (forall v, 0 <= rec_fun o v) -> nonneg (wz w) -> nonneg (wy w) ->
  (forall j, y1 j <= y2 j) -> (forall j, z1 j <= z2 j) -> mixed o n w y1 u z1 k <= mixed o n w y2 u z2 k.
Proof.
  intros Ha Hr Hz Hy Ly Lz. unfold mixed, control. rewrite Ha. apply Rplus_le_compat_r. apply Rplus_le_compat; apply rsum_le; intros j _; (apply Rmult_le_compat_l; [auto|]); apply Rmult_le_compat_r; auto. apply relu_nonneg.
Qed.
Lemma picnn_monotone o n hs last x k : augment o = false -> (forall v, 0 <= rec_fun o v) -> nondecreasing (act_fun o) ->
  (forall lo hi, bounds o = Some (lo, hi) -> forall j, lo j <= hi j) ->
  Forall (fun w => nonneg (wz w) /\ nonneg (wy w)) (hs ++ [last]) -> monotone (fun y => picnn o n hs last x y k).
Proof.
  intros Ha Hr Hm Hb Hf a b Hab. apply Forall_app in Hf. destruct Hf as [Hh Hl]. inversion Hl as [|? ? [L1 L2] _]; subst. unfold picnn.
  assert (G : forall u z1 z2, (forall j, z1 j <= z2 j) -> net o n hs last a u z1 k <= net o n hs last b u z2 k); [|apply G; intros; lra].
  clear Hl. induction Hh as [|w hs [W1 W2] _ IH]; intros u z1 z2 Hz; cbn [net].
  - unfold output. pose proof (mixed_monotone o n last u a b z1 z2 k Ha Hr L1 L2 Hab Hz). destruct (bounds o) as [[lo hi]|] eqn:B; [|assumption].
    apply Rplus_le_compat_r. apply Rmult_le_compat_r; [specialize (Hb lo hi eq_refl k); lra|]. now apply sigmoid_nondecreasing.
  - apply IH. intros j. unfold hidden. apply Hm. now apply mixed_monotone.
Qed.
Lemma sigma_positive o n hs last x y k : / 10 ^ 10 < picnn_sigma o n hs last x y k.
Proof. unfold picnn_sigma. pose proof (softplus_pos (net o n hs last y x (fun _ => 0) k)). lra. Qed.
Lemma bounded_output o n hs last x y k lo hi : bounds o = Some (lo, hi) -> lo k < hi k -> lo k < picnn o n hs last x y k < hi k.
Proof.
  intros Hb Hl. unfold picnn. generalize (fun _ : nat => 1) as z. revert x. induction hs as [|w hs IH]; intros u z; cbn [net]; [|apply IH].
  unfold output. rewrite Hb. set (s := sigmoid _). assert (0 < s < 1). { split; [apply sigmoid_pos|]. unfold s, sigmoid. pose proof (exp_pos (- mixed o n last y u z k)) as P. set (E := exp _) in *.
    apply Rmult_lt_reg_r with (1 + E); [lra|]. replace (1 / (1 + E) * (1 + E)) with 1 by (field; lra). lra. }
  assert (0 < s * (hi k - lo k)) by (apply Rmult_lt_0_compat; lra). assert (s * (hi k - lo k) < 1 * (hi k - lo k)) by (apply Rmult_lt_compat_r; lra). lra.
Qed.

(** One layer, one control: the output is the sigmoid of the control. *)
Definition unit_weights : weights := Weights 1 1 1 (fun _ _ => 0) (fun _ => 0) (fun _ _ => 0) (fun _ => 1) (fun _ _ => 0) (fun _ _ => 1) (fun _ _ => 0) (fun _ => 0) (fun _ _ => 0) (fun _ => 0).
Lemma unit_mixed o n y u z k : augment o = false -> rec_fun o 1 = 1 -> mixed o n unit_weights y u z k = y 0%nat.
Proof. intros Ha Hr. unfold mixed, dense, control. rewrite Ha. cbn. replace (0 + 0 * u 0%nat + 1) with 1 by ring. rewrite Hr. ring. Qed.
Lemma squashed_not_convex : exists o n hs last x k, nondecreasing (act_fun o) /\ convex1 (act_fun o) /\ Forall (fun w => nonneg (wz w)) (hs ++ [last]) /\ ~ convex (fun y => picnn o n hs last x y k).
Proof.
  pose (o := Options relu (fun v => v) false (Some (fun _ => 0, fun _ => 1))). exists o, 1%nat, [], unit_weights, (fun _ => 0), 0%nat.
  split; [apply relu_nondecreasing|]. split; [apply relu_convex|]. split; [repeat constructor; intros j k; cbn; lra|]. intros C.
  specialize (C (1/2) (fun _ => 0) (fun _ => 2) ltac:(lra)). unfold picnn, net, output in C. cbn [bounds o] in C. rewrite !unit_mixed in C by reflexivity. cbn [mix] in C. unfold mix in C.
  replace (1/2*0 + (1-1/2)*2) with 1 in C by lra. unfold sigmoid in C. replace (exp (- 0)) with 1 in C by (rewrite Ropp_0, exp_0; reflexivity).
  replace (exp (- (2))) with (exp (- (1)) * exp (- (1))) in C by (rewrite <- exp_plus; f_equal; lra). set (e := exp (- (1))) in *.
  assert (0 < e < 1). { split; [apply exp_pos|]. unfold e. apply Rlt_le_trans with (exp 0); [apply exp_increasing; lra|rewrite exp_0; lra]. } clearbody e.
  assert (D : 1/2 * (1/2) + 1/2 * (1 / (1 + e * e)) < 1 / (1 + e)).
  { apply Rmult_lt_reg_r with (4 * (1 + e) * (1 + e * e)); [assert (0 < e * e) by (apply Rmult_lt_0_compat; lra); apply Rmult_lt_0_compat; lra|].
    assert (0 < e * e) by (apply Rmult_lt_0_compat; lra).
    replace ((1/2 * (1/2) + 1/2 * (1 / (1 + e * e))) * (4 * (1 + e) * (1 + e * e))) with ((1 + e) * (1 + e * e) + 2 * (1 + e)) by (field; lra).
    replace (1 / (1 + e) * (4 * (1 + e) * (1 + e * e))) with (4 * (1 + e * e)) by (field; lra).
    assert (0 < (1 - e) * (1 - e) * (1 - e)) by (repeat apply Rmult_lt_0_compat; lra). lra. }
  replace (1 + 1) with 2 in C by lra. lra.
Qed.
Lemma augmented_not_monotone : exists o n hs last x k, (forall v, 0 <= rec_fun o v) /\ nondecreasing (act_fun o) /\ bounds o = None /\
  Forall (fun w => nonneg (wz w) /\ nonneg (wy w)) (hs ++ [last]) /\ ~ monotone (fun y => picnn o n hs last x y k).
Proof.
  pose (o := Options relu relu true None).
  pose (w := Weights 1 2 1 (fun _ _ => 0) (fun _ => 0) (fun _ _ => 0) (fun _ => 1) (fun _ _ => 0) (fun j _ => INR j) (fun _ _ => 0) (fun _ => 0) (fun _ _ => 0) (fun _ => 0)).
  exists o, 1%nat, [], w, (fun _ => 0), 0%nat. split; [apply relu_nonneg|]. split; [apply relu_nondecreasing|]. split; [reflexivity|].
  split; [constructor; [split; intros j k; cbn; [lra|apply pos_INR]|constructor]|]. intros M. specialize (M (fun _ => 0) (fun _ => 1) ltac:(intros; lra)).
  unfold picnn, net, output in M. cbn [bounds o] in M. unfold mixed, control, dense in M. cbn [augment o w x_in y_in z_in wz wy wzu bzu wyu byu wuz buz rsum rec_fun Nat.ltb Nat.leb INR] in M.
  replace (relu (0 + 0 * 0 + 1)) with 1 in M by (unfold relu; rewrite Rmax_right; lra). lra.
Qed.
(** The quasi-convex variants. *)
Definition iq_hidden : weights := Weights 0 1 0 (fun _ _ => 0) (fun _ => 0) (fun _ _ => 0) (fun _ => 1) (fun _ _ => 0) (fun _ _ => 1) (fun _ _ => 0) (fun _ => -1) (fun _ _ => 0) (fun _ => 0).
Definition iq_last : weights := Weights 0 1 1 (fun _ _ => 0) (fun _ => 1) (fun _ _ => 0) (fun _ => 1) (fun _ _ => 1) (fun _ _ => - (1 / 2)) (fun _ _ => 0) (fun _ => 0) (fun _ _ => 0) (fun _ => 0).
Definition iq_options : options := Options softplus (fun v => v) false None.
Lemma iq_value y x : picnn iq_options 1 [iq_hidden] iq_last x y 0%nat = softplus (y 0%nat - 1) - y 0%nat / 2.
Proof.
  unfold picnn, net, output, iq_options, bounds, mixed, hidden, mixed, dense, control, iq_hidden, iq_last. cbn. unfold relu. rewrite !Rplus_0_l. rewrite (Rmax_right 0 1) by lra.
  rewrite !Rmult_1_r, !Rmult_1_l. replace (y 0%nat + -1) with (y 0%nat - 1) by ring. lra.
Qed.
Lemma softplus_derivative x : derivable_pt_lim softplus x (exp x / (1 + exp x)).
Proof.
  unfold softplus. pose proof (exp_pos x) as Hx. 
  assert (H : derivable_pt_lim (comp ln (plus_fct (fct_cte 1) exp)) x (/ (1 + exp x) * (0 + exp x))).
  { apply derivable_pt_lim_comp; [apply derivable_pt_lim_plus; [apply derivable_pt_lim_const|apply derivable_pt_lim_exp]|]. apply derivable_pt_lim_ln. unfold plus_fct, fct_cte. lra. }
  replace (exp x / (1 + exp x)) with (/ (1 + exp x) * (0 + exp x)) by (field; lra). exact H.
Qed.
Lemma dl_eq f x a b : derivable_pt_lim f x a -> a = b -> derivable_pt_lim f x b. Proof. now intros H <-. Qed.
Lemma iq_slope v x : derivable_pt_lim (fun t => picnn iq_options 1 [iq_hidden] iq_last x (fun j => v + t * v) 0%nat) 0 (v * (exp (v - 1) / (1 + exp (v - 1)) - 1 / 2)).
Proof.
  assert (A : derivable_pt_lim (fun t => v + t * v - 1) 0 v).
  { apply (dl_eq _ _ (0 + (1 * v + 0 * 0) - 0)); [|ring]. apply (derivable_pt_lim_minus (fun t => v + t * v) (fct_cte 1)); [|apply derivable_pt_lim_const].
    apply (derivable_pt_lim_plus (fct_cte v) (fun t => t * v)); [apply derivable_pt_lim_const|]. apply (derivable_pt_lim_mult id (fct_cte v)); [apply derivable_pt_lim_id|apply derivable_pt_lim_const]. }
  assert (B : derivable_pt_lim (fun t => (v + t * v) / 2) 0 (v / 2)).
  { assert (B' : derivable_pt_lim (fun t => (v + t * v) * / 2) 0 ((0 + (1 * v + 0 * 0)) * / 2 + (v + 0 * v) * 0)).
    { apply (derivable_pt_lim_mult (fun t => v + t * v) (fct_cte (/ 2))); [|apply derivable_pt_lim_const].
      apply (derivable_pt_lim_plus (fct_cte v) (fun t => t * v)); [apply derivable_pt_lim_const|]. apply (derivable_pt_lim_mult id (fct_cte v)); [apply derivable_pt_lim_id|apply derivable_pt_lim_const]. }
    replace (v / 2) with ((0 + (1 * v + 0 * 0)) * / 2 + (v + 0 * v) * 0) by field. exact B'. }
  assert (C : derivable_pt_lim (fun t => softplus (v + t * v - 1)) 0 (exp (v - 1) / (1 + exp (v - 1)) * v)).
  { apply (derivable_pt_lim_comp (fun t => v + t * v - 1) softplus); [exact A|]. replace (v + 0 * v - 1) with (v - 1) by ring. apply softplus_derivative. }
  pose proof (derivable_pt_lim_minus _ _ _ _ _ C B) as D. intros eps He. destruct (D eps He) as [delta Hd]. exists delta. intros h Hh Hl. specialize (Hd h Hh Hl). rewrite !iq_value. unfold minus_fct in Hd.
  replace (v * (exp (v - 1) / (1 + exp (v - 1)) - 1 / 2)) with (exp (v - 1) / (1 + exp (v - 1)) * v - v / 2) by (field; pose proof (exp_pos (v - 1)); lra). exact Hd.
Qed.
(** The derivative of a convex network along its input is not quasi-convex. *)
Lemma piqcnn_not_quasiconvex : exists o n hs last x k, act_fun o = softplus /\ bounds o = None /\ Forall (fun w => nonneg (wz w)) (hs ++ [last]) /\
  forall c, (forall v, exists f, piqcnn o n hs last x c (fun _ => v) k f) /\ forall f, (forall v, piqcnn o n hs last x c (fun _ => v) k (f (fun _ => v))) -> ~ quasiconvex f.
Proof.
  exists iq_options, 1%nat, [iq_hidden], iq_last, (fun _ => 0), 0%nat. split; [reflexivity|]. split; [reflexivity|]. split; [apply Forall_cons; [|apply Forall_cons; [|apply Forall_nil]]; intros j k; cbn; lra|].
  intros c. split; [intros v; eexists; eexists; split; [apply iq_slope|reflexivity]|]. intros f Hf Q. specialize (Q (1 / 2) (fun _ => 0) (fun _ => 1) ltac:(lra)).
  assert (E : forall v, f (fun _ => v) = Rabs (v * (exp (v - 1) / (1 + exp (v - 1)) - 1 / 2)) + c).
  { intros v. destruct (Hf v) as [d [Hd ->]]. f_equal. f_equal. eapply uniqueness_limite; [exact Hd|apply iq_slope]. }
  unfold mix in Q. rewrite !E in Q. replace (1 / 2 * 0 + (1 - 1 / 2) * 1) with (1 / 2) in Q by lra. replace (1 - 1) with 0 in Q by lra. rewrite exp_0 in Q.
  replace (1 * (1 / (1 + 1) - 1 / 2)) with 0 in Q by field. rewrite Rmult_0_l, Rabs_R0 in Q. rewrite Rmax_left in Q by lra.
  assert (exp (1 / 2 - 1) < 1) by (apply Rlt_le_trans with (exp 0); [apply exp_increasing; lra|rewrite exp_0; lra]). pose proof (exp_pos (1 / 2 - 1)). set (e := exp _) in *.
  assert (e / (1 + e) < 1 / 2). { apply Rmult_lt_reg_r with (1 + e); [lra|]. replace (e / (1 + e) * (1 + e)) with e by (field; lra). lra. }
  rewrite Rabs_left in Q; lra.
Qed.
(** Sigmoid activations: a sum of increasing terms is not quasi-convex in two controls. *)
Lemma sigmoid_net_not_quasiconvex : exists n hs last x k, let o := Options sigmoid sigmoid false None in
  Forall (fun w => nonneg (wz w) /\ nonneg (wy w)) (hs ++ [last]) /\ monotone (fun y => picnn o n hs last x y k) /\ ~ quasiconvex (fun y => picnn o n hs last x y k).
Proof.
  set (o := Options sigmoid sigmoid false None).
  pose (h := Weights 0 2 0 (fun _ _ => 0) (fun _ => 0) (fun _ _ => 0) (fun _ => 0) (fun _ _ => 0) (fun j k => if Nat.eqb j k then 2 else 0) (fun _ _ => 0) (fun _ => 1) (fun _ _ => 0) (fun _ => 0)).
  pose (l := Weights 0 0 2 (fun _ _ => 0) (fun _ => 1) (fun _ _ => 0) (fun _ => 0) (fun _ _ => 1) (fun _ _ => 0) (fun _ _ => 0) (fun _ => 0) (fun _ _ => 0) (fun _ => 0)).
  exists 2%nat, [h], l, (fun _ => 0), 0%nat. cbv zeta.
  assert (W : Forall (fun w => nonneg (wz w) /\ nonneg (wy w)) ([h] ++ [l])). { apply Forall_cons; [|apply Forall_cons; [|apply Forall_nil]]; split; intros j k; cbn; try lra. destruct (Nat.eqb j k); lra. }
  split; [exact W|]. split.
  { apply picnn_monotone; auto; [intros v; cbn; apply Rlt_le, sigmoid_pos|apply sigmoid_nondecreasing|discriminate]. }
  assert (S0 : sigmoid 0 = 1 / 2) by (unfold sigmoid; rewrite Ropp_0, exp_0; lra).
  assert (E : forall y, picnn o 2 [h] l (fun _ => 0) y 0%nat = sigmoid (y 0%nat + 1) + sigmoid (y 1%nat + 1)).
  { intros y. unfold picnn, net, output, o, bounds, mixed, hidden, mixed, dense, control, h, l. cbn. unfold relu. rewrite !Rplus_0_l, !Rplus_0_r, S0, (Rmax_right 0 1) by lra. rewrite !Rmult_1_r, !Rmult_1_l. f_equal; f_equal; field. }
  intros Q. specialize (Q (1 / 2) (fun j => if Nat.eqb j 0%nat then 3 else -3) (fun j => if Nat.eqb j 0%nat then -3 else 3) ltac:(lra)). cbv beta in Q. rewrite !E in Q. unfold mix in Q. cbn [Nat.eqb] in Q.
  replace (1 / 2 * 3 + (1 - 1 / 2) * -3 + 1) with 1 in Q by lra. replace (1 / 2 * -3 + (1 - 1 / 2) * 3 + 1) with 1 in Q by lra. replace (-3 + 1) with (-2) in Q by lra. replace (3 + 1) with 4 in Q by lra.
  rewrite (Rplus_comm (sigmoid (-2))) in Q. rewrite Rmax_left in Q by lra.
  assert (e1 : 2 < exp 1) by (pose proof (exp_ineq1 1 ltac:(lra)); lra).
  assert (L1 : 2 / 3 <= sigmoid 1). { unfold sigmoid. rewrite exp_Ropp. assert (/ exp 1 < / 2) by (apply Rinv_lt_contravar; nra). assert (0 < / exp 1) by (apply Rinv_0_lt_compat; lra).
    unfold Rdiv at 2. rewrite Rmult_1_l. replace (2 / 3) with (/ (3 / 2)) by field. apply Rinv_le_contravar; lra. }
  assert (L2 : sigmoid (-2) <= 1 / 5). { unfold sigmoid. replace (- -2) with (1 + 1) by lra. rewrite exp_plus. unfold Rdiv. rewrite !Rmult_1_l. apply Rinv_le_contravar; nra. }
  assert (L3 : sigmoid 4 <= 1). { unfold sigmoid, Rdiv. rewrite Rmult_1_l. pose proof (exp_pos (- (4))). replace 1 with (/ 1) at 2 by field. apply Rinv_le_contravar; lra. }
  lra.
Qed.
