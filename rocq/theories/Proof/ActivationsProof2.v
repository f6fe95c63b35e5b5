(** Which inputs two activations tell apart. *)
From Coq Require Import Reals Bool Lra.
From Verif Require Import Model.Stats Model.Activations Spec.ActivationsSpec Proof.StatsProof Proof.ActivationsProof.
Local Open Scope R_scope.

Lemma leaky_two_slopes s t x : 0 < s -> 0 < t -> x < 0 ->
  leaky_relu_inverse s (leaky_relu t x) = t / s * x /\ (leaky_relu_inverse s (leaky_relu t x) = x <-> s = t).
Proof.
  intros Hs Ht Hx. assert (E : leaky_relu_inverse s (leaky_relu t x) = t / s * x).
  { unfold leaky_relu, leaky_relu_inverse. rewrite (Rleb_f 0 x) by exact Hx.
    assert (t * x < 0) by (rewrite <- (Rmult_0_r t); apply Rmult_lt_compat_l; assumption). rewrite Rleb_f by assumption. field. lra. }
  split; [exact E|]. rewrite E. split.
  - intros H. assert (K : (t / s - 1) * x = 0) by lra. apply Rmult_integral in K. destruct K as [K|K]; [|lra].
    assert (t = t / s * s) by (field; lra). replace (t / s) with 1 in * by lra. lra.
  - intros ->. field. lra.
Qed.

Lemma linloglin_same k x y : / 10 ^ 12 < k ->
  (linloglin k x = linloglin k y <-> x = y \/ (0 <= x <= / 10 ^ 12 /\ 0 <= y <= / 10 ^ 12) \/ (- / 10 ^ 12 <= x < 0 /\ - / 10 ^ 12 <= y < 0)).
Proof.
  intros Hk. fold tiny in *. pose proof tiny_pos as T.
  assert (P : forall x, exists px, linloglin k x = linloglin k px /\ tiny <= Rabs px /\
    ((px = x /\ (tiny <= x \/ x <= - tiny)) \/ (px = tiny /\ 0 <= x <= tiny) \/ (px = - tiny /\ - tiny <= x < 0))).
  { intros z. destruct (Rle_lt_dec tiny z) as [H|H].
    { exists z. split; [reflexivity|]. split; [rewrite Rabs_right by lra; exact H|]. left. auto. }
    destruct (Rle_lt_dec z (- tiny)) as [H1|H1].
    { exists z. split; [reflexivity|]. split; [rewrite Rabs_left by lra; lra|]. left. auto. }
    destruct (Rle_lt_dec 0 z) as [H2|H2].
    { exists tiny. split; [apply lll_flat_pos; lra|]. split; [rewrite Rabs_right by lra; lra|]. right; left. split; [reflexivity|lra]. }
    { exists (- tiny). split; [apply lll_flat_neg; lra|]. split; [rewrite Rabs_left by lra; lra|]. right; right. split; [reflexivity|lra]. } }
  destruct (P x) as (px & Ex & Ax & Cx). destruct (P y) as (py & Ey & Ay & Cy).
  assert (Inj : linloglin k px = linloglin k py <-> px = py).
  { split; [|now intros ->]. intros H. rewrite <- (linloglin_undone k px), <- (linloglin_undone k py), H by lra. reflexivity. }
  rewrite Ex, Ey, Inj. split; intros H; intuition (subst; try lra).
Qed.
