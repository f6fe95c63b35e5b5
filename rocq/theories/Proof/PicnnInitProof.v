(** New input-convex networks. *)
From Coq Require Import List Arith Reals Lra Lia.
From Verif Require Import Model.FourierEs Model.Picnn Model.PicnnInit Spec.ActivationsSpec Spec.PicnnSpec Spec.PicnnInitSpec Proof.PicnnProof.
Import ListNotations.
Local Open Scope R_scope.

Lemma lecun_nonneg out d : nonneg (positive_lecun out d).
Proof. intros j k. unfold positive_lecun. pose proof (Rabs_pos (d j k * (1 / sqrt (INR out)))). lra. Qed.
Lemma new_convex plain o n hs last x k : bounds o = None -> nondecreasing (act_fun o) -> convex1 (act_fun o) -> Forall (as_created plain) (hs ++ [last]) ->
  convex (fun y => picnn o n hs last x y k).
Proof.
  intros B A C H. apply picnn_convex; try assumption. eapply Forall_impl; [|exact H]. intros w (out & dz & dy & lc & w0 & ->). apply lecun_nonneg.
Qed.
Lemma new_monotone o n hs last x k : augment o = false -> (forall v, 0 <= rec_fun o v) -> nondecreasing (act_fun o) ->
  (forall lo hi, bounds o = Some (lo, hi) -> forall j, lo j <= hi j) -> Forall (as_created false) (hs ++ [last]) ->
  monotone (fun y => picnn o n hs last x y k).
Proof.
  intros U R A B H. apply picnn_monotone; try assumption. eapply Forall_impl; [|exact H]. intros w (out & dz & dy & lc & w0 & ->). split; apply lecun_nonneg.
Qed.
Lemma lecun_scale out d j k : (0 < out)%nat -> positive_lecun out d j k = Rabs (d j k) / (10 * sqrt (INR out)).
Proof.
  intros H. pose proof (lt_0_INR out H) as P. pose proof (sqrt_lt_R0 _ P) as Q. unfold positive_lecun. rewrite Rabs_mult, (Rabs_pos_eq (1 / sqrt (INR out))).
  - field. lra.
  - apply Rlt_le. apply Rdiv_lt_0_compat; lra.
Qed.
