(** Recurrent networks: number, range and structure of their forecasts: C196 - C198. *)
From Coq Require Import List ZArith Arith Bool Reals Lia Lra.
From Verif Require Import Model.Subsample Model.Scaling Model.FeedForward Model.Recurrent Spec.FeedForwardSpec Spec.RecurrentSpec Proof.FeedForwardProof Proof.RecurrentProof.
From Verif Require Model.Lstm.
Import ListNotations.
Local Open Scope R_scope.

(** C196 *)
Theorem C196_number_partial :
  forall (cells : nat -> list neuron) (out : layer) (n : nat) (neurons n_out : option nat) (sx : list (R * R)) (row z : list R),
  predict_row cells out (Count n) neurons n_out sx None row = Some z -> n_out = Some (length z).
Proof. exact (@recurrent_count). Qed.
Print Assumptions C196_number_partial.
Theorem C196_sizes_refuted :
  forall (cells : nat -> list neuron) (out : layer) (l : list nat) (neurons n_out : option nat) (sx : list (R * R)) (row : list R),
  predict_row cells out (Sizes l) neurons n_out sx None row = predict_row cells out (Sizes l) None None sx None row /\
  forall z, predict_row cells out (Sizes l) neurons n_out sx None row = Some z -> length z = last l O.
Proof. exact (@recurrent_sizes_decide). Qed.
Print Assumptions C196_sizes_refuted.
(** C197 *)
Theorem C197_recurrence :
  forall (cells : nat -> list neuron) (out : layer) (sizes : list nat) (row z : list R),
  layers_from cells out O sizes (as_times row) = Some z -> exists c h,
  (forall l, (l < length sizes)%nat -> layer_values (cells l) (nth l sizes O) (length row) (reads sizes row h l) (c l) (h l)) /\
  z = affine out (outputs (last sizes O) (h (length sizes - 1)%nat) (length row)).
Proof. exact (@recurrent_network). Qed.
Print Assumptions C197_recurrence.
Theorem C197_bounded :
  forall (cells : nat -> list neuron) (out : layer) (d : depth) (neurons n_out : option nat) (sx sy : list (R * R)) (row z : list R) (j : nat),
  predict_row cells out d neurons n_out sx (Some sy) row = Some z -> length sy = length out -> (j < length out)%nat ->
  Rabs (nth j z 0 - fst (nth j sy (0, 0))) <= (weight (fst (nth j out ([], 0))) + Rabs (snd (nth j out ([], 0)))) * Rabs (snd (nth j sy (0, 0))).
Proof. exact (@recurrent_bounded). Qed.
Print Assumptions C197_bounded.
(** C198 *)
Theorem C198_network_partial :
  forall (history horizon : nat) (k : keras) (w e z : list R), (1 <= history)%nat -> network history horizon k (w, e) = Some z ->
  exists c h c' h', layer_values (k_forth k) 64 history (fun t => [nth t w 0]) c h /\ layer_values (k_back k) 64 history (fun t => [nth (history - 1 - t) w 0]) c' h' /\
  length z = horizon /\ forall j, (j < horizon)%nat ->
    nth j z 0 = nth j (affine (k_seq k) (outputs 64 h history ++ outputs 64 h' history)) 0 +
                nth j (affine (k_exog k) (map positive_part (affine (k_hidden2 k) (map positive_part (affine (k_hidden1 k) e))))) 0.
Proof. exact (@bidirectional_network). Qed.
Print Assumptions C198_network_partial.
Theorem C198_no_interaction_refuted :
  forall (T : Type) (history horizon d : nat) (k : keras) (sc : R * R) (sx : list (R * R)) (labels : list T) (t t' : list R) (e e' : list (list R)),
  (1 <= history <= length labels)%nat -> length sx = d -> accepts history horizon d k ->
  length t = length labels -> length t' = length labels -> length e = length labels -> length e' = length labels ->
  (forall r, In r e \/ In r e' -> length r = d) ->
  let run tt ee := Lstm.predict history (transform sc) (inverse sc) (transform_row sx) (forecast history horizon k) (Lstm.Frame labels tt ee) in
  exists a b c f, run t e = Some a /\ run t' e' = Some b /\ run t e' = Some c /\ run t' e = Some f /\
  forall r j ra rb rc rf, nth_error a r = Some ra -> nth_error b r = Some rb -> nth_error c r = Some rc -> nth_error f r = Some rf ->
    length (snd ra) = horizon /\ ((j < horizon)%nat -> nth j (snd ra) 0 + nth j (snd rb) 0 = nth j (snd rc) 0 + nth j (snd rf) 0).
Proof. exact (@bidirectional_additive). Qed.
Print Assumptions C198_no_interaction_refuted.
Theorem C198_history_bounded_partial :
  forall (history horizon : nat) (k : keras) (w w' e z z' : list R) (j : nat), (1 <= history)%nat ->
  network history horizon k (w, e) = Some z -> network history horizon k (w', e) = Some z' -> (j < horizon)%nat ->
  Rabs (nth j z 0 - nth j z' 0) <= 2 * weight (fst (nth j (k_seq k) ([], 0))).
Proof. exact (@history_bounded). Qed.
Print Assumptions C198_history_bounded_partial.
(** A layer of two units above one of one unit, on a row of three columns. *)
Definition one_gate (w : R) : gate := Gate [w] [1] 0.
Definition wide_gate (w : R) : gate := Gate [w] [0; 1] 1.
Definition some_cells (i : nat) : list neuron :=
  match i with
  | O => [Neuron (one_gate 1) (one_gate 2) (one_gate 3) (one_gate 4)]
  | _ => [Neuron (wide_gate 1) (wide_gate 0) (wide_gate 1) (wide_gate 0); Neuron (wide_gate 2) (wide_gate 1) (wide_gate 2) (wide_gate 1)]
  end.
Definition some_out : layer := [([1; 2], 3); ([0; 1], 1)].
Example C196_case : (exists z, predict_row some_cells some_out (Sizes [1; 2]%nat) None (Some 7%nat) [(0, 1); (0, 2); (1, 1)] None [5; 6; 7] = Some z /\ length z = 2%nat) /\
  (exists z, predict_row (fun _ => some_cells 1) some_out (Count 1) (Some 9%nat) (Some 2%nat) [(0, 1); (0, 2); (1, 1)] None [5; 6; 7] = Some z).
Proof. split; [eexists; split; reflexivity|eexists; reflexivity]. Qed.
Example C197_case : exists z, predict_row some_cells some_out (Sizes [1; 2]%nat) None None [(0, 1); (0, 2); (1, 1)] (Some [(10, 5); (20, 5)]) [5; 6; 1000] = Some z /\
  Rabs (nth 0 z 0 - 10) <= 30.
Proof.
  eexists. split; [reflexivity|].
  match goal with |- Rabs (nth 0 ?z 0 - 10) <= 30 =>
    pose proof (C197_bounded some_cells some_out (Sizes [1; 2]%nat) None None [(0, 1); (0, 2); (1, 1)] [(10, 5); (20, 5)] [5; 6; 1000] z 0 eq_refl eq_refl ltac:(cbn; lia)) as B;
    change (Rabs (nth 0 z 0 - 10) <= (weight [1; 2] + Rabs 3) * Rabs 5) in B end.
  assert ((weight [1; 2] + Rabs 3) * Rabs 5 = 30) as W.
  { cbn [weight map fold_right]. unfold weight. cbn [map fold_right]. rewrite (Rabs_pos_eq 1), (Rabs_pos_eq 2), (Rabs_pos_eq 3), (Rabs_pos_eq 5) by lra. ring. }
  rewrite W in B. exact B.
Qed.
(** A network of the size the code builds, for windows of two values and three further columns. *)
Definition unit_gate : gate := Gate [1] (repeat 0 64) 0.
Definition built : keras :=
  Keras (repeat (Neuron unit_gate unit_gate unit_gate unit_gate) 64) (repeat (Neuron unit_gate unit_gate unit_gate unit_gate) 64)
    (repeat ([1; 0; 2], 0) 64) (repeat (repeat 1 64, 1) 32) (repeat (repeat 1 128, 0) 4) (repeat (repeat 1 32, 0) 4).
Lemma dense_accepts f p x n : length x = n -> length p = f -> forallb (fun wb => (length (fst wb) =? n)%nat) p = true -> exists z, dense f p x = Some z.
Proof. intros <- <- H. unfold dense. rewrite Nat.eqb_refl, H. eexists; reflexivity. Qed.
Lemma lstm_accepts n p w : fits 1 n p = true -> exists hs, lstm n p (as_times w) = Some hs.
Proof.
  intros F. unfold lstm. assert (forallb (fun x => fits (length x) n p) (as_times w) = true) as ->; [|eexists; reflexivity].
  apply forallb_forall. intros x I. apply in_map_iff in I as [v [<- _]]. exact F.
Qed.
Lemma lstm_last n p w hs : w <> [] -> lstm n p (as_times w) = Some hs -> length (last hs (repeat 0 n)) = n.
Proof.
  intros N E. assert (N1 : as_times w <> []) by (destruct w; [congruence|discriminate]). apply (lstm_range _ _ _ _ _ E N1). apply last_in.
  intros ->. destruct (lstm_values _ _ _ _ E N1) as [c [h [_ H]]]. destruct (as_times w); [congruence|discriminate].
Qed.
Example C198_case : accepts 2 4 3 built.
Proof.
  intros w e Lw Le. unfold network. cbn [fst snd]. rewrite Lw. cbn [Nat.eqb].
  assert (N : w <> []) by (destruct w; [discriminate|discriminate]). assert (N' : rev w <> []) by (intros H; apply N; rewrite <- (rev_involutive w), H; reflexivity).
  destruct (lstm_accepts 64 (k_forth built) w ltac:(reflexivity)) as [a Ha]. destruct (lstm_accepts 64 (k_back built) (rev w) ltac:(reflexivity)) as [b Hb].
  unfold both_ways. rewrite Ha, Hb. pose proof (lstm_last _ _ _ _ N Ha) as La. pose proof (lstm_last _ _ _ _ N' Hb) as Lb.
  unfold dense_path. destruct (dense_accepts 64 (k_hidden1 built) e 3 Le ltac:(reflexivity) ltac:(reflexivity)) as [u Hu]. rewrite Hu.
  pose proof (FeedForwardProof.dense_length _ _ _ _ Hu) as Lu.
  destruct (dense_accepts 32 (k_hidden2 built) (map relu u) 64 ltac:(rewrite map_length; exact Lu) ltac:(reflexivity) ltac:(reflexivity)) as [v Hv]. rewrite Hv.
  pose proof (FeedForwardProof.dense_length _ _ _ _ Hv) as Lv.
  destruct (dense_accepts 4 (k_seq built) (last a (repeat 0 64) ++ last b (repeat 0 64)) 128 ltac:(rewrite app_length, La, Lb; reflexivity) ltac:(reflexivity) ltac:(reflexivity)) as [y Hy]. rewrite Hy.
  destruct (dense_accepts 4 (k_exog built) (map relu v) 32 ltac:(rewrite map_length; exact Lv) ltac:(reflexivity) ltac:(reflexivity)) as [q Hq]. rewrite Hq. discriminate.
Qed.
