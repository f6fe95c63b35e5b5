From Coq Require Import Reals String List Arith Bool Lia Lra.
From Verif Require Import Model.Names Model.Encoder Model.Quantiles Model.FourierEs Model.Reproject Model.Picnn Model.PicnnFit Spec.PicnnValueSpec Proof.ReprojectProof Proof.PicnnFitProof.
Import ListNotations.
Local Open Scope R_scope.

Lemma sum_to_rsum f n : sum_to n f = rsum f n.
Proof. induction n as [|n IH]; cbn; [reflexivity | now rewrite IH]. Qed.
Lemma rsum_extv f g n : (forall i, f i = g i) -> rsum f n = rsum g n.
Proof. intro H. induction n as [|n IH]; cbn; [reflexivity | now rewrite IH, H]. Qed.
Lemma weight_matrix g name i o : weight_of g name i o = matrix (get g (txt name)) i o.
Proof. unfold weight_of, matrix, get. destruct (lookup (txt name) g); [reflexivity|]. cbn. now destruct i, o. Qed.
Lemma bias_vector g name o : bias_of g name o = vector (get g (txt name)) o.
Proof. unfold bias_of, vector, get. destruct (lookup (txt name) g); [reflexivity|]. cbn. now destruct o. Qed.
Lemma affine_dense g name n v o : affine g name n v o = Picnn.dense (matrix (get g (txt name))) (vector (get g (txt name))) n v o.
Proof. unfold affine, Picnn.dense. rewrite sum_to_rsum, bias_vector. f_equal. apply rsum_extv. intro i. now rewrite weight_matrix. Qed.
Lemma layer_sum_mixed opts n nx ny nz g y u z k :
  layer_sum (rec_fun opts) nx ny nz g (as_used (augment opts) n y) u z k = mixed opts n (read_layer nx ny nz g) y u z k.
Proof.
  unfold layer_sum, mixed, read_layer. cbn [wz wzu bzu wy wyu byu wuz buz x_in y_in z_in]. rewrite !sum_to_rsum, affine_dense. f_equal. f_equal.
  - apply rsum_extv. intro j. now rewrite weight_matrix, affine_dense.
  - apply rsum_extv. intro j. rewrite weight_matrix, affine_dense. unfold as_used, control. now destruct (augment opts).
Qed.
Lemma net_value opts n nx ny nz y : forall hs last u0 z0, exists (u z : nat -> nat -> R) (v : nat -> R),
  (forall k, u 0%nat k = u0 k) /\ (forall k, z 0%nat k = z0 k) /\
  (forall l g k, (l < length hs)%nat -> nth_error hs l = Some g ->
     u (S l) k = act_fun opts (affine g "u_dense" nx (u l) k) /\ z (S l) k = act_fun opts (layer_sum (rec_fun opts) nx ny nz g (as_used (augment opts) n y) (u l) (z l) k)) /\
  (forall k, v k = layer_sum (rec_fun opts) nx ny nz last (as_used (augment opts) n y) (u (length hs)) (z (length hs)) k) /\
  (forall k, net opts n (map (read_layer nx ny nz) hs) (read_layer nx ny nz last) y u0 z0 k = squeezed (bounds opts) v k).
Proof.
  induction hs as [|g hs IH]; intros last u0 z0.
  - exists (fun _ => u0), (fun _ => z0), (mixed opts n (read_layer nx ny nz last) y u0 z0). split; [reflexivity|]. split; [reflexivity|]. split; [cbn; lia|].
    split; [intro k; symmetry; apply layer_sum_mixed|]. intro k. cbn [map net length]. unfold output, squeezed. destruct (bounds opts) as [[lo hi]|]; [|reflexivity].
    unfold sigmoid. unfold Rdiv. ring.
  - destruct (IH last (next_u opts (read_layer nx ny nz g) u0) (hidden opts n (read_layer nx ny nz g) y u0 z0)) as (u & z & v & U & Z & St & V & W).
    exists (fun l => match l with O => u0 | S l' => u l' end), (fun l => match l with O => z0 | S l' => z l' end), v. split; [reflexivity|]. split; [reflexivity|]. split.
    + intros [|l] h k L E; cbn [nth_error] in E.
      * injection E as <-. rewrite U, Z. unfold next_u, hidden. rewrite affine_dense, layer_sum_mixed. split; reflexivity.
      * apply St; [cbn in L; lia | exact E].
    + split; [intro k; cbn [length]; apply V|]. intro k. cbn [map net]. apply W.
Qed.
Lemma starts_app s : forall t v, t = (s ++ v)%list -> starts s t = true.
Proof. induction s as [|a s IH]; intros t v ->; [now destruct v|]. cbn [app starts]. destruct (Ascii.ascii_dec a a); [now apply (IH _ v) | congruence]. Qed.
Lemma contains_app s u v : contains s (u ++ s ++ v) = true.
Proof.
  induction u as [|a u IH]; [|cbn [app contains]; rewrite IH; now rewrite orb_true_r].
  destruct (s ++ v)%list eqn:E; cbn [app contains]; rewrite (starts_app s _ v) by (cbn [app]; congruence); reflexivity.
Qed.
Lemma read_stored t gs nx ny nz : stores t gs -> read_net t (nx, ny, nz) = map (read_layer nx ny nz) gs.
Proof.
  intros (names & -> & L & F). unfold read_net. revert gs L. induction F as [|name names (u & v & ->) F IH]; intros [|g gs] L; try discriminate; [reflexivity|].
  cbn [map combine flat_map fst snd]. unfold picnn_tag at 1. rewrite contains_app. cbn [app fst snd]. f_equal. apply IH. now injection L.
Qed.
(** C209: the prediction is the value of the network described by the stored dense maps. *)
Lemma predicted_value (opts : options) (n nx ny nz : nat) (t : tree) (gs : list group) (x y : nat -> R) : stores t gs -> gs <> [] ->
  exists v, network_value (act_fun opts) (rec_fun opts) nx ny nz gs x (as_used (augment opts) n y) v /\
  forall k, predict_net opts n (nx, ny, nz) t x y k = squeezed (bounds opts) v k.
Proof.
  intros T N. destruct (exists_last N) as (hs & last & ->).
  destruct (net_value opts n nx ny nz y hs last x (fun _ => 1)) as (u & z & v & U & Z & St & V & W).
  exists v. split.
  - exists u, z. rewrite app_length. cbn [length]. replace (length hs + 1 - 1)%nat with (length hs) by lia. split; [exact U|]. split; [exact Z|]. split.
    + intros l g k L E. rewrite nth_error_app1 in E by lia. apply St; [lia | exact E].
    + intros g k E. rewrite nth_error_app2, Nat.sub_diag in E by lia. injection E as <-. apply V.
  - intro k. unfold predict_net. rewrite (read_stored t (hs ++ [last]) nx ny nz T), map_app, rev_app_distr. cbn [map rev app]. rewrite rev_involutive. apply W.
Qed.
(** The value is determined by the stored maps, the inputs and the controls. *)
Lemma network_value_unique f r nx ny nz gs x y v w : gs <> [] -> network_value f r nx ny nz gs x y v -> network_value f r nx ny nz gs x y w -> forall k, v k = w k.
Proof.
  intros N (u & z & U & Z & St & V) (u' & z' & U' & Z' & St' & V').
  assert (forall m a b, (forall j, a j = b j) -> sum_to m a = sum_to m b) as SE by (intros m a b H; induction m as [|m IH]; cbn; [reflexivity | now rewrite IH, H]).
  assert (forall g name m a b o, (forall j, a j = b j) -> affine g name m a o = affine g name m b o) as AE by (intros; unfold affine; f_equal; apply SE; intro; now rewrite H).
  assert (forall g a b c d k, (forall j, a j = b j) -> (forall j, c j = d j) -> layer_sum r nx ny nz g y a c k = layer_sum r nx ny nz g y b d k) as LE.
  { intros g a b c d k A C. unfold layer_sum. f_equal; [f_equal; apply SE; intro j|]; [now rewrite C, (AE g _ nx a b) | now rewrite (AE g _ nx a b) | now apply AE]. }
  assert (forall l, (l < length gs)%nat -> (forall k, u l k = u' l k) /\ (forall k, z l k = z' l k)) as K.
  { induction l as [|l IH]; intro L; [split; intro k; [now rewrite U, U' | now rewrite Z, Z']|]. destruct IH as [A B]; [lia|].
    destruct (nth_error gs l) as [g|] eqn:E; [|apply nth_error_None in E; lia].
    split; intro k; destruct (St l g k L E) as [P Q]; destruct (St' l g k L E) as [P' Q']; [rewrite P, P' | rewrite Q, Q']; f_equal; [now apply AE | now apply LE]. }
  intro k. assert (length gs - 1 < length gs)%nat as L by (destruct gs; [easy | cbn; lia]).
  destruct (nth_error gs (length gs - 1)) as [g|] eqn:E; [|apply nth_error_None in E; lia].
  rewrite (V g k eq_refl), (V' g k eq_refl). destruct (K _ L) as [A B]. now apply LE.
Qed.
