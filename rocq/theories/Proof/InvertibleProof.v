From Coq Require Import Reals List Arith Bool Lia Lra.
From Verif Require Import Model.Activations Model.FourierEs Model.Quantiles Model.Invertible Spec.ActivationsSpec Spec.InvertibleSpec Proof.SeriesProof Proof.FourierProof Proof.FourierProof2 Proof.QuantilesProof Proof.ActivationsProof.
Import ListNotations.
Local Open Scope R_scope.

Lemma tanh_0' : tanh 0 = 0.
Proof. unfold tanh, sinh. rewrite Ropp_0. unfold Rdiv. rewrite Rminus_diag_eq by reflexivity. now rewrite !Rmult_0_l. Qed.
Lemma kernel_diag l i : kernel l i i = 1.
Proof. unfold kernel, lower. rewrite Nat.ltb_irrefl, tanh_0', Nat.eqb_refl. unfold Rdiv. rewrite !Rmult_0_l. ring. Qed.
Lemma kernel_upper l i j : (i < j)%nat -> kernel l i j = 0.
Proof.
  intros H. unfold kernel, lower. destruct (Nat.ltb_spec j i); [lia|]. destruct (Nat.eqb_spec i j); [lia|].
  rewrite tanh_0'. unfold Rdiv. rewrite !Rmult_0_l. ring.
Qed.
(** A row only sees the entries up to its own position. *)
Lemma rsum_split f n m : (m <= n)%nat -> (forall j, (m <= j < n)%nat -> f j = 0) -> rsum f n = rsum f m.
Proof.
  intros H Z. induction n as [|n IH]; [replace m with 0%nat by lia; reflexivity|]. destruct (Nat.eq_dec m (S n)) as [->|N]; [reflexivity|].
  cbn [rsum]. rewrite IH by (try lia; intros; apply Z; lia). rewrite Z by lia. ring.
Qed.
Lemma row_sum l i x : (i < features l)%nat -> rsum (fun j => kernel l i j * nth j x 0) (features l) = rsum (fun j => kernel l i j * nth j x 0) i + nth i x 0.
Proof.
  intros H. rewrite (rsum_split _ _ (S i)) by (try lia; intros j Hj; rewrite kernel_upper by lia; ring). cbn [rsum]. rewrite kernel_diag. ring.
Qed.
Lemma affine_length l x : length (affine l x) = features l.
Proof. unfold affine. now rewrite map_length, seq_length. Qed.
Lemma affine_nth l x i : (i < features l)%nat -> nth i (affine l x) 0 = rsum (fun j => kernel l i j * nth j x 0) i + nth i x 0 + nth i (bias l) 0.
Proof. intros H. unfold affine. rewrite nth_map_seq by exact H. cbn [Nat.add]. now rewrite row_sum. Qed.
Lemma layer_length l x : length (layer_predict l x) = features l.
Proof. unfold layer_predict. destruct (prediction_layer l); [|rewrite map_length]; apply affine_length. Qed.
Lemma substitute_length K r n : length (substitute K r n) = n.
Proof. induction n as [|n IH]; [reflexivity|]. cbn [substitute]. rewrite app_length, IH. cbn. lia. Qed.
Lemma substitute_solves K r x n : (forall i, (i < n)%nat -> K i i = 1) -> length x = n -> (forall i, (i < n)%nat -> nth i r 0 = rsum (fun j => K i j * nth j x 0) i + nth i x 0) ->
  substitute K r n = x.
Proof.
  intros Hd Hx Hr. assert (G : forall m, (m <= n)%nat -> substitute K r m = firstn m x).
  { induction m as [|m IH]; intros Hm; [reflexivity|]. cbn [substitute]. rewrite IH by lia.
    rewrite (rsum_ext _ (fun j => K m j * nth j x 0)) by (intros j Hj; now rewrite nth_firstn by lia).
    rewrite Hd, Hr by lia. replace ((rsum (fun j => K m j * nth j x 0) m + nth m x 0 - rsum (fun j => K m j * nth j x 0) m) / 1) with (nth m x 0) by field.
    apply (list_eq_nth _ _ 0); [rewrite app_length, !firstn_length_le by lia; cbn; lia|]. intros i Hi. rewrite app_length, firstn_length_le in Hi by lia. cbn in Hi.
    rewrite (nth_firstn _ (S m)) by lia. destruct (Nat.eq_dec i m) as [->|N].
    - rewrite app_nth2 by (rewrite firstn_length_le; lia). rewrite firstn_length_le, Nat.sub_diag by lia. reflexivity.
    - rewrite app_nth1 by (rewrite firstn_length_le; lia). apply nth_firstn. lia. }
  rewrite G by lia. now rewrite <- Hx, firstn_all.
Qed.
Lemma layer_undone l x : length x = features l -> regular l x -> layer_invert l (layer_predict l x) = Some x.
Proof.
  intros Hx Hr. unfold layer_invert, layer_predict.
  assert (E : (if prediction_layer l then Some (if prediction_layer l then affine l x else map (activate (activation l)) (affine l x))
               else all_some (map (invert_activation (negative_slope l) (activation l)) (if prediction_layer l then affine l x else map (activate (activation l)) (affine l x)))) = Some (affine l x)).
  { destruct (prediction_layer l) eqn:P; [reflexivity|]. destruct Hr as [Hr|Hr]; [congruence|]. rewrite map_map.
    rewrite (all_some_map _ (fun v => v)); [now rewrite map_id|]. now apply Forall_forall. }
  rewrite E. cbn [option_map]. f_equal. apply substitute_solves; [intros; apply kernel_diag|exact Hx|].
  intros i Hi. rewrite nth_map_seq by exact Hi. cbn [Nat.add]. rewrite affine_nth by exact Hi. ring.
Qed.
Lemma module_undone n ls x : wide n ls -> length x = n -> regular_all ls x -> module_invert ls (module_predict ls x) = Some x.
Proof.
  intros W. revert x. induction ls as [|l ls IH]; intros x Hx Hr; [reflexivity|]. inversion W as [|? ? W1 W2]; subst. destruct Hr as [R1 R2].
  unfold module_predict. cbn [fold_left module_invert]. fold (module_predict ls (layer_predict l x)).
  rewrite IH by (try assumption; rewrite layer_length; congruence). apply layer_undone; [congruence|exact R1].
Qed.
(** Leaky layers with their own slope are undone everywhere. *)
Lemma leaky_module n ls x : wide n ls -> length x = n ->
  Forall (fun l => prediction_layer l = true \/ exists s, 0 < s /\ negative_slope l = s /\ activation l = Leaky s) ls ->
  module_invert ls (module_predict ls x) = Some x.
Proof.
  intros W Hx Hl. apply (module_undone n); [exact W|exact Hx|]. clear W Hx. revert x. induction Hl as [|l ls H _ IH]; intros x; [exact I|].
  split; [|apply IH]. destruct H as [H|[s [Hs [E1 E2]]]]; [now left|right]. rewrite E1, E2. apply Forall_forall. intros v _. cbn. now rewrite leaky_undone.
Qed.
(** The default layers: exact unless a number fed to an activation is nearly zero. *)
Lemma default_regular ls x : Forall (fun l => activation l = Linloglin) ls -> away_from_zero ls x -> regular_all ls x.
Proof.
  intros Hl. revert x. induction Hl as [|l ls H _ IH]; intros x Hz; [exact I|]. destruct Hz as [Z1 Z2]. split; [|now apply IH].
  destruct Z1 as [Z1|Z1]; [now left|right]. rewrite H. apply Forall_forall. intros v Hv. cbn. rewrite Forall_forall in Z1. rewrite linloglin_undone; [reflexivity|lra|now apply Z1].
Qed.

Lemma default_module n ls x : wide n ls -> length x = n -> Forall (fun l => activation l = Linloglin) ls -> away_from_zero ls x ->
  module_invert ls (module_predict ls x) = Some x.
Proof. intros W Hx Hl Hz. apply (module_undone n); [exact W|exact Hx|]. now apply default_regular. Qed.

(** Causality. *)
Lemma firstn_map_seq {B} (f : nat -> B) n k : (k <= n)%nat -> firstn k (map f (seq 0 n)) = map f (seq 0 k).
Proof. intros H. rewrite firstn_map. f_equal. replace n with (k + (n - k))%nat by lia. rewrite seq_app, firstn_app, seq_length, Nat.sub_diag, firstn_all2 by (rewrite seq_length; lia). apply app_nil_r. Qed.
Lemma layer_causal l x x' k : (k <= features l)%nat -> firstn k x = firstn k x' -> firstn k (layer_predict l x) = firstn k (layer_predict l x').
Proof.
  intros Hk E. assert (N : forall j, (j < k)%nat -> nth j x 0 = nth j x' 0) by (intros j Hj; rewrite <- (nth_firstn x k j), <- (nth_firstn x' k j) by exact Hj; now rewrite E).
  assert (A : firstn k (affine l x) = firstn k (affine l x')).
  { unfold affine. rewrite !firstn_map_seq by exact Hk. apply map_ext_in. intros i Hi. apply in_seq in Hi. f_equal.
    rewrite !row_sum by lia. rewrite N by lia. f_equal. apply rsum_ext. intros j Hj. now rewrite N by lia. }
  unfold layer_predict. destruct (prediction_layer l); [exact A|]. now rewrite !firstn_map, A.
Qed.
Lemma module_causal n ls x x' k : wide n ls -> (k <= n)%nat -> firstn k x = firstn k x' -> firstn k (module_predict ls x) = firstn k (module_predict ls x').
Proof.
  intros W Hk. revert x x'. induction ls as [|l ls IH]; intros x x' E; [exact E|]. inversion W; subst.
  apply (IH ltac:(assumption) (layer_predict l x) (layer_predict l x')). now apply layer_causal.
Qed.

(** Layout of the weights: every weight is used for exactly one pair of positions. *)
Lemma tri_step i : (S i * i / 2 = i * (i - 1) / 2 + i)%nat.
Proof.
  destruct i as [|i]; [reflexivity|]. replace (S (S i) * S i)%nat with (S i * i + S i * 2)%nat by lia.
  rewrite Nat.div_add by lia. replace (S i - 1)%nat with i by lia. reflexivity.
Qed.
Lemma tri_mono i i' : (i <= i')%nat -> (i * (i - 1) / 2 <= i' * (i' - 1) / 2)%nat.
Proof. intros H. apply Nat.div_le_mono; [lia|]. apply Nat.mul_le_mono; lia. Qed.
Lemma tril_bound n i j : (j < i < n)%nat -> (tril_position i j < n * (n - 1) / 2)%nat.
Proof.
  intros H. unfold tril_position. pose proof (tri_step i) as S1. replace (S i * i)%nat with (S i * (S i - 1))%nat in S1 by (f_equal; lia). pose proof (tri_mono (S i) n ltac:(lia)). lia.
Qed.
Lemma tril_inj i j i' j' : (j < i)%nat -> (j' < i')%nat -> tril_position i j = tril_position i' j' -> i = i' /\ j = j'.
Proof.
  intros H H' E. unfold tril_position in E. assert (i = i').
  { destruct (Nat.lt_trichotomy i i') as [L|[->|L]]; [|reflexivity|]; exfalso.
    - pose proof (tri_step i) as S1. replace (S i * i)%nat with (S i * (S i - 1))%nat in S1 by (f_equal; lia). pose proof (tri_mono (S i) i' ltac:(lia)). lia.
    - pose proof (tri_step i') as S1. replace (S i' * i')%nat with (S i' * (S i' - 1))%nat in S1 by (f_equal; lia). pose proof (tri_mono (S i') i ltac:(lia)). lia. }
  subst. lia.
Qed.
Lemma tril_onto n p : (p < n * (n - 1) / 2)%nat -> exists i j, (j < i < n)%nat /\ tril_position i j = p.
Proof.
  induction n as [|n IH]; intros H; [cbn in H; lia|]. pose proof (tri_step n) as S1. replace (S n - 1)%nat with n in H by lia. rewrite S1 in H.
  destruct (Nat.lt_ge_cases p (n * (n - 1) / 2)) as [L|L].
  - destruct (IH L) as [i [j [A B]]]. exists i, j. split; [lia|exact B].
  - exists n, (p - n * (n - 1) / 2)%nat. unfold tril_position. lia.
Qed.
Lemma weights_layout n : (forall i j, (j < i < n)%nat -> (tril_position i j < n * (n - 1) / 2)%nat) /\
  (forall i j i' j', (j < i < n)%nat -> (j' < i' < n)%nat -> tril_position i j = tril_position i' j' -> i = i' /\ j = j') /\
  (forall p, (p < n * (n - 1) / 2)%nat -> exists i j, (j < i < n)%nat /\ tril_position i j = p).
Proof. split; [intros; now apply tril_bound|]. split; [intros; apply tril_inj; lia|]. intros. now apply tril_onto. Qed.

(** An [Identity] layer is not undone. *)
Definition plain (a : act) : layer := Layer 1 [] [0] 1 (1 / 100) a false.
Lemma identity_layer0 : exists x, length x = 1%nat /\ layer_invert (plain Identity) (layer_predict (plain Identity) x) <> Some x.
Proof.
  exists [2]. split; [reflexivity|]. assert (A : affine (plain Identity) [2] = [2]).
  { apply (list_eq_nth _ _ 0); [reflexivity|]. intros i Hi. rewrite affine_length in Hi. cbn in Hi. assert (i = 0%nat) as -> by lia. rewrite affine_nth by (cbn; lia). cbn. lra. }
  unfold layer_predict. cbn [prediction_layer plain]. rewrite A. cbn [map activate activation].
  unfold layer_invert. cbn [prediction_layer plain map activation negative_slope all_some].
  pose proof (identity_not_undone (1/100) 2 ltac:(lra)) as N. cbn [activate] in N. cbn [invert_activation] in *. cbn [option_map features substitute seq map bias nth rsum app].
  intros [= H]. apply N. f_equal. rewrite (kernel_diag (plain Identity) 0) in H. rewrite <- H at 2. field.
Qed.

Lemma identity_layer : exists l x, activation l = Identity /\ length x = features l /\ layer_invert l (layer_predict l x) <> Some x.
Proof. destruct identity_layer0 as [x [H1 H2]]. exists (plain Identity), x. auto. Qed.

(** ** End to end *)
Lemma mean_square_zero a b : length a = length b -> mean_square a b = 0 -> a = b.
Proof.
  intros L H. destruct a as [|v a]; [destruct b; [reflexivity|discriminate]|]. unfold mean_square in H.
  assert (P : 0 < INR (length (v :: a))) by (apply lt_0_INR; cbn; lia).
  assert (Z : rsum (fun i => square (nth i (v :: a) 0 - nth i b 0)) (length (v :: a)) = 0).
  { unfold Rdiv in H. apply Rmult_integral in H. destruct H as [H|H]; [exact H|]. pose proof (Rinv_0_lt_compat _ P). lra. }
  assert (G : forall f n, (forall i, 0 <= f i) -> 0 <= rsum f n /\ (rsum f n = 0 -> forall i, (i < n)%nat -> f i = 0)).
  { intros f n Hf. induction n as [|n [I1 I2]]; cbn [rsum]; [split; [lra|intros; lia]|]. pose proof (Hf n). split; [lra|].
    intros E i Hi. destruct (Nat.eq_dec i n) as [->|N]; [lra|]. apply I2; [lra|lia]. }
  destruct (G (fun i => square (nth i (v :: a) 0 - nth i b 0)) (length (v :: a))) as [_ G2]; [intros; unfold square; apply Rle_0_sqr|].
  apply (list_eq_nth _ _ 0); [exact L|]. intros i Hi. specialize (G2 Z i Hi). cbv beta in G2. unfold square in G2. apply Rsqr_0_uniq in G2. lra.
Qed.
Lemma last_of_length {A} n (l : list A) : (n <= length l)%nat -> length (last_of n l) = n.
Proof. intros. unfold last_of. rewrite skipn_length. lia. Qed.
Lemma layer_invert_length l y z : layer_invert l y = Some z -> length z = features l.
Proof. unfold layer_invert. destruct (if prediction_layer l then _ else _); cbn; [|discriminate]. intros [= <-]. apply substitute_length. Qed.
(** Zero loss in the 'full' mode: the forecast is the target. *)
Lemma full_loss_exact n ls predictor x target : wide n ls -> ls <> [] -> length x = n -> length (predictor x) = length target -> (length target <= n)%nat ->
  full_loss ls predictor x target = Some 0 -> decode_future ls x (predictor x) = Some target.
Proof.
  intros W Hne Hx Hp Hn H. unfold full_loss in H. destruct (decode_future ls x (predictor x)) as [y|] eqn:E; [|discriminate]. cbn in H. injection H as H. f_equal. symmetry.
  apply mean_square_zero; [|exact H]. unfold decode_future in E. destruct (module_invert ls _) as [z|] eqn:Z; [|discriminate]. cbn in E. injection E as <-.
  rewrite Hp. rewrite last_of_length; [reflexivity|]. destruct ls as [|l ls]; [congruence|]. cbn in Z. destruct (module_invert ls _) as [z'|]; [|discriminate].
  apply layer_invert_length in Z. inversion W; subst. lia.
Qed.
(** Zero error in the 'quasi' mode does not give the target. *)
Definition two : layer := Layer 2 [1] [0; 0] 1 (1 / 100) Linloglin true.
Lemma tanh_1_pos : 0 < tanh 1.
Proof.
  unfold tanh. apply Rdiv_lt_0_compat; unfold sinh, cosh.
  - assert (exp (Ropp 1) < exp 1) by (apply exp_increasing; lra). lra.
  - pose proof (exp_pos 1). pose proof (exp_pos (Ropp 1)). lra.
Qed.
Lemma two_affine a b : affine two [a; b] = [a; kernel two 1 0 * a + b].
Proof.
  apply (list_eq_nth _ _ 0); [reflexivity|]. intros i Hi. rewrite affine_length in Hi. cbn in Hi.
  destruct i as [|[|i]]; [| |lia]; rewrite affine_nth by (cbn; lia); cbn [rsum nth bias two]; ring.
Qed.
Lemma two_invert a b : layer_invert two [a; b] = Some [a; b - kernel two 1 0 * a].
Proof.
  unfold layer_invert. cbn [prediction_layer two option_map features seq map nth bias substitute app rsum]. fold two. rewrite !kernel_diag. f_equal.
  replace ((a - 0 - 0) / 1) with a by field. f_equal. f_equal. field.
Qed.
Lemma quasi_not_exact : exists ls predictor x target, wide 2 ls /\ length x = 2%nat /\ length target = 1%nat /\
  quasi_error ls predictor x target = 0 /\ decode_future ls x (predictor x) <> Some target.
Proof.
  pose (t := kernel two 1 0). assert (T : 0 < t). { unfold t, kernel, lower. cbn. pose proof tanh_1_pos. unfold Rdiv. rewrite Rmult_1_r, Rplus_0_r. apply Rmult_lt_0_compat; [assumption|]. apply Rinv_0_lt_compat. lra. }
  exists [two], (fun _ => [t * 0 + 5]), [1; 0], [5]. split; [repeat constructor|]. split; [reflexivity|]. split; [reflexivity|]. split.
  - unfold quasi_error, module_predict. cbn [length skipn app fold_left]. unfold layer_predict. cbn [prediction_layer two]. fold two. rewrite two_affine. fold t.
    unfold last_of. cbn [length Nat.sub skipn]. unfold mean_square. cbn [length rsum nth]. unfold square, Rdiv. ring.
  - unfold decode_future, module_predict. cbn [length fold_left]. unfold layer_predict. cbn [prediction_layer two]. fold two. rewrite two_affine. fold t. cbn [skipn app module_invert].
    rewrite two_invert. fold t. cbn. intros [= H]. assert (t * t = 0) by lra. assert (0 < t * t) by (apply Rmult_lt_0_compat; exact T). lra.
Qed.
