From Coq Require Import List ZArith Arith Bool Reals Lia Lra.
From Verif Require Import Model.Subsample Model.Quantiles Model.Scaling Model.FeedForward Spec.FeedForwardSpec
  Proof.SeriesProof Proof.QuantilesProof Proof.ScalingProof Proof.FeedForwardProof.
Import ListNotations.
Local Open Scope R_scope.

Lemma relu_positive v : relu v = positive_part v.
Proof. unfold relu, positive_part. destruct (Rle_dec 0 v); [apply Rmax_left|apply Rmax_right]; lra. Qed.
Lemma dot_weighted w x : length w = length x -> dot w x = weighted w x.
Proof.
  unfold dot, weighted. revert x. induction w as [|a w IH]; intros [|v x] L; try discriminate; [reflexivity|].
  rewrite map2_cons. cbn [length seq map fold_right nth]. rewrite <- seq_shift, map_map. cbn [nth]. rewrite IH by (cbn in L; lia). reflexivity.
Qed.
Lemma dense_affine f p x z : dense f p x = Some z -> z = affine p x /\ length p = f.
Proof.
  unfold dense. destruct ((length p =? f)%nat && forallb _ p) eqn:E; [|discriminate]. intros H. injection H as <-.
  apply andb_prop in E. destruct E as [Ef E]. apply Nat.eqb_eq in Ef. rewrite forallb_forall in E. split; [|assumption].
  unfold affine. apply map_ext_in. intros wb I. rewrite dot_weighted; [reflexivity|]. apply Nat.eqb_eq, E, I.
Qed.
Lemma trunk_values par norm sizes x v i : trunk par norm i sizes x = Some v ->
  exists h : nat -> list R, h i = x /\ (forall j, (i <= j < i + (length sizes - 1))%nat -> h (S j) = norm j (map positive_part (affine (par (Hidden j)) (h j)))) /\
    h (i + (length sizes - 1))%nat = v.
Proof.
  revert i x. induction sizes as [|n rest IH]; intros i x.
  - cbn. intros H. injection H as <-. exists (fun _ => x). repeat split; intros; try lia.
  - cbn [trunk]. destruct rest as [|r rest].
    + intros H. injection H as <-. exists (fun _ => x). cbn. repeat split; intros; lia.
    + destruct (dense n (par (Hidden i)) x) as [z|] eqn:D; [|discriminate]. intros H. apply IH in H. destruct H as (h & H0 & Hs & Hv).
      apply dense_affine in D. destruct D as [-> _].
      exists (fun j => if (j <=? i)%nat then x else h j). cbn [length] in *. split; [rewrite Nat.leb_refl; reflexivity|]. split.
      * intros j J. destruct (Nat.leb_spec (S j) i); [lia|]. destruct (Nat.leb_spec j i).
        -- assert (j = i) by lia. subst j. rewrite H0. f_equal. apply map_ext. apply relu_positive.
        -- apply Hs. lia.
      * destruct (Nat.leb_spec (i + (S (S (length rest)) - 1)) i); [lia|]. rewrite <- Hv. f_equal. lia.
Qed.
Lemma sizes_layers o n sizes : has_layers o (S n) -> layer_sizes o = Some sizes -> length sizes = S n.
Proof.
  unfold has_layers, layer_sizes. destruct (o_layers o) as [m|l].
  - intros ->. destruct (o_neurons o); [|discriminate]. destruct (o_out o); [|discriminate]. intros H. injection H as <-.
    rewrite app_length, repeat_length. cbn. lia.
  - intros L H. injection H as <-. assumption.
Qed.
Lemma network_values (par : name -> layer) (norm : nat -> list R -> list R) (outside : list R -> Z -> R) (o : options) (n : nat) (x out : list R) :
  has_layers o (S n) -> o_split o = false -> o_selector o = None -> o_skip o = false -> forward par norm outside o x = Some out ->
  exists h, hidden_values par norm n x h /\ out = affine (par (Hidden n)) (h n).
Proof.
  intros L Sp Se Sk F. destruct (forward_some par norm outside o x) as [sizes E]; [congruence|].
  pose proof (sizes_layers _ _ _ L E) as Ls. assert (N : sizes <> []) by (destruct sizes; [discriminate|congruence]).
  destruct (forward_split _ _ _ _ _ _ _ E N F) as (y & v & z & Y & T & Z & A).
  apply trunk_values in T. destruct T as (h & H0 & Hs & Hv). rewrite Ls in Hs, Hv. cbn [Nat.add] in *.
  unfold shortcut in Y. rewrite Se, Sk in Y. injection Y as <-.
  unfold last_layer in Z. rewrite Sp, Ls in Z. apply dense_affine in Z. destruct Z as [-> _].
  replace (S n - 1)%nat with n in * by lia. exists h. split; [split; [assumption|intros; apply Hs; lia]|].
  subst v. rewrite add_zero in A. injection A as <-. reflexivity.
Qed.
Lemma heads_values (par : name -> layer) (norm : nat -> list R -> list R) (outside : list R -> Z -> R) (o : options) (n m neurons : nat) (x out : list R) :
  o_layers o = Count (S n) -> o_out o = Some m -> o_neurons o = Some neurons ->
  o_split o = true -> o_selector o = None -> o_skip o = false -> forward par norm outside o x = Some out ->
  exists h, hidden_values par norm n x h /\ length out = m /\
    forall k, (k < m)%nat -> affine (par (SubOut k)) (map positive_part (affine (par (SubIn k)) (h n))) = [nth k out 0] /\
      length (par (SubIn k)) = match n with O => m | _ => neurons end.
Proof.
  intros L Om On Sp Se Sk F. destruct (forward_some par norm outside o x) as [sizes E]; [congruence|].
  assert (Es : sizes = repeat neurons n ++ [m]) by (unfold layer_sizes in E; rewrite L, On, Om in E; congruence).
  assert (Ls : length sizes = S n) by (subst sizes; rewrite app_length, repeat_length; cbn; lia).
  assert (N : sizes <> []) by (destruct sizes; [discriminate|congruence]).
  destruct (forward_split _ _ _ _ _ _ _ E N F) as (y & v & z & Y & T & Z & A).
  apply trunk_values in T. destruct T as (h & H0 & Hs & Hv). rewrite Ls in Hs, Hv. cbn [Nat.add] in *.
  unfold shortcut in Y. rewrite Se, Sk in Y. injection Y as <-. rewrite add_zero in A. injection A as <-.
  pose proof (last_layer_length _ _ _ _ _ Z) as Lz. rewrite Sp, Om in Lz.
  unfold last_layer in Z. rewrite Sp, Om in Z. replace (S n - 1)%nat with n in * by lia. destruct m as [|m]; [discriminate|].
  exists h. split; [split; [assumption|intros; apply Hs; lia]|]. split; [assumption|]. intros k K.
  assert (W : head_width sizes = match n with O => S m | _ => neurons end).
  { subst sizes. unfold head_width. rewrite rev_app_distr. cbn [rev app]. destruct n as [|n]; [reflexivity|].
    replace (repeat neurons (S n)) with (repeat neurons n ++ [neurons]) by (symmetry; apply repeat_cons). rewrite rev_app_distr. reflexivity. }
  pose proof (all_some_nth_eq _ _ 0 k Z ltac:(rewrite map_length, seq_length; assumption)) as Hk.
  rewrite nth_error_map in Hk. destruct (nth_error (seq 0 (S m)) k) as [k'|] eqn:Ek; [|discriminate].
  assert (k' = k) by (apply (nth_error_nth _ _ 0%nat) in Ek; rewrite seq_nth in Ek by assumption; lia). subst k'. cbn [option_map] in Hk. injection Hk as Hk.
  unfold head in Hk. destruct (dense (head_width sizes) (par (SubIn k)) v) as [u|] eqn:D; [|discriminate]. apply dense_affine in D. destruct D as [-> Lu].
  destruct (dense 1 (par (SubOut k)) _) as [[|w [|? ?]]|] eqn:D; try discriminate. apply dense_affine in D. destruct D as [D _].
  injection Hk as ->. split; [|congruence]. rewrite D. subst v. f_equal. apply map_ext. intros a. symmetry. apply relu_positive.
Qed.

(** C163 *)
Lemma select_from_end outside x k : (k < length x)%nat -> select_one outside x (- Z.of_nat (S k)) = nth (length x - S k) x 0.
Proof.
  intros K. unfold select_one. destruct (Z.ltb_spec (- Z.of_nat (S k)) 0) as [?|?]; [|lia].
  replace (- Z.of_nat (S k) + Z.of_nat (length x))%Z with (Z.of_nat (length x - S k)) by lia.
  rewrite (proj2 (Z.leb_le 0 _)) by lia. rewrite (proj2 (Z.ltb_lt _ (Z.of_nat (length x)))) by lia. cbn [andb]. rewrite Nat2Z.id. reflexivity.
Qed.
Lemma selector_from_end (par : name -> layer) (norm : nat -> list R -> list R) (outside : list R -> Z -> R) (o : options) (s : list nat) (skip : bool) (x : list R) :
  Forall (fun k => (k < length x)%nat) s ->
  forward par norm outside (with_shortcuts (Some (from_the_end s)) skip o) x
  = forward par norm outside (with_shortcuts (Some (positions (map (fun k => (length x - S k)%nat) s))) skip o) x.
Proof.
  intros H. assert (E : map (select_one outside x) (from_the_end s) = map (select_one outside x) (positions (map (fun k => (length x - S k)%nat) s))).
  { unfold from_the_end, positions. rewrite !map_map. apply map_ext_in. intros k I. rewrite Forall_forall in H. pose proof (H k I).
    rewrite select_from_end by assumption. rewrite select_nth by lia. reflexivity. }
  unfold forward. change (layer_sizes (with_shortcuts (Some (from_the_end s)) skip o)) with (layer_sizes o).
  change (layer_sizes (with_shortcuts (Some (positions (map (fun k => (length x - S k)%nat) s))) skip o)) with (layer_sizes o).
  destruct (layer_sizes o); [|reflexivity]. unfold shortcut. cbn [with_shortcuts o_selector]. rewrite E. reflexivity.
Qed.

(** C165 *)
Lemma unnormalised_arrays (k : kind) (d : data) : k <> Invertible ->
  quantiles_return k true false d = true <-> (k = Dense /\ d = Table) \/ k = Recurrent \/ (k = Convex /\ d = Pair).
Proof. destruct k, d; cbn; intros N; intuition (congruence || discriminate). Qed.
