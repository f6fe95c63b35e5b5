From Coq Require Import String List Arith Bool Lia.
From Verif Require Import Model.Names Model.Encoder Model.Quantiles Model.Trainer Model.SaveLoad Proof.TrainerProof Proof.ReprojectProof Proof.HybridProof.
Import ListNotations.

Lemma same_refl a : same a a = true.
Proof. unfold same; destruct (list_eq_dec Ascii.ascii_dec a a); congruence. Qed.
Lemma same_eq a b : same a b = true -> a = b.
Proof. unfold same; destruct (list_eq_dec Ascii.ascii_dec a b); congruence. Qed.

Lemma saved_in {V D} (p : value V D -> bool) k o n v :
  In (n, v) (save p k o) -> lookup n o = Some v /\ In n (class_names k) /\ p v = true /\ member runtime n = false.
Proof.
  unfold save. intros H. apply in_flat_map in H. destruct H as (m & Hm & H).
  destruct (lookup m o) eqn:E; [|destruct H].
  destruct (member runtime m) eqn:R; simpl in H; [destruct H|].
  destruct (p v0) eqn:P; [|destruct H].
  destruct H as [H|[]]. injection H as <- <-. auto.
Qed.
Lemma in_saved {V D} (p : value V D -> bool) k o n v :
  lookup n o = Some v -> In n (class_names k) -> p v = true -> member runtime n = false -> In (n, v) (save p k o).
Proof.
  intros H Hn P R. unfold save. apply in_flat_map. exists n. split; [exact Hn|]. rewrite H, R, P. simpl. auto.
Qed.
Lemma lookup_in {A} (d : list (text * A)) n v : lookup n d = Some v -> In (n, v) d.
Proof.
  induction d as [|[m w] d IH]; simpl; [discriminate|].
  destruct (same n m) eqn:E; intros H; [apply same_eq in E; left; congruence|right; auto].
Qed.
Lemma lookup_unique {A} (d : list (text * A)) n v :
  In (n, v) d -> (forall w, In (n, w) d -> w = v) -> lookup n d = Some v.
Proof.
  induction d as [|[m w] d IH]; simpl; [intros []|].
  intros H U. destruct (same n m) eqn:E.
  - apply same_eq in E. subst. f_equal. apply U. auto.
  - destruct H as [H|H]; [injection H as -> ->; rewrite same_refl in E; discriminate|]. apply IH; auto.
Qed.
Lemma lookup_none {A} (d : list (text * A)) n : (forall w, ~ In (n, w) d) -> lookup n d = None.
Proof.
  induction d as [|[m w] d IH]; simpl; auto. intros H.
  destruct (same n m) eqn:E; [apply same_eq in E; subst; exfalso; apply (H w); auto|]. apply IH. intros x Hx. apply (H x). auto.
Qed.

Lemma lookup_app' {A} n (a b : list (text * A)) : lookup n (a ++ b) = match lookup n a with Some v => Some v | None => lookup n b end.
Proof. induction a as [|[m w] a IH]; simpl; auto. destruct (same n m); auto. Qed.

(** What an attribute is after loading. *)
Lemma restored {V D} (p : value V D -> bool) k o args n :
  (forall v, lookup n o = Some v -> In n (class_names k) -> p v = true -> member runtime n = false ->
     lookup n (restore args (save p k o)) = Some v) /\
  ((~ In n (class_names k)) -> lookup n (restore args (save p k o)) = lookup n (construct args)).
Proof.
  unfold restore, set_attr. split.
  - intros v H Hn P R. rewrite lookup_app'.
    rewrite (lookup_unique (rev (save p k o)) n v); auto.
    + apply -> in_rev. apply in_saved; auto.
    + intros w Hw. apply in_rev in Hw. apply saved_in in Hw. destruct Hw as [Hw _]. congruence.
  - intros Hn. rewrite lookup_app'. rewrite (lookup_none (rev (save p k o))); auto.
    intros w Hw. apply in_rev in Hw. apply saved_in in Hw. tauto.
Qed.

Definition text_dec : forall a b : text, {a = b} + {a <> b} := list_eq_dec Ascii.ascii_dec.

Lemma saved_reads k n : In n (read_by_predict k) -> n <> txt "n_encoder_layers" -> n <> txt "n_decoder_layers" ->
  In n (class_names k) /\ member runtime n = false.
Proof.
  intros H A B.
  assert (forallb (fun m => existsb (same m) (class_names k) && negb (member runtime m) || same m (txt "n_encoder_layers") || same m (txt "n_decoder_layers")) (read_by_predict k) = true)
    as C by (destruct k; vm_compute; reflexivity).
  rewrite forallb_forall in C. specialize (C n H).
  apply orb_true_iff in C. destruct C as [C|C]; [|apply same_eq in C; contradiction].
  apply orb_true_iff in C. destruct C as [C|C]; [|apply same_eq in C; contradiction].
  apply andb_true_iff in C. destruct C as [C R]. apply negb_true_iff in R. split; auto.
  apply existsb_exists in C. destruct C as (m & Hm & E). apply same_eq in E. subst. auto.
Qed.

Lemma not_read k n : k <> Latent -> In n (read_by_predict k) -> n <> txt "n_encoder_layers" /\ n <> txt "n_decoder_layers".
Proof.
  intros K H.
  assert (forallb (fun m => negb (same m (txt "n_encoder_layers")) && negb (same m (txt "n_decoder_layers"))) (read_by_predict k) = true)
    as C by (destruct k; try congruence; vm_compute; reflexivity).
  rewrite forallb_forall in C. specialize (C n H). apply andb_true_iff in C. destruct C as [A B].
  split; intros ->; [rewrite same_refl in A|rewrite same_refl in B]; discriminate.
Qed.

(** A loaded forecaster predicts what the saved one predicted, whatever arguments it was constructed with. *)
Lemma reload_predicts {V D O} (picklable : value V D -> bool) (k : kind) (network : list (option (value V D)) -> O) (o args : object V D) :
  k <> Latent ->
  (forall n, In n (read_by_predict k) -> exists v, lookup n o = Some v /\ picklable v = true) ->
  predict k network (restore args (save picklable k o)) = predict k network o.
Proof.
  intros K H. unfold predict. f_equal. apply map_ext_in. intros n Hn.
  destruct (H n Hn) as (v & L & P). rewrite L.
  assert (n <> txt "n_encoder_layers" /\ n <> txt "n_decoder_layers") as [N1 N2].
  { apply (not_read k); auto. }
  destruct (saved_reads k n Hn N1 N2). apply (restored picklable k o args n); auto.
Qed.

Lemma latent_depth_lost {V D} (picklable : value V D -> bool) (o args : object V D) n :
  n = txt "n_encoder_layers" \/ n = txt "n_decoder_layers" ->
  lookup n (restore args (save picklable Latent o)) = lookup n args.
Proof.
  intros H. rewrite (proj2 (restored picklable Latent o args n)).
  - unfold construct. cbn [lookup]. replace (same n (txt "err_distr")) with false; auto.
    destruct H; subst; reflexivity.
  - intros C. assert (existsb (same n) (class_names Latent) = true) by (apply existsb_exists; eexists; split; [exact C|apply same_refl]).
    destruct H; subst; vm_compute in H0; discriminate.
Qed.

(** The latent network is rebuilt with the encoder and decoder depths of the constructor. *)
Lemma reload_latent {V D O} (picklable : value V D -> bool) (network : list (option (value V D)) -> O) (o args : object V D) :
  (forall n, In n (read_by_predict Latent) -> exists v, lookup n o = Some v /\ picklable v = true) ->
  (forall n, n = txt "n_encoder_layers" \/ n = txt "n_decoder_layers" -> lookup n args = lookup n o) ->
  predict Latent network (restore args (save picklable Latent o)) = predict Latent network o.
Proof.
  intros H A. unfold predict. f_equal. apply map_ext_in. intros n Hn.
  destruct (H n Hn) as (v & L & P).
  destruct (text_dec n (txt "n_encoder_layers")) as [E|N1].
  2: destruct (text_dec n (txt "n_decoder_layers")) as [E|N2].
  1,2: rewrite latent_depth_lost by auto; apply A; auto.
  rewrite L. destruct (saved_reads Latent n Hn N1 N2). apply (restored picklable Latent o args n); auto.
Qed.
Lemma not_class k n : member (class_names k) n = false -> ~ In n (class_names k).
Proof.
  intros H C. apply not_true_iff_false in H. apply H. apply existsb_exists. eexists; split; [exact C|apply same_refl].
Qed.
(** The error distribution is not saved: a loaded forecaster has no quantiles for any row. *)
Lemma reload_no_quantiles {V D O Q} (picklable : value V D -> bool) k (network : list (option (value V D)) -> O) gauss (add : O -> D -> Q) (o args : object V D) hours :
  (exists b, lookup (txt "probabilistic") o = Some (Flag b) /\ b = false /\ picklable (Flag b) = true) -> hours <> [] ->
  quantiles k network gauss add hours (restore args (save picklable k o)) = None.
Proof.
  intros (b & H & B & P) N. subst b. unfold quantiles.
  assert (lookup (txt "probabilistic") (restore args (save picklable k o)) = Some (Flag false)) as E.
  { apply (restored picklable k o args); auto.
    apply in_or_app. left. unfold base_names. apply in_map. simpl. tauto. }
  rewrite E.
  assert (lookup (txt "err_distr") (restore args (save picklable k o)) = Some (ByHour [])) as F.
  { rewrite (proj2 (restored picklable k o args _)); [reflexivity|].
    apply not_class. destruct k; vm_compute; reflexivity. }
  rewrite F. destruct hours as [|h hours]; [congruence|]. reflexivity.
Qed.
(** With the probabilistic head, quantiles survive when the same levels are given to the constructor. *)
Lemma reload_quantiles {V D O Q} (picklable : value V D -> bool) k (network : list (option (value V D)) -> O) gauss (add : O -> D -> Q) (o args : object V D) hours :
  k <> Latent ->
  (forall n, In n (read_by_predict k) -> exists v, lookup n o = Some v /\ picklable v = true) ->
  lookup (txt "probabilistic") o = Some (Flag true) ->
  lookup (txt "q_vect") args = lookup (txt "q_vect") o ->
  quantiles k network gauss add hours (restore args (save picklable k o)) = quantiles k network gauss add hours o.
Proof.
  intros K H P A.
  assert (predict k network (restore args (save picklable k o)) = predict k network o) as E by (apply reload_predicts; auto).
  unfold quantiles. rewrite P.
  replace (lookup (txt "probabilistic") (restore args (save picklable k o))) with (Some (@Flag V D true)).
  2:{ destruct (H (txt "probabilistic")) as (v & L & PK). { apply in_or_app. left. apply in_map. simpl. tauto. }
      assert (v = Flag true) by congruence; subst v. symmetry. apply (restored picklable k o args); auto.
      apply in_or_app. left. unfold base_names. apply in_map. simpl. tauto. }
  rewrite E.
  replace (lookup (txt "q_vect") (restore args (save picklable k o))) with (lookup (txt "q_vect") o); auto.
  rewrite (proj2 (restored picklable k o args _)).
  - unfold construct. cbn [lookup]. replace (same (txt "q_vect") (txt "err_distr")) with false by reflexivity. auto.
  - apply not_class. destruct k; vm_compute; reflexivity.
Qed.

(** No copy of a stateful forecaster can be made; updating its own states works. *)
Lemma stateful_copy_fails {S} (o : instance S) : copied o = None.
Proof. unfold copied. destruct (getstate o); reflexivity. Qed.
Lemma setstate_updates {S} (o o' : instance S) new n :
  setstate o new = Some o' -> exists s s', getstate o = Some s /\ getstate o' = Some s' /\
    lookup n s' = match lookup n (rev new) with Some v => Some v | None => lookup n s end.
Proof.
  unfold setstate, getstate. destruct (lookup (txt "states") o) as [[|s]|]; try discriminate.
  intros H. exists s, (rev new ++ s). repeat split; [|apply lookup_app'].
  assert (o' = (txt "states", States (rev new ++ s)) :: o) as -> by congruence. reflexivity.
Qed.
