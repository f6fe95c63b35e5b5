From Coq Require Import Reals List Arith Bool Lia Lra.
From Verif Require Import Model.Names Model.Encoder Model.Quantiles Model.Reproject Spec.ReprojectSpec Proof.QuantilesProof.
Import ListNotations.
Local Open Scope R_scope.

Lemma constrained_tags rs mono outer inner key : constrained rs mono outer inner key =
  contains picnn_tag outer && (same key k_wz || (same key k_wy && (rs || mono || contains monotone_tag outer || contains monotone_tag inner))).
Proof. reflexivity. Qed.
Lemma complete_tags g : complete g = (In k_wz (names g) /\ In k_wy (names g)).
Proof. reflexivity. Qed.
(** A name contains a text if and only if the text is a part of it. *)
Lemma name_contains_iff (s t : text) : contains s t = true <-> exists u v, t = (u ++ s ++ v)%list.
Proof.
  assert (forall s t, starts s t = true <-> exists v, t = (s ++ v)%list) as St.
  { clear s t. induction s as [|a s IH]; intros t; [split; [intros _; now exists t | reflexivity]|]. destruct t as [|b t]; cbn [starts].
    - split; [discriminate | intros [v E]; discriminate].
    - destruct (Ascii.ascii_dec a b) as [->|N]; [rewrite IH|]; (split; [|intros [v E]]).
      + intros [v ->]. now exists v.
      + exists v. now injection E.
      + discriminate.
      + injection E; congruence. }
  induction t as [|b t IH]; cbn [contains]; rewrite orb_true_iff, St.
  - split; [intros [[v E]|E]; [exists [], v; exact E | discriminate]|]. intros (u & v & E). destruct u; [left; now exists v | discriminate].
  - rewrite IH. split.
    + intros [[v E]|(u & v & E)]; [exists [], v; exact E | exists (b :: u), v; cbn; now rewrite E].
    + intros ([|c u] & v & E); [left; now exists v | right; exists u, v; now injection E].
Qed.
Lemma same_spec a b : same a b = true <-> a = b.
Proof. unfold same. destruct (list_eq_dec Ascii.ascii_dec a b); split; congruence. Qed.
Lemma member_in l v : member l v = true <-> In v l.
Proof.
  unfold member. rewrite existsb_exists. split.
  - intros [x [H E]]. apply same_spec in E. congruence.
  - intros H. exists v. split; [exact H|now apply same_spec].
Qed.
Lemma project_positive d : project d = positive_part d.
Proof. reflexivity. Qed.
Lemma project_keys_fix p c g : (forall k, p k = c k) -> project_keys p g = fix_group c g.
Proof. intros H. apply map_ext. intros [k d]. cbn. rewrite H. destruct (c k); [now rewrite project_positive|reflexivity]. Qed.
Lemma project_keys_names p g : names (project_keys p g) = names g.
Proof. unfold names, project_keys. rewrite map_map. reflexivity. Qed.
Lemma project_keys_two p q g : (forall k, p k = true -> q k = true -> False) -> project_keys q (project_keys p g) = project_keys (fun k => p k || q k) g.
Proof.
  intros H. unfold project_keys. rewrite map_map. apply map_ext. intros [k d]. cbn. specialize (H k). destruct (p k), (q k); cbn; try reflexivity. exfalso. auto.
Qed.
Lemma wz_not_wy k : same k k_wz = true -> same k k_wy = true -> False.
Proof. rewrite !same_spec. intros -> H. discriminate. Qed.
Lemma group_fixed rs mono outer inner g g' : contains picnn_tag outer = true ->
  reproject_group rs (mono || contains monotone_tag outer) inner g = Some g' -> g' = fix_group (constrained rs mono outer inner) g.
Proof.
  intros Hp. unfold reproject_group. intros H.
  destruct (contains monotone_tag inner || (mono || contains monotone_tag outer)) eqn:M.
  - injection H as <-. apply project_keys_fix. intros k. rewrite constrained_tags. rewrite Hp. cbn [andb]. replace (rs || mono || contains monotone_tag outer || contains monotone_tag inner) with true; [now rewrite andb_true_r|].
    destruct rs, mono, (contains monotone_tag outer), (contains monotone_tag inner); cbn in M |- *; congruence.
  - destruct (member (names g) k_wz); [|discriminate]. apply orb_false_elim in M. destruct M as [M1 M2]. apply orb_false_elim in M2. destruct M2 as [M2 M3]. destruct rs.
    + destruct (member _ k_wy); [|discriminate]. injection H as <-. rewrite project_keys_two by apply wz_not_wy. apply project_keys_fix. intros k. rewrite constrained_tags. rewrite Hp. cbn. now rewrite andb_true_r.
    + injection H as <-. apply project_keys_fix. intros k. rewrite constrained_tags. rewrite Hp, M1, M2, M3. cbn. now rewrite andb_false_r, orb_false_r.
Qed.
Lemma fix_nothing g : fix_group (fun _ => false) g = g.
Proof. unfold fix_group. erewrite map_ext; [apply map_id|]. now intros [k d]. Qed.
Lemma all_some_pairs {A B} (f : text -> A -> option B) (l : list (text * A)) r (h : text -> A -> B) :
  (forall n a b, In (n, a) l -> f n a = Some b -> b = h n a) ->
  all_some (map (fun e => option_map (pair (fst e)) (f (fst e) (snd e))) l) = Some r -> r = map (fun e => (fst e, h (fst e) (snd e))) l.
Proof.
  revert r. induction l as [|[n a] l IH]; intros r H E; cbn in *; [congruence|]. destruct (f n a) as [b|] eqn:F; [|discriminate]. cbn in E.
  destruct (all_some _) as [r'|] eqn:R; [|discriminate]. cbn in E. injection E as <-. rewrite (H n a b (or_introl eq_refl) F). f_equal. apply IH; [|reflexivity]. intros; eapply H; eauto.
Qed.
(** Exactly the constrained weights are replaced by their positive part. *)
Lemma reproject_fixed rs mono t t' : reproject rs mono t = Some t' -> t' = fixed rs mono t.
Proof.
  intros H. unfold reproject in H.
  apply (all_some_pairs (fun n a => reproject_node rs mono n a) t t' (fun name n => match n with
    | Flat g => Flat (fix_group (constrained rs mono name name) g)
    | Nested l => Nested (map (fun f => (fst f, fix_group (constrained rs mono name (fst f)) (snd f))) l)
    end)) in H; [exact H|]. clear. intros name n n' _ E. cbv beta. unfold reproject_node in E.
  destruct (contains picnn_tag name) eqn:P.
  - destruct n as [g|l].
    + destruct (member (names g) k_wz) eqn:M.
      * destruct (reproject_group _ _ _ g) as [g'|] eqn:G; [|discriminate]. cbn in E. injection E as <-. f_equal. eapply group_fixed; eauto.
      * destruct g; [injection E as <-; reflexivity|discriminate].
    + destruct (member (names l) k_wz); [discriminate|]. destruct (all_some _) as [l'|] eqn:G; [|discriminate]. cbn in E. injection E as <-. f_equal.
      apply (all_some_pairs (fun n g => reproject_group rs (mono || contains monotone_tag name) n g) l l' (fun m g => fix_group (constrained rs mono name m) g)) in G; [exact G|]. intros m g g' _ F. cbv beta. eapply group_fixed; eauto.
  - injection E as <-. assert (C : forall inner k, constrained rs mono name inner k = false) by (intros; rewrite constrained_tags; now rewrite P).
    destruct n as [g|l]; f_equal.
    + erewrite <- (fix_nothing g) at 1. apply map_ext. intros [k d]. cbn. now rewrite C.
    + erewrite map_ext; [symmetry; apply map_id|]. intros [m g]. cbn. f_equal. rewrite <- (fix_nothing g) at 2. apply map_ext. intros [k d]. cbn. now rewrite C.
Qed.
Lemma positive_nonneg d : nonnegative (positive_part d).
Proof.
  unfold nonnegative, positive_part. cbn. apply Forall_forall. intros r Hr. apply in_map_iff in Hr. destruct Hr as [r0 [<- _]]. apply Forall_forall. intros w Hw.
  apply in_map_iff in Hw. destruct Hw as [w0 [<- _]]. destruct (Rle_dec 0 w0); lra.
Qed.
Lemma fixed_nonneg rs mono t outer inner key d : dense_at (fixed rs mono t) outer inner key d -> constrained rs mono outer inner key = true -> nonnegative d.
Proof.
  intros H C. unfold fixed in H. destruct H as [[g [H1 [-> H2]]]|[l [g [H1 [H2 H3]]]]].
  - apply in_map_iff in H1. destruct H1 as [[nm n] [E1 H1]]. cbn in E1. injection E1 as -> E1. destruct n as [g0|l0]; [|discriminate]. injection E1 as <-.
    apply in_map_iff in H2. destruct H2 as [[k d0] [E2 _]]. cbn in E2. injection E2 as -> <-. rewrite C. apply positive_nonneg.
  - apply in_map_iff in H1. destruct H1 as [[nm n] [E1 H1]]. cbn in E1. injection E1 as -> E1. destruct n as [g0|l0]; [discriminate|]. injection E1 as <-.
    apply in_map_iff in H2. destruct H2 as [[m g1] [E2 _]]. cbn in E2. injection E2 as -> <-. apply in_map_iff in H3. destruct H3 as [[k d0] [E3 _]]. cbn in E3. injection E3 as -> <-.
    rewrite C. apply positive_nonneg.
Qed.
Lemma reproject_nonneg rs mono t t' outer inner key d : reproject rs mono t = Some t' -> dense_at t' outer inner key d -> constrained rs mono outer inner key = true -> nonnegative d.
Proof. intros H. rewrite (reproject_fixed _ _ _ _ H). apply fixed_nonneg. Qed.
Lemma positive_twice d : positive_part (positive_part d) = positive_part d.
Proof.
  unfold positive_part. cbn. f_equal. rewrite map_map. apply map_ext. intros r. rewrite map_map. apply map_ext. intros w. destruct (Rle_dec 0 w); [now destruct (Rle_dec 0 w)|]. now destruct (Rle_dec 0 0).
Qed.
Lemma fix_twice c g : fix_group c (fix_group c g) = fix_group c g.
Proof. unfold fix_group. rewrite map_map. apply map_ext. intros [k d]. cbn. destruct (c k) eqn:E; rewrite ?E; [now rewrite positive_twice|reflexivity]. Qed.
Lemma fixed_twice rs mono t : fixed rs mono (fixed rs mono t) = fixed rs mono t.
Proof.
  unfold fixed. rewrite map_map. apply map_ext. intros [name n]. cbn. f_equal. destruct n as [g|l]; f_equal; [apply fix_twice|].
  rewrite map_map. apply map_ext. intros [m g]. cbn. f_equal. apply fix_twice.
Qed.
Lemma fix_names c g : names (fix_group c g) = names g.
Proof. unfold names, fix_group. rewrite map_map. reflexivity. Qed.
Lemma fixed_well_formed rs mono t : well_formed t -> well_formed (fixed rs mono t).
Proof.
  intros W name n H P. unfold fixed in H. apply in_map_iff in H. destruct H as [[nm n0] [E H]]. cbn in E. injection E as -> <-. specialize (W name n0 H P).
  destruct n0 as [g|l].
  - unfold complete in *. now rewrite fix_names.
  - destruct W as [W1 W2]. split.
    + unfold names in *. rewrite map_map. exact W1.
    + intros m g Hg. apply in_map_iff in Hg. destruct Hg as [[m0 g0] [E Hg]]. cbn [fst snd] in E. assert (E1 : m0 = m) by congruence. assert (E2 : g = fix_group (constrained rs mono name m0) g0) by congruence. subst m0. rewrite E2. unfold complete. rewrite !fix_names. apply (W2 m g0 Hg).
Qed.
Lemma group_total rs mono name g : complete g -> exists g', reproject_group rs mono name g = Some g'.
Proof.
  rewrite complete_tags. intros [H1 H2]. unfold reproject_group. destruct (_ || mono); [eauto|]. rewrite (proj2 (member_in _ _) H1). destruct rs; [|eauto].
  rewrite project_keys_names, (proj2 (member_in _ _) H2). eauto.
Qed.
Lemma all_some_pairs_total {A B} (f : text -> A -> option B) (l : list (text * A)) : (forall n a, In (n, a) l -> exists b, f n a = Some b) ->
  exists r, all_some (map (fun e => option_map (pair (fst e)) (f (fst e) (snd e))) l) = Some r.
Proof.
  induction l as [|[n a] l IH]; intros H; [now exists []|]. cbn. destruct (H n a (or_introl eq_refl)) as [b ->]. cbn. destruct IH as [r ->]; [intros; apply H; now right|]. cbn. eauto.
Qed.
Lemma reproject_total rs mono t : well_formed t -> reproject rs mono t = Some (fixed rs mono t).
Proof.
  intros W. assert (exists t', reproject rs mono t = Some t') as [t' H].
  { unfold reproject. apply (all_some_pairs_total (fun n a => reproject_node rs mono n a)). intros name n Hn. unfold reproject_node. destruct (contains picnn_tag name) eqn:P; [|eauto].
    specialize (W name n Hn P). destruct n as [g|l].
    - pose proof W as W0. rewrite complete_tags in W0. rewrite (proj2 (member_in _ _) (proj1 W0)). destruct (group_total rs (mono || contains monotone_tag name) name g W) as [g' ->]. cbn. eauto.
    - destruct W as [W1 W2]. destruct (member (names l) k_wz) eqn:M; [apply member_in in M; contradiction|].
      destruct (all_some_pairs_total (fun n g => reproject_group rs (mono || contains monotone_tag name) n g) l) as [r ->]; [|cbn; eauto]. intros m g Hg. apply group_total. eauto. }
  rewrite H. f_equal. now apply reproject_fixed.
Qed.
Lemma reproject_again rs mono t t' : well_formed t -> reproject rs mono t = Some t' -> reproject rs mono t' = Some t'.
Proof.
  intros W H. apply reproject_fixed in H. subst. rewrite reproject_total by now apply fixed_well_formed. now rewrite fixed_twice.
Qed.
(** Along a whole training run. *)
Lemma training_nonneg rs mono update p steps : (forall k q, well_formed q -> well_formed (update k q)) -> well_formed p ->
  exists q, training rs mono update p steps = Some q /\ well_formed q /\
    ((0 < steps)%nat -> forall outer inner key d, dense_at q outer inner key d -> constrained rs mono outer inner key = true -> nonnegative d).
Proof.
  intros U W. induction steps as [|k [q [IH1 [IH2 _]]]].
  - exists p. split; [reflexivity|]. split; [exact W|lia].
  - cbn [training]. rewrite IH1. rewrite reproject_total by now apply U. eexists. split; [reflexivity|]. split; [now apply fixed_well_formed, U|].
    intros _ outer inner key d. apply fixed_nonneg.
Qed.
