From Coq Require Import List Bool Arith ZArith Reals Lra Lia Permutation Sorted.
From Verif Require Import Model.Subsample Model.Stats Model.Metrics Model.Scenred Spec.MetricsSpec Spec.ScenredSpec Spec.TreeBuildSpec
  Proof.SeriesProof Proof.SubsampleProof Proof.StatsProof Proof.MetricsProof Proof.ScenredProof Proof.ScenredProof2 Proof.ScenredProof3.
Import ListNotations.

Section Paths.
Context {V : Type} (g : graph V) (Hg : rooted_tree g).
Let len := length (g_nodes g).
Lemma edge_range a b : In (a, b) (g_edges g) -> a < len /\ b < len.
Proof.
  intros Hin. destruct Hg as (Hne & _ & Hp & He). destruct (He _ _ Hin) as [Hlt _]. assert (Hb : In b (map snd (g_edges g))) by (apply in_map_iff; exists (a, b); auto).
  eapply Permutation_in in Hb; [|exact Hp]. apply in_seq in Hb. fold len in Hb. lia.
Qed.
Lemma path_range path x i : path_to g path x -> x < len -> i < length path -> nth i path 0 < len /\ time_of g (nth i path 0) = i.
Proof.
  intros (H1 & H2 & H3 & H4) Hx Hi. assert (Hz : nth 0 path 0 = 0) by (rewrite (nth_indep path 0 x) by lia; exact H2). induction i as [|i IH].
  - rewrite Hz. split; [lia|apply Hg].
  - specialize (IH ltac:(lia)). specialize (H4 i Hi). destruct (edge_range _ _ H4) as [A B]. split; [exact B|]. destruct Hg as (_ & _ & _ & He). destruct (He _ _ H4) as [_ ->]. lia.
Qed.
Lemma edge_unique a a' b : In (a, b) (g_edges g) -> In (a', b) (g_edges g) -> a = a'.
Proof.
  intros H H'. destruct (edge_range _ _ H) as [A B]. assert (b <> 0) by (destruct Hg as (_ & _ & _ & He); destruct (He _ _ H); lia).
  destruct (parents_one g Hg b) as (p & P1 & _); [fold len; lia|].
  assert (Hin : forall c, In (c, b) (g_edges g) -> In c (parents (g_edges g) b)).
  { intros c Hc. unfold parents. apply in_map_iff. exists (c, b). split; [reflexivity|]. apply filter_In. split; [exact Hc|]. cbn. apply Nat.eqb_refl. }
  pose proof (Hin _ H) as I1. pose proof (Hin _ H') as I2. rewrite P1 in I1, I2. destruct I1 as [<-|[]]. destruct I2 as [<-|[]]. reflexivity.
Qed.
Lemma path_last path x : path_to g path x -> nth (time_of g x) path 0 = x.
Proof.
  intros (H1 & _ & H3 & _). destruct path as [|a path] using rev_ind; [discriminate|]. rewrite last_last in H3. subst a. rewrite app_length in H1. cbn in H1.
  rewrite app_nth2 by lia. replace (time_of g x - length path) with 0 by lia. reflexivity.
Qed.
Lemma path_unique path path' x : path_to g path x -> path_to g path' x -> path = path'.
Proof.
  intros H H'. apply (list_eq_nth _ _ 0); [destruct H as (-> & _), H' as (-> & _); reflexivity|]. intros i Hi.
  assert (Hd : forall d, d <= time_of g x -> nth (time_of g x - d) path 0 = nth (time_of g x - d) path' 0).
  { induction d as [|d IH]; intros Hd; [rewrite Nat.sub_0_r, (path_last path x H), (path_last path' x H'); reflexivity|].
    specialize (IH ltac:(lia)). destruct H as (H1 & _ & _ & H4), H' as (H1' & _ & _ & H4').
    specialize (H4 (time_of g x - S d) ltac:(lia)). specialize (H4' (time_of g x - S d) ltac:(lia)). replace (S (time_of g x - S d)) with (time_of g x - d) in * by lia.
    rewrite IH in H4. eapply edge_unique; eauto. }
  destruct H as (H1 & _). specialize (Hd (time_of g x - i) ltac:(lia)). replace (time_of g x - (time_of g x - i)) with i in Hd by lia. exact Hd.
Qed.
Lemma path_exists x : x < len -> exists path, path_to g path x.
Proof.
  intros Hx. destruct (ancestors_path g Hg (time_of g x) x (time_of g x) Hx eq_refl (le_n _)) as (_ & H & _). eauto.
Qed.
Lemma path_step path a b : path_to g path a -> In (a, b) (g_edges g) -> path_to g (path ++ [b]) b.
Proof.
  intros H Hin. pose proof (path_last _ _ H) as Hl. destruct H as (H1 & H2 & H3 & H4). destruct Hg as (_ & _ & _ & He). destruct (He _ _ Hin) as [Hlt Ht].
  unfold path_to. rewrite app_length, Ht. cbn. split; [lia|]. split; [rewrite app_nth1 by lia; rewrite (nth_indep path b a) by lia; exact H2|]. split; [apply last_last|].
  intros i Hi. destruct (Nat.eq_dec (S i) (length path)) as [E|E].
  - rewrite (app_nth1 path) by lia. rewrite app_nth2 by lia. rewrite E, Nat.sub_diag. cbn. replace i with (time_of g a) by lia. rewrite Hl. exact Hin.
  - rewrite !app_nth1 by lia. apply H4. lia.
Qed.
End Paths.

Lemma retrieve_tree {V} (g : graph V) : rooted_tree g ->
  exists cols leaves, retrieve g = Some (cols, leaves) /\ NoDup leaves /\
    (forall x, In x leaves <-> x < length (g_nodes g) /\ forall y, y < length (g_nodes g) -> time_of g y <= time_of g x) /\
    Forall2 (path_to g) cols leaves /\ forall path x, In x leaves -> path_to g path x -> In path cols.
Proof.
  intros Hg. destruct (retrieve_paths g Hg) as (cols & E & F). set (leaves := filter _ _) in *. exists cols, leaves. split; [exact E|].
  assert (Hmax : forall y, y < length (g_nodes g) -> time_of g y <= maximum (map n_time (g_nodes g))).
  { intros y Hy. apply maximum_ge. unfold time_of. apply nth_In. rewrite map_length. exact Hy. }
  assert (Hl : forall x, In x leaves <-> x < length (g_nodes g) /\ time_of g x = maximum (map n_time (g_nodes g))).
  { intros x. unfold leaves. rewrite filter_In, in_seq, Nat.eqb_eq. intuition lia. }
  assert (Hreach : exists x, x < length (g_nodes g) /\ time_of g x = maximum (map n_time (g_nodes g))).
  { assert (Hn : g_nodes g <> []) by apply Hg. unfold time_of. clear -Hn. assert (Hm : In (maximum (map n_time (g_nodes g))) (map n_time (g_nodes g))).
    { assert (Hq : map n_time (g_nodes g) <> []) by (destruct (g_nodes g); [contradiction|discriminate]). revert Hq. generalize (map n_time (g_nodes g)). induction l as [|a l IH]; intros Hq; [contradiction|].
      rewrite maximum_cons. destruct l as [|b l]; [left; cbn; lia|]. specialize (IH ltac:(discriminate)). destruct (Nat.max_dec a (maximum (b :: l))) as [->| ->]; [left; reflexivity|right; exact IH]. }
    apply (In_nth _ _ 0) in Hm. rewrite map_length in Hm. destruct Hm as (x & Hx & Hn'). eauto. }
  split; [apply NoDup_filter, seq_NoDup|]. split; [|split; [exact F|]].
  - intros x. rewrite Hl. split; intros [Hx Ht]; (split; [exact Hx|]).
    + intros y Hy. rewrite Ht. auto.
    + destruct Hreach as (z & Hz & Ez). specialize (Ht z Hz). specialize (Hmax x Hx). lia.
  - intros path x Hx Hp. clear -F Hx Hp Hg. revert Hx. induction F as [|c y cols ls Hc F IH]; intros Hx; [contradiction|]. destruct Hx as [->|Hx]; [left; eapply path_unique; eauto|right; auto].
Qed.
Lemma retrieve_positions {V} (g : graph V) T cols leaves : rooted_tree g -> consistent T g -> retrieve g = Some (cols, leaves) ->
  (exists x, x < length (g_nodes g) /\ S (time_of g x) = T) ->
  node_positions T (length cols) (length (g_nodes g)) (fun t s => nth t (nth s cols []) 0).
Proof.
  intros Hg [_ Hc] E (z & Hz & Ez). destruct (retrieve_tree g Hg) as (cols' & leaves' & E' & Hn & Hl & F & Hall). rewrite E in E'. injection E' as <- <-.
  assert (HT : forall x, In x leaves <-> x < length (g_nodes g) /\ S (time_of g x) = T).
  { intros x. rewrite Hl. split; intros [Hx Ht]; (split; [exact Hx|]).
    - specialize (Ht z Hz). destruct (Hc x Hx) as (_ & A & _). lia.
    - intros y Hy. destruct (Hc y Hy) as (_ & A & _). lia. }
  assert (Hcol : forall s, s < length cols -> exists x, In x leaves /\ path_to g (nth s cols []) x).
  { clear -F. induction F as [|c y cs ls Hc F IH]; intros s Hs; [cbn in Hs; lia|]. destruct s as [|s]; [exists y; split; [left; reflexivity|exact Hc]|].
    destruct (IH s ltac:(cbn in Hs; lia)) as (x & A & B). exists x. split; [right; exact A|exact B]. }
  assert (Hpt : forall t s, t < T -> s < length cols -> nth t (nth s cols []) 0 < length (g_nodes g) /\ time_of g (nth t (nth s cols []) 0) = t).
  { intros t s Ht Hs. destruct (Hcol s Hs) as (x & Hx & Hp). apply HT in Hx. destruct Hx as [Hx Hxt]. eapply path_range; eauto. destruct Hp as (-> & _). lia. }
  assert (Hdesc : forall d x, x < length (g_nodes g) -> S (time_of g x) + d = T -> exists y path, In y leaves /\ path_to g path y /\ nth (time_of g x) path 0 = x).
  { induction d as [|d IH]; intros x Hx Hd.
    - destruct (path_exists g Hg x Hx) as (path & Hp). exists x, path. split; [apply HT; split; [exact Hx|lia]|]. split; [exact Hp|]. apply path_last; exact Hp.
    - destruct (Hc x Hx) as (Hpos & _ & Hch). specialize (Hch ltac:(lia)). unfold children_of in Hch.
      destruct (filter (fun e => (fst e =? x)%nat) (g_edges g)) as [|[a b] l] eqn:Ef; [cbn in Hch; lra|].
      assert (Hin : In (a, b) (filter (fun e => (fst e =? x)%nat) (g_edges g))) by (rewrite Ef; left; reflexivity). apply filter_In in Hin. destruct Hin as [Hin Ea]. cbn in Ea. apply Nat.eqb_eq in Ea. subst a.
      destruct (edge_range g Hg _ _ Hin) as [_ Hb]. assert (Htb : time_of g b = S (time_of g x)) by (apply Hg; exact Hin).
      destruct (IH b Hb ltac:(lia)) as (y & path & Hy & Hp & Hnb). exists y, path. split; [exact Hy|]. split; [exact Hp|].
      apply HT in Hy. destruct Hp as (P1 & P2 & P3 & P4). specialize (P4 (time_of g x) ltac:(lia)). rewrite <- Htb, Hnb in P4. eapply edge_unique; eauto. }
  split; [intros t s Ht Hs; apply Hpt; auto|]. split.
  - intros i Hi. destruct (Hc i Hi) as (_ & A & _). destruct (Hdesc (T - S (time_of g i)) i Hi ltac:(lia)) as (y & path & Hy & Hp & Hn').
    pose proof (Hall path y Hy Hp) as Hin. apply (In_nth _ _ []) in Hin. destruct Hin as (s & Hs & Hns). exists (time_of g i), s. split; [exact A|]. split; [exact Hs|]. rewrite Hns. exact Hn'.
  - intros t s t' s' Ht Hs Ht' Hs' Eq. destruct (Hpt t s Ht Hs) as [_ <-]. destruct (Hpt t' s' Ht' Hs') as [_ <-]. rewrite Eq. reflexivity.
Qed.
